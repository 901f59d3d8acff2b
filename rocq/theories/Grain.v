(** Changing the grain of a triangle (core/triangle.py 639-757). *)
From Verif Require Export View.
Local Open Scope Z_scope.

(** core/triangle.py 664-669 [valid], and the position in [valid["M"]] (line 684). *)
Definition valid_grain (old new : grain) : bool :=
  match old, new with
  | GY, GY => true
  | GQ, GQ | GQ, GS | GQ, GY => true
  | GM, _ => true
  | GS, GS | GS, GY => true
  | _, _ => false
  end.
Definition grain_rank (g : grain) : nat := match g with GY => 0 | GS => 1 | GQ => 2 | GM => 3 end%nat.

(** pandas: first month of the period of frequency [g] that contains month [o], with
    year end in month-of-year [close] (0 = January).  The frequency "2Q" of a half-year
    starts at the quarter that contains the date. *)
Definition period_start (close : Z) (g : grain) (o : Z) : Z :=
  match g with
  | GY => o - (o - (close + 1)) mod 12
  | GS | GQ => o - (o - (close + 1)) mod 3
  | GM => o
  end.

(** core/triangle.py 693-708 [resample]: first month of the bin of origin [o].  Bins of
    "2Q" follow each other from the quarter of the first origin.  (The grain "M" is
    never the new one here.) *)
Definition resample_start (close : Z) (g : grain) (first o : Z) : Z :=
  match g with
  | GS => let q0 := period_start close GQ first in q0 + 6 * ((o - q0) / 6)
  | _ => period_start close g o
  end.

(** core/base.py 267-291 [_get_grain], trailing = False: the grain is inferred from the
    months of the year that occur. *)
Definition infer_grain (dates : list Z) : grain :=
  let months := zunion (map (fun o => o mod 12) dates) [] in
  let diffs := zdiffs months in
  if (List.length months =? 1)%nat then GY
  else if forallb (fun d => d =? 6) diffs then GS
  else if forallb (fun d => d =? 3) diffs then GQ
  else GM.

(** core/triangle.py 710 with core/pandas.py 390-444: sum of the origins of each bin.
    The code slices the origins of a bin, sums them (zero sums become NaN) and
    concatenates; this is written as one array.  Slicing limits the valuation date to
    the last valuation. The origin grain is inferred from the new origins. *)
Definition group_origins (close : Z) (g : grain) (t : tri) : result tri :=
  let bins := map (resample_start close g (hd 0 (odims t))) (odims t) in
  let starts := zunion bins [] in
  let a := values t in
  let r := Arr (ax0 a) (ax1 a) (List.length starts) (ax3 a) (fun i c p d =>
    n2n (Some (sumn (ax2 a) (fun o => if nth o bins 0 =? nth p starts 0 then nz (av a i c o d) else 0%Qc)))) in
  clip_vdate (set_grains (set_odims (set_values t r) starts) (infer_grain starts) (dgrain t)).

(** core/triangle.py 722-729: starts of the development periods from the first origin
    up to, not including, the one of the first valuation (calendar quarters). *)
Definition addl_labels (g : grain) (o v : Z) : list Z :=
  let step := match g with GM => 1 | _ => 3 end in
  let s := period_start 11 g o in
  map (fun k => s + step * Z.of_nat k) (seq 0 (Z.to_nat ((period_start 11 g v - s) / step))).

(** core/triangle.py 713-733.  A half-year development grain has no pandas frequency
    ("S-DEC"), so [pd.Period] raises ValueError.  If there are no labels to add, or
    more than columns, the code goes on with an array that does not fit its labels;
    that is an error value here. *)
Definition add_leading (close : Z) (t : tri) : result tri :=
  match dgrain t with
  | GS => Err ValueError
  | g =>
    let v0 := valuation t 0 0 in
    let o0 := hd 0 (odims t) in
    if (1 <? List.length (dlist (ddims t)))%nat && negb (period_start close (ograin t) o0 =? period_start close g v0) then
      let ts := addl_labels g o0 v0 in
      let k := List.length ts in
      if (k =? 0)%nat || (ax3 (values t) <? k)%nat then Err OtherError else
      do s <- iloc_dev t (Some (- Z.of_nat k)) None;
      do z <- mul_arr s (scalar_arr 0%Qc);
      do r <- concat [set_ddims z (Vals ts); t] AxDev;
      Ok (set_values r (map_arr n2n (values r)))
    else Ok t
  end.

(** core/triangle.py 737-739: every [step]-th position counted from the last. *)
Definition kept_positions (n step : nat) : list nat :=
  rev (map (fun z => Z.to_nat (Z.of_nat n - z - 1)) (py_range 0 (Z.of_nat n) (Z.of_nat step))).

(** core/triangle.py 735-749.  For increments the columns are grouped by the label list
    [d2] and added (core/pandas.py 390-444, as in [group_origins]). *)
Definition thin_dev (dg : grain) (t : tri) : result tri :=
  do step <- dstep (dgrain t) dg;
  let d := kept_positions (ax3 (values t)) step in
  do obj <-
    match is_cumulative t with
    | Some true => do s <- contig_slice (map Z.of_nat d); get_idx t all_slice all_slice all_slice s
    | _ =>
      let a := values t in
      let d2 := (repeat (hd 0 d) (S (hd 0 d)) ++ flat_map (fun x => repeat x step) (tl d))%nat in
      let r := Arr (ax0 a) (ax1 a) (ax2 a) (List.length d) (fun i c o j =>
        n2n (Some (sumn (ax3 a) (fun k => if (nth k d2 0 =? nth j d 0)%nat then nz (av a i c o k) else 0%Qc)))) in
      do s <- clip_vdate t;
      Ok (set_ddims (set_values s r) (dmap (fun l => sel l 0 d) (ddims t)))
    end;
  Ok (set_grains obj (ograin obj) dg).

(** core/triangle.py 691-749: the part of [grain] that works on the valuation view.
    [close] is the month of the year in which periods end (lines 693-697). *)
Definition regrain (close : Z) (og dg : grain) (t : tri) : result tri :=
  do obj <- (if grain_eqb og (ograin t) then Ok t
             else do g <- group_origins close og t; add_leading close g);
  if negb (grain_eqb dg (dgrain t)) && (1 <? ax3 (values obj))%nat then thin_dev dg obj else Ok obj.

(** core/triangle.py 639-757 [grain('OxDy')]. *)
Definition grain_to (close : Z) (og dg : grain) (t : tri) : result tri :=
  if negb (valid_grain (ograin t) og && valid_grain (dgrain t) dg) then Err ValueError else
  if (match is_cumulative t with None => true | _ => false end) && negb (grain_eqb dg (dgrain t)) && (1 <? ax3 (values t))%nat
  then Err AttributeError else
  if (grain_rank dg <? grain_rank og)%nat then Err ValueError else
  do v <- dev_to_val t;
  do obj <- regrain close og dg v;
  if is_val_tri t then dev_to_val obj else val_to_dev obj.
