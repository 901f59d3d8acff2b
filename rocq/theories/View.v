(** Development and valuation view (core/triangle.py 520-637). *)
From Verif Require Export Arith.
Local Open Scope Z_scope.

(** core/triangle.py 520-526 [_dstep]: number of periods of the first grain in one
    of the second; KeyError if the second is finer. *)
Definition dstep (fine coarse : grain) : result nat :=
  match fine, coarse with
  | GM, GY => Ok 12%nat | GM, GS => Ok 6%nat | GM, GQ => Ok 3%nat | GM, GM => Ok 1%nat
  | GQ, GY => Ok 4%nat | GQ, GS => Ok 2%nat | GQ, GQ => Ok 1%nat
  | GS, GY => Ok 2%nat | GS, GS => Ok 1%nat
  | GY, GY => Ok 1%nat
  | _, _ => Err KeyError
  end.

(** Coordinates (origin, development) of the cells a sparse array with fill value
    NaN stores: the cells that are not NaN. *)
Definition stored_coords (a : arr) : list (nat * nat) :=
  flat_map (fun i => flat_map (fun c => flat_map (fun o =>
    map (fun d => (o, d)) (filter (fun d => negb (is_nan (av a i c o d))) (seq 0 (ax3 a))))
    (seq 0 (ax2 a))) (seq 0 (ax1 a))) (seq 0 (ax0 a)).

(** Distinct valuations up to the valuation date, in order
    ([drop_duplicates().sort_values()]). *)
Definition known_valuations (t : tri) : list Z :=
  zunion (filter (fun v => v <=? vdate t) (valuations t)) [].

(** core/triangle.py 528-555 [_val_dev]: the stored cells of origin [o] are moved by
    [sign * o * scale] columns.  If all stored cells belong to the first origin the
    shift is that of the last origin (the "edge case #239" lines 538-540: the sign
    is applied twice).  If a column becomes negative everything is moved right.
    Coordinates beyond the new shape raise IndexError when the array is made dense
    again; that the array may stay sparse (AUTO_SPARSE, large triangles) is not
    modelled.  The development labels are left as they are. *)
Definition val_dev (sign : Z) (t : tri) : result tri :=
  do scale <- dstep (dgrain t) (ograin t);
  let a := values t in
  let co := stored_coords a in
  let slide := Z.of_nat ((ax2 a - 1) * scale) in
  let first_only := forallb (fun p => fst p =? 0)%nat co in
  let off o := if first_only then slide else sign * Z.of_nat (o * scale) in
  let cols := map (fun p => Z.of_nat (snd p) + off (fst p)) co in
  let n0 := List.length (known_valuations t) in
  let n1 := if (n0 =? 1)%nat && (sign =? -1) then List.length (odims t) else n0 in
  let '(adj, n) := match cols with
    | [] => (0, n1)
    | z :: zs => if zminl zs z <? 0
                 then let k := - Z.min (zminl zs z) (- slide) in (k, Nat.max (Z.to_nat (zmaxl zs z + k + 1)) n1)
                 else (0, n1)
    end in
  if forallb (fun z => z + adj <? Z.of_nat n) cols then
    Ok (set_values t (Arr (ax0 a) (ax1 a) (ax2 a) n (fun i c o d =>
      let k := Z.of_nat d - off o - adj in
      if (0 <=? k) && (k <? Z.of_nat (ax3 a)) then av a i c o (Z.to_nat k) else None)))
  else Err IndexError.

(** core/triangle.py 580-581 (the labels), 590-591. *)
Definition shift_to_val (t : tri) : result tri :=
  do obj <- val_dev 1 t;
  Ok (set_ddims obj (Vals (known_valuations obj))).

(** core/triangle.py 557-598. *)
Definition dev_to_val (t : tri) : result tri :=
  if is_val_tri t then Ok t else
  if is_full t then
    let cum := match is_cumulative t with Some true => true | _ => false end in
    do obj <- (if cum then cum_to_incr t else Ok t);
    do obj' <-
      (if is_ultimate t then
         do ultimate <- iloc_dev obj (Some (-1)) None;
         do rest <- iloc_dev obj None (Some (-1));
         do shifted <- shift_to_val rest;
         concat [shifted; set_ddims ultimate (Vals [valuation ultimate 0 0])] AxDev
       else shift_to_val obj);
    Ok (if cum then incr_to_cum obj' else obj')
  else shift_to_val t.

(** core/triangle.py 622-630: ages from the first valuation; [single] says that the
    original triangle is one column at its valuation date. *)
Definition shift_to_dev (single : bool) (t : tri) : result tri :=
  do obj <- val_dev (-1) t;
  let val_0 := hd 0 (dlist (ddims obj)) in
  let origin_0 := if single then last (odims obj) 0 else hd 0 (odims obj) in
  let lag_0 := val_0 - origin_0 + 1 in
  do scale <- dstep GM (dgrain obj);
  Ok (set_ddims obj (Ages (map (fun k => Z.of_nat k * Z.of_nat scale + lag_0) (seq 0 (ax3 (values obj)))))).

(** core/triangle.py 600-637. *)
Definition val_to_dev (t : tri) : result tri :=
  match ddims t with
  | Ages _ => Ok t
  | Vals vs =>
    let single := (List.length vs =? 1)%nat && (hd 0 vs =? vdate t) in
    if is_ultimate t && (1 <? ax3 (values t))%nat then
      do ultimate <- iloc_dev t (Some (-1)) None;
      do rest <- iloc_dev t None (Some (-1));
      do obj <- shift_to_dev single rest;
      let o := (ax2 (values obj) - 1)%nat in
      let n := count_true (ax3 (values obj)) (fun d => valuation obj o d <=? vdate obj) in
      do cut <- iloc_dev obj None (Some (Z.of_nat n));
      concat [cut; set_ddims ultimate (Ages [ULT_AGE])] AxDev
    else shift_to_dev single t
  end.
