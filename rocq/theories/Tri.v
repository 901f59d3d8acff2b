(** The Triangle object and its core operations.  Definitions only. *)
From Verif Require Export Arr.
Local Open Scope Z_scope.

Inductive grain := GY | GS | GQ | GM.
Definition grain_eqb (a b : grain) : bool :=
  match a, b with GY, GY | GS, GS | GQ, GQ | GM, GM => true | _, _ => false end.

(** Development axis: ages in months, or valuation dates (core/triangle.py
    391-393, [is_val_tri] is "ddims is a DatetimeIndex"). *)
Inductive ddim := Ages (l : list Z) | Vals (l : list Z).
Definition dlist (d : ddim) : list Z := match d with Ages l => l | Vals l => l end.
Definition dmap (f : list Z -> list Z) (d : ddim) : ddim :=
  match d with Ages l => Ages (f l) | Vals l => Vals (f l) end.

(** core/triangle.py 109-278: the attributes of a Triangle.  Dates are month
    numbers 12*year + month - 1: an origin is the month in which it starts, a
    valuation the month at whose end it is taken.  Not modelled: array backend
    (see Sparse.v), virtual columns (see Heap.v), origin_close. *)
Record tri := Tri {
  kdims : list (list string); key_labels : list string;
  vdims : list string;
  odims : list Z; ddims : ddim;
  values : arr;
  vdate : Z;
  is_cumulative : option bool; is_pattern : bool;
  ograin : grain; dgrain : grain }.

Definition set_values (t : tri) (a : arr) : tri :=
  Tri (kdims t) (key_labels t) (vdims t) (odims t) (ddims t) a (vdate t)
      (is_cumulative t) (is_pattern t) (ograin t) (dgrain t).
Definition set_vdate (t : tri) (v : Z) : tri :=
  Tri (kdims t) (key_labels t) (vdims t) (odims t) (ddims t) (values t) v
      (is_cumulative t) (is_pattern t) (ograin t) (dgrain t).
Definition set_cumulative (t : tri) (b : option bool) : tri :=
  Tri (kdims t) (key_labels t) (vdims t) (odims t) (ddims t) (values t) (vdate t)
      b (is_pattern t) (ograin t) (dgrain t).
Definition set_pattern (t : tri) (b : bool) : tri :=
  Tri (kdims t) (key_labels t) (vdims t) (odims t) (ddims t) (values t) (vdate t)
      (is_cumulative t) b (ograin t) (dgrain t).
Definition set_dims (t : tri) k v o d : tri :=
  Tri k (key_labels t) v o d (values t) (vdate t)
      (is_cumulative t) (is_pattern t) (ograin t) (dgrain t).
Definition set_ddims (t : tri) d : tri := set_dims t (kdims t) (vdims t) (odims t) d.
Definition set_odims (t : tri) o : tri := set_dims t (kdims t) (vdims t) o (ddims t).
Definition set_vdims (t : tri) v : tri := set_dims t (kdims t) v (odims t) (ddims t).
Definition set_kdims (t : tri) k : tri := set_dims t k (vdims t) (odims t) (ddims t).
Definition set_keys (t : tri) k kl : tri :=
  Tri k kl (vdims t) (odims t) (ddims t) (values t) (vdate t)
      (is_cumulative t) (is_pattern t) (ograin t) (dgrain t).
Definition set_grains (t : tri) og dg : tri :=
  Tri (kdims t) (key_labels t) (vdims t) (odims t) (ddims t) (values t) (vdate t)
      (is_cumulative t) (is_pattern t) og dg.

Definition no_ (t : tri) : nat := ax2 (values t).
Definition nd_ (t : tri) : nat := ax3 (values t).
Definition cel (t : tri) := av (values t).

(** __init__.py 3-26: options.ULT_VAL = 2261-12-31; the age label 9999 stands
    for ultimate. *)
Definition ULT_VAL : Z := 12 * 2261 + 11.
Definition ULT_AGE : Z := 9999.

(** core/base.py 367-391 [valuation]: for an age triangle the valuation of
    (origin, age) is the end of month min(origin, valuation_date) + age - 1;
    a last age of 9999 is valued at ULT_VAL.  For a valuation triangle it is
    the development label. *)
Definition valuation (t : tri) (o d : nat) : Z :=
  match ddims t with
  | Vals l => nth d l 0
  | Ages l =>
      if (last l 0 =? ULT_AGE) && (d =? List.length l - 1)%nat then ULT_VAL
      else Z.min (nth o (odims t) 0) (vdate t) + nth d l 0 - 1
  end.

(** core/base.py 207-219 [nan_triangle]: all ones if there is one origin or one
    development period, otherwise NaN where the valuation is after the
    valuation date. *)
Definition nan_triangle (t : tri) (o d : nat) : cell :=
  if (Nat.min (ax2 (values t)) (ax3 (values t)) =? 1)%nat then Some 1%Qc
  else if vdate t <? valuation t o d then None else Some 1%Qc.

(** All valuations of the triangle, and their maximum ([valuation.max()]). *)
Definition valuations (t : tri) : list Z :=
  flat_map (fun o => map (fun d => valuation t o d) (seq 0 (List.length (dlist (ddims t)))))
           (seq 0 (List.length (odims t))).
Definition zmaxl (l : list Z) (d : Z) : Z := fold_right Z.max d l.
Definition zminl (l : list Z) (d : Z) : Z := fold_right Z.min d l.

(** * Slicing (core/slice.py) *)

Inductive slicer := Slice (start stop step : option Z) | Fancy (l : list Z).

Fixpoint zdiffs (l : list Z) : list Z :=
  match l with
  | a :: ((b :: _) as r) => (b - a) :: zdiffs r
  | _ => []
  end.

(** core/slice.py 35-56 [_contig_slice] on a list of positions. *)
Definition contig_slice (arr : list Z) : result slicer :=
  match arr with
  | [a] => Ok (Slice (Some a) (Some (a + 1)) None)
  | _ =>
    match zdiffs arr with
    | [] => Err ValueError                       (* Slice returns empty Triangle *)
    | d :: ds =>
      if zmaxl ds d =? zminl ds d then
        let step := zmaxl ds d in
        let step' := if step =? 1 then None else Some step in
        let mn := zminl arr (hd 0 arr) in
        let mx := zmaxl arr (hd 0 arr) in
        let min_arr := if mn =? 0 then None else Some mn in
        let max_arr := mx + 1 in
        if (match step' with Some s => negb (s =? 0) && (s <? 0) | None => false end)
        then Ok (Slice (Some (max_arr - 1))
                       (match min_arr with Some m => Some (m - 1) | None => None end) step')
        else Ok (Slice min_arr (Some max_arr) step')
      else Ok (Fancy arr)
    end
  end.

(** core/slice.py 68-81 [_normalize_index] on a slice key.  sparse's
    [normalize_index] first resolves the slice to integers as
    [slice.indices] does. *)
Definition normalize_slice (start stop step : option Z) (n : nat) : result slicer :=
  do t <- slice_triple start stop step n;
  let '(a, b, s) := t in
  let a' := if 0 <? a then Some a else None in
  let b' := if -1 <? b then (if b =? Z.of_nat n then None else Some b) else None in
  let s' := match a', b' with None, None => None | _, _ => Some s end in
  Ok (Slice a' b' s').

(** Positions selected by a slicer on an axis of length n. *)
Definition positions (s : slicer) (n : nat) : result (list nat) :=
  match s with
  | Slice a b st => slice_positions a b st n
  | Fancy l => if forallb (fun z => (0 <=? z) && (z <? Z.of_nat n)) l
               then Ok (map Z.to_nat l) else Err IndexError
  end.

Definition sel {A} (l : list A) (d : A) (ix : list nat) : list A := map (fun i => nth i l d) ix.

(** Selection of positions on each axis together with the labels. *)
Definition sel_tri (t : tri) (ik ic io id : list nat) : tri :=
  Tri (sel (kdims t) [] ik) (key_labels t) (sel (vdims t) EmptyString ic)
      (sel (odims t) 0 io) (dmap (fun l => sel l 0 id) (ddims t))
      (sel_arr ik ic io id (values t)) (vdate t)
      (is_cumulative t) (is_pattern t) (ograin t) (dgrain t).

(** core/slice.py 32: [valuation_date = minimum(valuation.max(), valuation_date)].
    An empty selection has no maximum; it is an error value here (the code
    raises IndexError or produces NaT). *)
Definition clip_vdate (t : tri) : result tri :=
  match valuations t with
  | [] => Err IndexError
  | v :: vs => Ok (set_vdate t (Z.min (zmaxl vs v) (vdate t)))
  end.

(** core/slice.py 15-33 [get_idx] on slicers already passed through
    [_contig_slice]; fancy positions on origin or development raise. *)
Definition is_slice (s : slicer) : bool := match s with Slice _ _ _ => true | _ => false end.
Definition get_idx (t : tri) (si sc so sd : slicer) : result tri :=
  if negb (is_slice so && is_slice sd) then Err ValueError else
  do ik <- positions si (ax0 (values t));
  do ic <- positions sc (ax1 (values t));
  do io <- positions so (ax2 (values t));
  do id <- positions sd (ax3 (values t));
  clip_vdate (sel_tri t ik ic io id).

Definition all_slice := Slice None None None.

(** [t.iloc[..., a:b]] on the development axis (core/slice.py 175-176). *)
Definition iloc_dev (t : tri) (a b : option Z) : result tri :=
  do s <- normalize_slice a b None (ax3 (values t));
  get_idx t all_slice all_slice all_slice s.
(** [t.iloc[..., j]] for an integer j (negative counts from the end). *)
Definition iloc_dev_int (t : tri) (j : Z) : result tri :=
  let n := Z.of_nat (ax3 (values t)) in
  if (j <? - n) || (n <=? j) then Err IndexError else
  let j' := if j <? 0 then j + n else j in
  do s <- contig_slice [j'];
  get_idx t all_slice all_slice all_slice s.

(** * Arithmetic with a raw array on the right (core/dunders.py 20-46, 242-273) *)

(** core/dunders.py 42-46 [_arithmetic_cleanup]. *)
Definition cleanup (t : tri) : tri :=
  let a := values t in
  set_values t (Arr (ax0 a) (ax1 a) (ax2 a) (ax3 a)
    (fun i c o d => n2n (cmul (av a i c o d) (Some (nz (nan_triangle t o d)))))).

Definition nz_add (x y : cell) : cell := Some (nz x + nz y)%Qc.
Definition nz_sub (x y : cell) : cell := Some (nz x - nz y)%Qc.

(** core/dunders.py 242-252 / 257-267, [other] a plain array. *)
Definition add_arr (t : tri) (b : arr) : result tri :=
  do v <- bmap2 nz_add (values t) b; Ok (cleanup (set_values t v)).
Definition sub_arr (t : tri) (b : arr) : result tri :=
  do v <- bmap2 nz_sub (values t) b; Ok (cleanup (set_values t v)).
(** core/dunders.py 291-301, 324-334: no cleanup for * and /. *)
Definition mul_arr (t : tri) (b : arr) : result tri :=
  do v <- bmap2 cmul (values t) b; Ok (set_values t v).
Definition div_arr (t : tri) (b : arr) : result tri :=
  do v <- bmap2 cdiv (values t) b; Ok (set_values t v).
(** scalar operands *)
Definition scalar_arr (q : Qc) : arr := Arr 1 1 1 1 (fun _ _ _ _ => Some q).

(** * Concatenation (utils/utility_functions.py 274-351), ignore_index = False *)

Definition mem_str (s : string) (l : list string) : bool := existsb (String.eqb s) l.
Fixpoint nodup_strb (l : list string) : bool :=
  match l with [] => true | x :: r => negb (mem_str x r) && nodup_strb r end.
Fixpoint nodup_Zb (l : list Z) : bool :=
  match l with [] => true | x :: r => negb (existsb (Z.eqb x) r) && nodup_Zb r end.
Fixpoint strs_eqb (a b : list string) : bool :=
  match a, b with
  | [], [] => true
  | x :: a, y :: b => String.eqb x y && strs_eqb a b
  | _, _ => false
  end.
Fixpoint keys_eqb (a b : list (list string)) : bool :=
  match a, b with
  | [], [] => true
  | x :: a, y :: b => strs_eqb x y && keys_eqb a b
  | _, _ => false
  end.
Fixpoint Zs_eqb (a b : list Z) : bool :=
  match a, b with
  | [], [] => true
  | x :: a, y :: b => (x =? y) && Zs_eqb a b
  | _, _ => false
  end.
Definition ddim_eqb (a b : ddim) : bool :=
  match a, b with
  | Ages x, Ages y => Zs_eqb x y
  | Vals x, Vals y => Zs_eqb x y
  | _, _ => false
  end.
Fixpoint nodup_keysb (l : list (list string)) : bool :=
  match l with [] => true | x :: r => negb (existsb (strs_eqb x) r) && nodup_keysb r end.

(** core/slice.py 236-243 [t[col] = scalar] for a new column:
    (t.iloc[:,0]*0 + scalar) is appended; for 0 and nan every cell is missing
    after the addition's cleanup. *)
Definition add_empty_col (t : tri) (col : string) : tri :=
  let a := values t in
  set_values (set_vdims t (vdims t ++ [col]))
    (Arr (ax0 a) (S (ax1 a)) (ax2 a) (ax3 a)
       (fun i c o d => if (c <? ax1 a)%nat then av a i c o d else None)).

(** utility_functions.py 309-320: union of the columns in order of first
    appearance; each object gets the missing ones appended. *)
Definition union_cols (objs : list tri) : list string :=
  fold_left (fun acc t => fold_left (fun acc c => if mem_str c acc then acc else acc ++ [c])
                                    (vdims t) acc) objs [].
Definition fill_cols (all : list string) (t : tri) : tri :=
  fold_left (fun t c => if mem_str c (vdims t) then t else add_empty_col t c) all t.

Inductive axis := AxIndex | AxColumn | AxOrigin | AxDev.
Definition axis_num (a : axis) : nat :=
  match a with AxIndex => 0 | AxColumn => 1 | AxOrigin => 2 | AxDev => 3 end%nat.

Definition ddim_app (a b : ddim) : result ddim :=
  match a, b with
  | Ages x, Ages y => Ok (Ages (x ++ y))
  | Vals x, Vals y => Ok (Vals (x ++ y))
  | _, _ => Err TypeError
  end.
Fixpoint ddim_concat (a : ddim) (l : list ddim) : result ddim :=
  match l with
  | [] => Ok a
  | b :: l => do r <- ddim_concat b l; ddim_app a r
  end.

Definition concat (objs : list tri) (ax : axis) : result tri :=
  match objs with
  | [] => Err ValueError
  | _ :: _ =>
    let objs := match ax with
                | AxColumn => objs
                | _ => map (fill_cols (union_cols objs)) objs end in
    match objs with
    | [] => Err ValueError
    | t0 :: rest =>
      let same_k := forallb (fun t => keys_eqb (kdims t) (kdims t0)) rest in
      let same_o := forallb (fun t => Zs_eqb (odims t) (odims t0)) rest in
      let same_d := forallb (fun t => ddim_eqb (ddims t) (ddims t0)) rest in
      let cmp := match ax with
        | AxIndex => same_o && same_d && nodup_keysb (List.concat (map kdims objs))
        | AxColumn => same_k && same_o && same_d && nodup_strb (List.concat (map vdims objs))
        | AxOrigin => same_k && same_d && nodup_Zb (List.concat (map odims objs))
        | AxDev => same_k && same_o && nodup_Zb (List.concat (map (fun t => dlist (ddims t)) objs))
        end in
      if negb cmp then Err AssertionError else
      do v <- cat_all (axis_num ax) (values t0) (map values rest);
      do d <- match ax with
              | AxDev => ddim_concat (ddims t0) (map ddims rest)
              | _ => Ok (ddims t0) end;
      let k := match ax with AxIndex => List.concat (map kdims objs) | _ => kdims t0 end in
      let c := match ax with AxColumn => List.concat (map vdims objs) | _ => vdims t0 end in
      let o := match ax with AxOrigin => List.concat (map odims objs) | _ => odims t0 end in
      Ok (set_vdate (set_values (set_dims t0 k c o d) v)
                    (zmaxl (map vdate rest) (vdate t0)))
    end
  end.

(** * Accumulation and differencing (core/triangle.py 427-518) *)

(** core/triangle.py 427-480, dense backend.  [is_additive] patterns (zeta_) are
    handled by [incr_to_cum_additive]. *)
Definition incr_to_cum (t : tri) : tri :=
  match is_cumulative t with
  | Some true => t
  | _ =>
    let a := values t in
    if is_pattern t then
      (* 451-454: reverse cumulative product, missing and zero factors count as 1 *)
      set_cumulative (set_values t (Arr (ax0 a) (ax1 a) (ax2 a) (ax3 a)
        (fun i c o d => cmul
           (Some (prodn (ax3 a - d) (fun k => nz (n2v 1%Qc (Some (nz (av a i c o (d + k)%nat)))))))
           (nan_triangle t o d)))) (Some true)
    else
      (* 457-461, 475 *)
      set_cumulative (set_values t (Arr (ax0 a) (ax1 a) (ax2 a) (ax3 a)
        (fun i c o d => n2n (cmul (av (cumsum3 a) i c o d) (nan_triangle t o d)))))
        (Some true)
  end.

(** core/triangle.py 443-449: additive pattern. *)
Definition incr_to_cum_additive (t : tri) : tri :=
  match is_cumulative t with
  | Some true => t
  | _ =>
    let a := values t in
    set_cumulative (set_values t (Arr (ax0 a) (ax1 a) (ax2 a) (ax3 a)
      (fun i c o d => cmul (Some (sumn (ax3 a - d) (fun k => nz (av a i c o (d + k)%nat))))
                           (nan_triangle t o d)))) (Some true)
  end.

(** core/triangle.py 482-518. *)
Definition cum_to_incr (t : tri) : result tri :=
  match is_cumulative t with
  | Some false => Ok t
  | _ =>
    if is_pattern t then
      let t1 := set_values t (map_arr (fun x => n2v 1%Qc (Some (nz x))) (values t)) in
      do hi <- iloc_dev t1 None (Some (-1));
      do lo <- iloc_dev t1 (Some 1) None;
      do diff <- div_arr hi (values lo);
      do lst <- iloc_dev_int t1 (-1);
      do r <- concat [diff; lst] AxDev;
      let a := values r in
      let r' := set_values r (Arr (ax0 a) (ax1 a) (ax2 a) (ax3 a)
                  (fun i c o d => cmul (av a i c o d) (nan_triangle r o d))) in
      Ok (set_vdate (set_cumulative r' (Some false)) (vdate t))
    else
      do hi <- iloc_dev t (Some 1) None;
      do lo <- iloc_dev t None (Some (-1));
      do diff <- sub_arr hi (values lo);
      do fst_ <- iloc_dev_int t 0;
      do r <- concat [fst_; diff] AxDev;
      Ok (set_vdate (set_cumulative r (Some false)) (vdate t))
  end.

(** * Boolean slicing (core/slice.py 182-264) *)

Definition count_true (n : nat) (f : nat -> bool) : nat := List.length (filter f (seq 0 n)).

(** core/slice.py 245-254 [_slice_valuation]; the key is given per (origin, age). *)
Definition slice_valuation (t : tri) (key : nat -> nat -> bool) : result tri :=
  let a := values t in
  let cells := flat_map (fun o => map (fun d => (o, d)) (seq 0 (ax3 a))) (seq 0 (ax2 a)) in
  let kept := filter (fun p => key (fst p) (snd p)) cells in
  match map (fun p => valuation t (fst p) (snd p)) kept with
  | [] => Err ValueError
  | v :: vs =>
    let t1 := set_vdate t (Z.min (zmaxl vs v) (vdate t)) in
    let t2 := set_values t1 (Arr (ax0 a) (ax1 a) (ax2 a) (ax3 a)
       (fun i c o d => n2n (cmul (av a i c o d) (Some (if key o d then 1%Qc else 0%Qc))))) in
    let rows := filter (fun o => existsb (fun d => key o d) (seq 0 (ax3 a))) (seq 0 (ax2 a)) in
    let cols := filter (fun d => existsb (fun o => key o d) (seq 0 (ax2 a))) (seq 0 (ax3 a)) in
    do so <- contig_slice (map Z.of_nat rows);
    do sd <- contig_slice (map Z.of_nat cols);
    get_idx t2 all_slice all_slice so sd
  end.

(** core/slice.py 256-264 [_slice] on the origin axis: no change of the
    valuation date. *)
Definition slice_origin (t : tri) (key : nat -> bool) : result tri :=
  let a := values t in
  let rows := filter key (seq 0 (ax2 a)) in
  do s <- contig_slice (map Z.of_nat rows);
  match s with
  | Fancy _ => Ok (sel_tri t (seq 0 (ax0 a)) (seq 0 (ax1 a)) rows (seq 0 (ax3 a)))
  | _ => do io <- positions s (ax2 a);
         Ok (sel_tri t (seq 0 (ax0 a)) (seq 0 (ax1 a)) io (seq 0 (ax3 a)))
  end.

(** core/slice.py 183-190: a boolean array over the valuations; with a single
    development period it is taken as an origin filter. *)
Definition getitem_valuation (t : tri) (key : nat -> nat -> bool) : result tri :=
  if (1 <? ax3 (values t))%nat then slice_valuation t key
  else slice_origin t (fun o => key o 0%nat).

(** * Aggregation (core/pandas.py 347-384), sum *)

(** core/pandas.py 350-382 with v = "nansum".  The scalar returned for a
    1x1x1x1 result is represented by that triangle. *)
Definition all_label : string := "(All)"%string.
Definition sum_axis (t : tri) (ax : axis) : tri :=
  let a := values t in
  let r := map_arr n2n (nansum_axis (axis_num ax) a) in
  let t1 := set_values t r in
  match ax with
  | AxIndex => if (1 <? List.length (kdims t))%nat
               then set_kdims t1 [map (fun _ => all_label) (key_labels t)] else t1
  | AxColumn => if (1 <? List.length (vdims t))%nat then set_vdims t1 ["0"%string] else t1
  | AxOrigin => if (1 <? List.length (odims t))%nat then set_odims t1 (firstn 1 (odims t)) else t1
  | AxDev => if (1 <? List.length (dlist (ddims t)))%nat
             then set_ddims t1 (Vals [vdate t]) else t1
  end.

(** core/triangle.py 403-405 *)
Definition latest_diagonal (t : tri) : result tri :=
  do s <- getitem_valuation t (fun o d => valuation t o d =? vdate t);
  Ok (sum_axis s AxDev).

(** core/triangle.py 395-397 [is_full] *)
Definition is_full (t : tri) : bool :=
  forallb (fun o => forallb (fun d => negb (is_nan (nan_triangle t o d)))
                            (seq 0 (ax3 (values t)))) (seq 0 (ax2 (values t))).

(** core/triangle.py 399-401 [is_ultimate]: some valuation is in 2261 or later *)
Definition is_ultimate (t : tri) : bool :=
  existsb (fun v => 12 * 2261 <=? v) (valuations t).
Definition is_val_tri (t : tri) : bool := match ddims t with Vals _ => true | _ => false end.

(** core/triangle.py 407-421 [link_ratio]; the optional w_ weights are not
    modelled here. [1 / t] is core/dunders.py 336-340. *)
Definition rdiv_scalar (q : Qc) (t : tri) : tri :=
  set_values t (map_arr (fun x => n2n (cdiv (Some q) x)) (values t)).
Definition link_ratio (t : tri) : result tri :=
  if is_pattern t then Ok t else
  do a <- iloc_dev t None (Some (-1));
  do b <- iloc_dev t (Some 1) None;
  do obj <- mul_arr (rdiv_scalar 1%Qc a) (values b);
  do obj' <- (if is_full obj then Ok obj
              else getitem_valuation obj (fun o d => valuation obj o d <? vdate obj));
  Ok (set_values (set_cumulative (set_pattern obj' true) (Some false))
                 (map_arr n2n (values obj'))).
