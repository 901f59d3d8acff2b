(** Grouping, sorting, shifting and trimming.  Definitions only. *)
From Coq Require Import DecimalString.
From Verif Require Export Arith Loc.
Local Open Scope Z_scope.

(** * Grouping index rows (core/pandas.py 16-36, 387-444, axis 0, "sum") *)

(** pandas [groupby(by)]: the distinct keys in ascending order. *)
Fixpoint key_insert (k : list string) (l : list (list string)) : list (list string) :=
  match l with
  | [] => [k]
  | x :: r => if strs_eqb k x then l else if key_leb k x then k :: l else x :: key_insert k r
  end.
Definition group_index (keys : list (list string)) : list (list string) := fold_right key_insert [] keys.
(** [groups.indices]: the positions of the rows of a group, ascending. *)
Definition members (keys : list (list string)) (g : list string) : list nat :=
  filter (fun i => strs_eqb (nth i keys []) g) (seq 0 (List.length keys)).

(** utils/utility_functions.py 274-351 with axis 0 and ignore_index: labels are numbered
    (they are overwritten by the caller) and need not be distinct. *)
Definition concat_ignore (objs : list tri) : result tri :=
  match map (fill_cols (union_cols objs)) objs with
  | [] => Err ValueError
  | t0 :: rest =>
    if negb (forallb (fun t => Zs_eqb (odims t) (odims t0)) rest && forallb (fun t => ddim_eqb (ddims t) (ddims t0)) rest)
    then Err AssertionError else
    do v <- cat_all 0 (values t0) (map values rest);
    Ok (set_vdate (set_values (set_keys t0 (map (fun i => [NilZero.string_of_uint (Nat.to_uint i)]) (seq 0 (ax0 v))) ["Index"%string]) v)
                  (zmaxl (map vdate rest) (vdate t0)))
  end.
(** [t.groupby(by).sum()]; [keys] are the values of [by] in each row, [labels] the
    names of [by].  The dask branch (399-409) does the same per group. *)
Definition groupby_sum (keys : list (list string)) (labels : list string) (t : tri) : result tri :=
  do parts <- mapm (fun g => do s <- iloc_rows t (members keys g); Ok (sum_axis s AxIndex)) (group_index keys);
  do r <- concat_ignore parts;
  Ok (set_keys r (group_index keys) labels).
(** Grouping by some of the key labels: the values of these labels in each row. *)
Definition groupby_labels (by_ : list string) (t : tri) : result tri :=
  groupby_sum (map (proj (key_labels t) by_) (kdims t)) by_ t.

(** * Sorting (core/triangle.py 950-983) *)

(** Stable insertion sort of the positions below n ([Series.sort_values().index]). *)
Fixpoint insert_pos (leb : nat -> nat -> bool) (i : nat) (l : list nat) : list nat :=
  match l with
  | [] => [i]
  | j :: r => if leb i j then i :: l else j :: insert_pos leb i r
  end.
Definition sort_pos (leb : nat -> nat -> bool) (n : nat) : list nat := fold_right (insert_pos leb) [] (seq 0 n).
Definition str_leb (a b : string) : bool := match String.compare a b with Gt => false | _ => true end.
Definition Zstr (z : Z) : string := NilZero.string_of_int (Z.to_int z).
Definition step_months (g : grain) : Z := match g with GY => 12 | GS => 6 | GQ => 3 | GM => 1 end.
(** core/triangle.py 345-362: the labels [development] shows for a pattern. *)
Definition pattern_label (t : tri) (d : nat) : string :=
  let l := dlist (ddims t) in
  let n := List.length l in
  let a := if is_ultimate t && (d =? n - 1)%nat then nth (n - 2) l 0 + step_months (dgrain t) else nth d l 0 in
  match is_cumulative t with
  | Some true => (Zstr a ++ "-Ult")%string
  | _ => (Zstr a ++ "-" ++ Zstr (a + step_months (dgrain t)))%string
  end.
Definition dev_leb (t : tri) (i j : nat) : bool :=
  match ddims t with
  | Ages l => if is_pattern t then str_leb (pattern_label t i) (pattern_label t j) else nth i l 0 <=? nth j l 0
  | Vals l => nth i l 0 <=? nth j l 0      (* formatted dates sort like dates *)
  end.
Definition sort_axis (t : tri) (ax : axis) : result tri :=
  let a := values t in
  let all0 := seq 0 (ax0 a) in let all1 := seq 0 (ax1 a) in let all2 := seq 0 (ax2 a) in let all3 := seq 0 (ax3 a) in
  match ax with
  | AxIndex => sort_index t
  | AxColumn => Ok (sel_tri t all0 (sort_pos (fun i j => str_leb (nth i (vdims t) ""%string) (nth j (vdims t) ""%string)) (ax1 a)) all2 all3)
  | AxOrigin => Ok (sel_tri t all0 all1 (sort_pos (fun i j => nth i (odims t) 0 <=? nth j (odims t) 0) (ax2 a)) all3)
  | AxDev => Ok (sel_tri t all0 all1 all2 (sort_pos (dev_leb t) (ax3 a)))
  end.

(** * Shifting (core/triangle.py 885-948) *)

Definition KAll : pkey := KSlice None None None.
(** [t * 0]: missing cells stay missing, others become 0. *)
Definition times0 (t : tri) : result tri := mul_arr t (scalar_arr 0%Qc).
(** One step.  [rename] puts labels of [t] on the part that moves; valuation and
    pattern triangles get text labels there and are not modelled on the
    development axis. *)
Definition shift1 (t : tri) (fwd : bool) (ax : axis) : result tri :=
  match ax with
  | AxIndex | AxColumn => Err AttributeError
  | AxDev =>
    if is_val_tri t || is_pattern t then Err NotImplementedError else
    if fwd then
      do a <- iloc t KAll KAll KAll (KSlice (Some 1) None None);
      do b <- iloc t KAll KAll KAll (KSlice (Some (-1)) None None);
      do z <- times0 b;
      concat [set_ddims a (dmap (@removelast Z) (ddims t)); z] AxDev
    else
      do b <- iloc t KAll KAll KAll (KSlice None (Some 1) None);
      do z <- times0 b;
      do a <- iloc t KAll KAll KAll (KSlice None (Some (-1)) None);
      concat [z; set_ddims a (dmap (@tl Z) (ddims t))] AxDev
  | AxOrigin =>
    if fwd then
      do a <- iloc t KAll KAll (KSlice (Some 1) None None) KAll;
      do b <- iloc t KAll KAll (KSlice (Some (-1)) None None) KAll;
      do z <- times0 b;
      concat [set_odims a (removelast (odims t)); z] AxOrigin
    else
      do b <- iloc t KAll KAll (KSlice None (Some 1) None) KAll;
      do z <- times0 b;
      do a <- iloc t KAll KAll (KSlice None (Some (-1)) None) KAll;
      concat [z; set_odims a (tl (odims t))] AxOrigin
  end.
Fixpoint shift_n (n : nat) (fwd : bool) (ax : axis) (t : tri) : result tri :=
  match n with O => Ok t | S n => do u <- shift1 t fwd ax; shift_n n fwd ax u end.
Definition shift (t : tri) (periods : Z) (ax : axis) : result tri :=
  match ax with
  | AxIndex | AxColumn => Err AttributeError
  | _ => shift_n (Z.to_nat (Z.abs periods)) (0 <? periods) ax t
  end.

(** * dropna (core/pandas.py 163-184) *)

(** core/slice.py 256-264 [_slice] on the development axis. *)
Definition slice_dev (t : tri) (key : nat -> bool) : result tri :=
  let a := values t in
  let cols := filter key (seq 0 (ax3 a)) in
  do s <- contig_slice (map Z.of_nat cols);
  do id <- positions s (ax3 a);
  Ok (sel_tri t (seq 0 (ax0 a)) (seq 0 (ax1 a)) (seq 0 (ax2 a)) id).
Fixpoint first_true (l : list bool) : option nat :=
  match l with [] => None | true :: _ => Some O | false :: r => option_map S (first_true r) end.
(** First position that holds, and last one. *)
Definition last_true (l : list bool) : option nat :=
  option_map (fun k => (List.length l - 1 - k)%nat) (first_true (rev l)).
Definition dropna (t : tri) : result tri :=
  let s := sum_axis (sum_axis t AxIndex) AxColumn in
  let a := values s in
  let orow := map (fun o => negb (Qc_eqb (nansum (ax3 a) (fun d => av a 0%nat 0%nat o d)) 0%Qc)) (seq 0 (ax2 a)) in
  if is_pattern t then Err NotImplementedError (* text labels: not modelled *) else
  if (ax2 a =? 1)%nat && (ax3 a =? 1)%nat      (* the sum of a single cell is a number *)
  then Err (if (ax1 (values t) =? 1)%nat then ValueError else AttributeError)
  else
  match first_true orow, last_true orow with
  | Some lo, Some hi =>
    (* origins between the labels at lo and hi *)
    let okey := fun o => (nth lo (odims t) 0 <=? nth o (odims t) 0) && (nth o (odims t) 0 <=? nth hi (odims t) 0) in
    if (ax3 a =? 1)%nat then slice_origin t okey else
    let dcol := filter (fun d => negb (Qc_eqb (nansum (ax2 a) (fun o => av a 0%nat 0%nat o d)) 0%Qc)) (seq 0 (ax3 a)) in
    match dcol with
    | [] => Err ValueError
    | d0 :: ds =>
      let l := dlist (ddims t) in
      let mn := zminl (map (fun d => nth d l 0) ds) (nth d0 l 0) in
      let mx := zmaxl (map (fun d => nth d l 0) ds) (nth d0 l 0) in
      do u <- slice_dev t (fun d => (mn <=? nth d l 0) && (nth d l 0 <=? mx));
      slice_origin u okey
    end
  | _, _ => Err ValueError
  end.
