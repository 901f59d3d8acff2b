(** Arithmetic and comparison between triangles (core/dunders.py), row lookup and
    sorting.  Definitions only. *)
From Verif Require Export Tri.
Local Open Scope Z_scope.

Fixpoint mapm {A B} (f : A -> result B) (l : list A) : result (list B) :=
  match l with
  | [] => Ok []
  | x :: r => do y <- f x; do ys <- mapm f r; Ok (y :: ys)
  end.

(** * Selecting and sorting index rows *)

(** [t.iloc[rows]] for a list of row positions (core/slice.py 15-33, 175-176). *)
Definition iloc_rows (t : tri) (rows : list nat) : result tri :=
  do s <- contig_slice (map Z.of_nat rows); get_idx t s all_slice all_slice all_slice.

(** Python's [list.index]: ValueError if absent. *)
Fixpoint find_str (c : string) (l : list string) : result nat :=
  match l with
  | [] => Err ValueError
  | x :: r => if String.eqb c x then Ok 0%nat else do n <- find_str c r; Ok (S n)
  end.
(** core/slice.py 200-202: [t[[c1, c2, ...]]]. *)
Definition getitem_cols (t : tri) (cols : list string) : result tri :=
  do idx <- mapm (fun c => find_str c (vdims t)) cols;
  do s <- contig_slice (map Z.of_nat idx);
  get_idx t all_slice s all_slice all_slice.

(** Lexicographic order of index keys, as in DataFrame.sort_values. *)
Fixpoint key_leb (a b : list string) : bool :=
  match a, b with
  | [], _ => true
  | _ :: _, [] => false
  | x :: a, y :: b =>
    match String.compare x y with Lt => true | Gt => false | Eq => key_leb a b end
  end.
Definition row_key (t : tri) (i : nat) : list string := nth i (kdims t) [].
Fixpoint insert_row (t : tri) (i : nat) (l : list nat) : list nat :=
  match l with
  | [] => [i]
  | j :: r => if key_leb (row_key t i) (row_key t j) then i :: l else j :: insert_row t i r
  end.
Definition sorted_rows (t : tri) : list nat :=
  fold_right (insert_row t) [] (seq 0 (List.length (kdims t))).
(** core/pandas.py 325-326 [sort_index]. *)
Definition sort_index (t : tri) : result tri := iloc_rows t (sorted_rows t).

Definition rows_with (t : tri) (k : list string) : list nat :=
  filter (fun i => strs_eqb (row_key t i) k) (seq 0 (List.length (kdims t))).
(** core/slice.py 106-110, 136-138 [t.loc[index]]: KeyError if a key is absent.
    Dropping a constant first key label (108-109) only changes labels and is not
    modelled here. *)
Definition loc_rows (t : tri) (ks : list (list string)) : result tri :=
  do idx <- mapm (fun k => match rows_with t k with [] => Err KeyError | l => Ok l end) ks;
  iloc_rows t (List.concat idx).

(** * Alignment of two operands *)

(** core/dunders.py 48-60. *)
Definition compatible (x y : tri) : bool :=
  grain_eqb (ograin x) (ograin y) &&
  (grain_eqb (dgrain x) (dgrain y) || negb (1 <? Nat.min (ax3 (values x)) (ax3 (values y)))%nat).

(** core/dunders.py 101-136.  [new_x_cols] is only assigned when the right
    operand has a column the left one lacks. *)
Definition prep_columns (x y : tri) : result (tri * tri) :=
  let nx := List.length (vdims x) in
  let ny := List.length (vdims y) in
  if (nx =? 1)%nat && (1 <? ny)%nat then Ok (set_vdims x (vdims y), y)
  else if (ny =? 1)%nat && (1 <? nx)%nat then Ok (x, set_vdims y (vdims x))
  else if (nx =? 1)%nat && (ny =? 1)%nat && negb (strs_eqb (vdims x) (vdims y))
       then Ok (x, set_vdims y (vdims x))
  else if (ax1 (values x) =? ax1 (values y))%nat && strs_eqb (vdims x) (vdims y) then Ok (x, y)
  else
    let add_x := filter (fun c => negb (mem_str c (vdims x))) (vdims y) in
    let add_y := filter (fun c => negb (mem_str c (vdims y))) (vdims x) in
    match add_x with
    | [] => Err UnboundLocalError
    | _ =>
      let cols := vdims x ++ add_x in
      do x' <- getitem_cols (fill_cols cols x) cols;
      do y' <- getitem_cols (fill_cols (vdims y ++ add_y) y) cols;
      Ok (x', y')
    end.

(** Elementwise [!=] of two label arrays, true everywhere. *)
Fixpoint all_differ (a b : list Z) : bool :=
  match a, b with x :: a, y :: b => negb (x =? y) && all_differ a b | _, _ => true end.
Definition ddim_all_differ (a b : ddim) : bool :=
  match a, b with
  | Ages x, Ages y => all_differ x y
  | Vals x, Vals y => all_differ x y
  | _, _ => true
  end.

(** Sorted union of two label lists (pd.concat(axis=1).sort_index()); labels
    within each list are assumed distinct. *)
Fixpoint zinsert (x : Z) (l : list Z) : list Z :=
  match l with
  | [] => [x]
  | y :: r => if x <? y then x :: l else if x =? y then l else y :: zinsert x r
  end.
Definition zunion (a b : list Z) : list Z := fold_right zinsert [] (a ++ b).
Definition mem_Z (x : Z) (l : list Z) : bool := existsb (Z.eqb x) l.
(** First position of the union that carries a label of l, and one past the last. *)
Fixpoint first_pos (u l : list Z) : nat :=
  match u with [] => 0%nat | x :: r => if mem_Z x l then 0%nat else S (first_pos r l) end.
Definition last_pos (u l : list Z) : nat := (List.length u - first_pos (rev u) l)%nat.

(** numpy slice assignment into an array of NaN: [z[:, :, ol:oh, dl:dh] = a]. *)
Definition fits (m n : nat) : bool := ((m =? n) || (m =? 1))%nat.
Definition place (n0 n1 n2 n3 ol oh dl dh : nat) (a : arr) : result arr :=
  if fits (ax0 a) n0 && fits (ax1 a) n1 && fits (ax2 a) (oh - ol) && fits (ax3 a) (dh - dl)
  then Ok (Arr n0 n1 n2 n3 (fun i c o d =>
    if ((ol <=? o) && (o <? oh) && (dl <=? d) && (d <? dh))%nat
    then av a (bidx (ax0 a) i) (bidx (ax1 a) c) (bidx (ax2 a) (o - ol)) (bidx (ax3 a) (d - dl))
    else None))
  else Err ValueError.

Definition bcast_ok (m n : nat) : bool := ((m =? n) || (m =? 1) || (n =? 1))%nat.

(** core/dunders.py 138-209, dense backend.  [s0], [s1] are the first two
    dimensions of the original left operand ([self.shape], line 191). *)
Definition prep_origin_dev (s0 s1 : nat) (x y : tri) : result (tri * tri) :=
  let lo x := List.length (odims x) in
  let ld x := List.length (dlist (ddims x)) in
  let b0 := bcast_ok (ax2 (values x)) (ax2 (values y)) && bcast_ok (ax3 (values x)) (ax3 (values y)) in
  let b := if ((lo x =? lo y) && (ld x =? ld y))%nat
           then b0 && negb (ddim_all_differ (ddims x) (ddims y) && (1 <? ld x)%nat)
                   && negb (all_differ (odims x) (odims y) && (1 <? lo x)%nat)
           else b0 in
  let xy := if ((lo y =? 1) && (1 <? lo x))%nat
            then (x, set_grains (set_odims y (odims x)) (ograin x) (dgrain y))
            else if ((lo x =? 1) && (1 <? lo y))%nat
            then (set_grains (set_odims x (odims y)) (ograin y) (dgrain x), y)
            else (x, y) in
  let '(x, y) := xy in
  let xy := if ((ld y =? 1) && (1 <? ld x))%nat
            then (x, set_grains (set_ddims y (ddims x)) (ograin y) (dgrain x))
            else if ((ld x =? 1) && (1 <? ld y))%nat
            then (set_grains (set_ddims x (ddims y)) (ograin x) (dgrain y), y)
            else (x, y) in
  let '(x, y) := xy in
  if b then Ok (x, y) else
  do dd <- match ddims x, ddims y with
           | Ages a, Ages b => Ok (Ages (zunion a b))
           | Vals a, Vals b => Ok (Vals (zunion a b))
           | _, _ => Err TypeError
           end;
  let od := zunion (odims x) (odims y) in
  let du := dlist dd in
  let no := List.length od in
  let nd := List.length du in
  do vy <- place (ax0 (values y)) (ax1 (values y)) no nd
                 (first_pos od (odims y)) (last_pos od (odims y))
                 (first_pos du (dlist (ddims y))) (last_pos du (dlist (ddims y))) (values y);
  do vx <- place s0 s1 no nd
                 (first_pos od (odims x)) (last_pos od (odims x))
                 (first_pos du (dlist (ddims x))) (last_pos du (dlist (ddims x))) (values x);
  Ok (set_values (set_ddims (set_odims x od) dd) vx, set_values y vy).

(** The labels agree with the array; sorting and grouping below are modelled
    only then (a broadcast operand carries more labels than cells). *)
Definition shaped (t : tri) : bool :=
  ((ax0 (values t) =? List.length (kdims t)) && (ax1 (values t) =? List.length (vdims t)) &&
   (ax2 (values t) =? List.length (odims t)) && (ax3 (values t) =? List.length (dlist (ddims t))))%nat.

Inductive prepared := Plain (x : tri) (b : arr) | Grouped (x y : tri).

Definition subset_str (a b : list string) : bool := forallb (fun c => mem_str c b) a.

(** core/dunders.py 62-99. *)
Definition prep_index (x y : tri) : result prepared :=
  let nx := List.length (kdims x) in
  let ny := List.length (kdims y) in
  if ((nx =? 1) && (1 <? ny))%nat then Ok (Plain (set_keys x (kdims y) (key_labels y)) (values y))
  else if ((1 <? nx) && (ny =? 1))%nat then Ok (Plain x (values y))
  else if ((nx =? 1) && (ny =? 1))%nat && negb (strs_eqb (key_labels x) (key_labels y)) then
    if (List.length (key_labels y) <? List.length (key_labels x))%nat
    then Ok (Plain x (values y))
    else Ok (Plain (set_keys x (kdims y) (key_labels y)) (values y))
  else
    let sx := subset_str (key_labels x) (key_labels y) in
    let sy := subset_str (key_labels y) (key_labels x) in
    if negb (sx || sy) then Err ValueError
    else if negb (sx && sy) || negb (nx =? ny)%nat then
      if shaped x && shaped y then Ok (Grouped x y) else Err NotImplementedError
    else if (1 <? nx)%nat && negb (keys_eqb (kdims x) (kdims y)) then
      if negb (shaped x && shaped y && strs_eqb (key_labels x) (key_labels y))
      then Err NotImplementedError
      else
        do x' <- sort_index x;
        match loc_rows y (kdims x') with
        | Ok y' => Ok (Plain x' (values y'))
        | Err _ => Ok (Grouped x' y)
        end
    else Ok (Plain x (values y)).

(** core/dunders.py 20-40. *)
Definition validate (x y : tri) : result prepared :=
  if negb (compatible x y) then Err ValueError else
  let p := Bool.eqb (is_pattern x) (is_pattern y) in
  let x1 := set_vdate (if p then x else set_pattern x false) (Z.max (vdate x) (vdate y)) in
  let y1 := if p then y else set_pattern y false in
  do xy <- prep_columns x1 y1;
  do xy <- prep_origin_dev (ax0 (values x)) (ax1 (values x)) (fst xy) (snd xy);
  prep_index (fst xy) (snd xy).

(** * The operators *)

Inductive aop := OAdd | OSub | OMul | ODiv.
Definition op_arr (op : aop) : tri -> arr -> result tri :=
  match op with OAdd => add_arr | OSub => sub_arr | OMul => mul_arr | ODiv => div_arr end.

(** One operation on two operands that need no grouping; grouping the two
    slices of one group again would not terminate (RecursionError). *)
Definition plain_op (op : aop) (x y : tri) : result tri :=
  do p <- validate x y;
  match p with Plain x b => op_arr op x b | Grouped _ _ => Err OtherError end.

(** The part of a key that belongs to the common key labels. *)
Definition proj (labels common : list string) (k : list string) : list string :=
  map snd (filter (fun p => mem_str (fst p) common) (combine labels k)).
Definition common_labels (x y : tri) : list string :=
  filter (fun c => mem_str c (key_labels y)) (key_labels x).
Definition rows_of_group (t : tri) (common : list string) (k : list string) : list nat :=
  filter (fun i => strs_eqb (proj (key_labels t) common (row_key t i)) k) (seq 0 (List.length (kdims t))).

(** core/dunders.py 211-225 [_slice_or_nan].  For a key absent from x, with
    different key labels on the two sides, the new key contains NaN: not
    modelled. *)
Definition slice_or_nan (x y : tri) (common k : list string) : result tri :=
  match rows_of_group x common k with
  | (_ :: _) as rows => iloc_rows x rows
  | [] =>
    if strs_eqb (key_labels x) (key_labels y) then
      do z <- iloc_rows x [0%nat];
      do z0 <- mul_arr z (scalar_arr 0%Qc);
      Ok (set_kdims z0 [row_key y (last (rows_of_group y common k) 0%nat)])
    else Err NotImplementedError
  end.

(** core/dunders.py 227-230: group keys of either operand; Python's set order is
    arbitrary and is undone by [sort_index]. *)
Definition dedup_keys (l : list (list string)) : list (list string) :=
  fold_right (fun k acc => if existsb (strs_eqb k) acc then acc else k :: acc) [] l.
Definition group_keys (x y : tri) (common : list string) : list (list string) :=
  dedup_keys (map (proj (key_labels x) common) (kdims x) ++ map (proj (key_labels y) common) (kdims y)).

(** core/dunders.py 232-267, 291-334. *)
Definition tri_op (op : aop) (x y : tri) : result tri :=
  do p <- validate x y;
  match p with
  | Plain x b => op_arr op x b
  | Grouped x y =>
    let common := common_labels x y in
    do rs <- mapm (fun k => do a <- slice_or_nan x y common k;
                            do b <- slice_or_nan y x common k;
                            plain_op op a b) (group_keys x y common);
    do c <- concat rs AxIndex;
    do s <- sort_index c;
    Ok (match op with OAdd | OSub => cleanup s | _ => s end)
  end.

(** core/dunders.py 254-255 [0 + t] and Python's [sum] of a list of triangles. *)
Definition radd_scalar (q : Qc) (t : tri) : result tri :=
  if Qc_eqb q 0%Qc then Ok t else add_arr t (scalar_arr q).
Definition py_sum (l : list tri) : result tri :=
  match l with
  | [] => Err TypeError                      (* sum([]) is the int 0 *)
  | t :: r => fold_left (fun acc u => do a <- acc; tri_op OAdd a u) r (radd_scalar 0%Qc t)
  end.

(** core/dunders.py 278-281. *)
Definition neg_tri (t : tri) : tri := set_values t (map_arr copp (values t)).

(** * Comparison (core/dunders.py 342-372) *)

(** [x == y]: incompatible shapes raise (numpy 1.25 and later). *)
Definition tri_eq (x y : tri) : result bool :=
  do e <- bmap2 (fun a b => Some (if Qc_eqb (nz a) (nz b) then 1%Qc else 0%Qc)) (values x) (values y);
  Ok (forallb (fun i => forallb (fun c => forallb (fun o => forallb (fun d =>
        negb (Qc_eqb (nz (av e i c o d)) 0%Qc))
      (seq 0 (ax3 e))) (seq 0 (ax2 e))) (seq 0 (ax1 e))) (seq 0 (ax0 e))).
(** [x < a] for a number or an array (a Triangle on the right raises TypeError
    in nan_to_num); truth values are 1 and 0. *)
Definition cell_lt (a b : cell) : cell := Some (if Qc_ltb (nz a) (nz b) then 1%Qc else 0%Qc).
Definition lt_arr (t : tri) (b : arr) : result tri :=
  do v <- bmap2 cell_lt (values t) b; Ok (set_values t v).
(** core/dunders.py 368-372: [<=] is written with [<]. *)
Definition le_arr (t : tri) (b : arr) : result tri :=
  do v <- bmap2 cell_lt (values t) b; Ok (set_values t v).
