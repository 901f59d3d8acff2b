(** Sparse storage: coordinate arrays (utils/sparse.py) and the code that treats them
    specially.  Definitions only.

    The array type COO is that of the `sparse` package, which is not part of the repository:
    [coo], [coo_get], [todense], [of_dense], [sp_elemwise], [sp_sum], [sp_cols] and
    [sp_cat_cols] state what that package does; the other definitions model chainladder. *)
From Verif Require Export Arith.
Local Open Scope nat_scope.

Definition pos := (nat * nat * nat * nat)%type.
Definition pos_eqb (p q : pos) : bool :=
  let '(i, c, o, d) := p in let '(i', c', o', d') := q in (i =? i') && (c =? c') && (o =? o') && (d =? d').
(** A coordinate array: shape, the value of cells that are not stored, and the stored cells. *)
Record coo := Coo { s0 : nat; s1 : nat; s2 : nat; s3 : nat; fill : cell; entries : list (pos * cell) }.
Fixpoint lookup (p : pos) (l : list (pos * cell)) : option cell :=
  match l with [] => None | (q, v) :: r => if pos_eqb q p then Some v else lookup p r end.
Definition coo_get (c : coo) (p : pos) : cell := match lookup p (entries c) with Some v => v | None => fill c end.
Definition stored (c : coo) (p : pos) : bool := match lookup p (entries c) with Some _ => true | None => false end.
(** [x.todense()] (common.py 167). *)
Definition todense (c : coo) : arr := Arr (s0 c) (s1 c) (s2 c) (s3 c) (fun i v o d => coo_get c (i, v, o, d)).
Definition all_pos (n0 n1 n2 n3 : nat) : list pos :=
  flat_map (fun i => flat_map (fun c => flat_map (fun o => map (fun d => (i, c, o, d)) (seq 0 n3)) (seq 0 n2)) (seq 0 n1)) (seq 0 n0).
Definition same_cell (x y : cell) : bool :=
  match x, y with Some a, Some b => Qc_eqb a b | None, None => true | _, _ => false end.
(** [sp(dense, fill_value=f)]: the cells that differ from the fill value. *)
Definition of_dense (f : cell) (a : arr) : coo :=
  Coo (ax0 a) (ax1 a) (ax2 a) (ax3 a) f
    (filter (fun e => negb (same_cell (snd e) f))
       (map (fun p : pos => let '(i, c, o, d) := p in (p, av a i c o d)) (all_pos (ax0 a) (ax1 a) (ax2 a) (ax3 a)))).
(** utils/sparse.py 58-66 [array], common.py 175: missing cells are not stored. *)
Definition sp_array (a : arr) : coo := of_dense None a.

Definition with_entries (c : coo) (f : cell) (l : list (pos * cell)) : coo := Coo (s0 c) (s1 c) (s2 c) (s3 c) f l.
(** utils/sparse.py 29-35. *)
Definition sp_nan_to_num (c : coo) : coo := with_entries c (Some 0%Qc) (map (fun e => (fst e, Some (nz (snd e)))) (entries c)).
(** utils/utility_functions.py 354-369 on coordinate arrays: [value] is used only if the
    fill value is neither zero nor missing. *)
Definition zero_cell (x : cell) : bool := match x with Some q => Qc_eqb q 0%Qc | None => false end.
Definition sp_num_to_value (c : coo) (value : cell) : coo :=
  if zero_cell (fill c) || is_nan (fill c)
  then with_entries c None (filter (fun e => negb (zero_cell (snd e))) (entries c))
  else of_dense value (map_arr (fun x => n2n (Some (nz x))) (todense c)).
Definition sp_num_to_nan (c : coo) : coo := sp_num_to_value c None.

(** Elementwise function of two coordinate arrays, with broadcasting: cells stored in
    neither have the value of the two fill values, and cells equal to it are not stored. *)
Definition bpos (c : coo) (p : pos) : pos := let '(i, v, o, d) := p in (bidx (s0 c) i, bidx (s1 c) v, bidx (s2 c) o, bidx (s3 c) d).
Definition sp_elemwise (f : cell -> cell -> cell) (a b : coo) : result coo :=
  do n0 <- bdim (s0 a) (s0 b); do n1 <- bdim (s1 a) (s1 b); do n2 <- bdim (s2 a) (s2 b); do n3 <- bdim (s3 a) (s3 b);
  let z := f (fill a) (fill b) in
  Ok (Coo n0 n1 n2 n3 z
    (filter (fun e => negb (same_cell (snd e) z))
      (map (fun p => (p, f (coo_get a (bpos a p)) (coo_get b (bpos b p))))
        (filter (fun p => stored a (bpos a p) || stored b (bpos b p)) (all_pos n0 n1 n2 n3))))).
(** With a number. *)
Definition sp_map (f : cell -> cell) (c : coo) : coo :=
  with_entries c (f (fill c)) (filter (fun e => negb (same_cell (snd e) (f (fill c)))) (map (fun e => (fst e, f (snd e))) (entries c))).

(** Sum along an axis of an array whose fill value is 0: stored cells are added up by the
    other coordinates. *)
Definition set_coord (k : nat) (x : nat) (p : pos) : pos :=
  let '(i, c, o, d) := p in match k with 0 => (x, c, o, d) | 1 => (i, x, o, d) | 2 => (i, c, x, d) | _ => (i, c, o, x) end.
Definition csum (l : list cell) : cell := fold_right cadd (Some 0%Qc) l.
Fixpoint distinct (l : list pos) : list pos :=
  match l with [] => [] | p :: r => if existsb (pos_eqb p) r then distinct r else p :: distinct r end.
Definition sp_sum (k : nat) (c : coo) : coo :=
  let n j x := if k =? j then 1 else x in
  Coo (n 0 (s0 c)) (n 1 (s1 c)) (n 2 (s2 c)) (if (k <=? 2) then s3 c else 1) (Some 0%Qc)
    (map (fun p => (p, csum (map snd (filter (fun e => pos_eqb (set_coord k 0 (fst e)) p) (entries c)))))
         (distinct (map (fun e => set_coord k 0 (fst e)) (entries c)))).
(** utils/sparse.py 42-46 [nansum]: missing cells become 0 only as the fill value. *)
Definition sp_nansum (k : nat) (c : coo) : coo := sp_sum k (with_entries c (Some 0%Qc) (entries c)).
(** utils/sparse.py 49-55 [nanmean]. *)
Definition sp_count (k : nat) (c : coo) : coo :=
  sp_nansum k (sp_map (fun x => if zero_cell x then Some 0%Qc else Some 1%Qc) (sp_nan_to_num c)).
Definition sp_nanmean (k : nat) (c : coo) : result coo :=
  let n := sp_nansum k c in let d := sp_count k c in
  do out <- sp_elemwise cdiv (with_entries n None (entries n)) (with_entries d None (entries d));
  Ok (with_entries out (Some 0%Qc) (entries out)).
(** numpy [nanmean(., axis, keepdims=True)] of the dense array: cells present are counted. *)
Definition dense_nanmean (k : nat) (a : arr) : arr :=
  let s := nansum_axis k a in let n := nansum_axis k (map_arr (fun x => if is_nan x then None else Some 1%Qc) a) in
  Arr (ax0 s) (ax1 s) (ax2 s) (ax3 s) (fun i c o d => cdiv (av s i c o d) (av n i c o d)).

(** Columns [lo, hi) of the development axis, and arrays side by side. *)
Definition sp_cols (lo hi : nat) (c : coo) : coo :=
  Coo (s0 c) (s1 c) (s2 c) (Nat.min hi (s3 c) - lo) (fill c)
    (flat_map (fun e => let '(i, v, o, d) := fst e in if (lo <=? d) && (d <? hi) then [((i, v, o, d - lo), snd e)] else []) (entries c)).
Definition sp_cat_cols (a b : coo) : coo :=
  Coo (s0 a) (s1 a) (s2 a) (s3 a + s3 b) (fill a)
    (entries a ++ map (fun e => let '(i, v, o, d) := fst e in ((i, v, o, s3 a + d), snd e)) (entries b)).

(** [sparse.concatenate]: other axes and fill values must be the same. *)
Definition sp_concat (a b : coo) : result coo :=
  if (s0 a =? s0 b) && (s1 a =? s1 b) && (s2 a =? s2 b) && same_cell (fill a) (fill b) then Ok (sp_cat_cols a b) else Err ValueError.

(** triangle.py 463-475: accumulation column by column, [m] is the nan_triangle. *)
Definition mask_arr (n2 n3 : nat) (m : nat -> nat -> cell) : arr := Arr 1 1 n2 n3 (fun _ _ o d => m o d).
Definition sp_cum_col (vals msk : coo) (i : nat) : result coo :=
  do p <- sp_elemwise cmul (sp_cols 0 (i + 1) vals) (sp_cols i (i + 1) msk); Ok (sp_sum 3 p).
Fixpoint sp_cum_cols (vals msk : coo) (l : list nat) : result coo :=
  match l with
  | [] => Err ValueError
  | [i] => sp_cum_col vals msk i
  | i :: r => do x <- sp_cum_col vals msk i; do y <- sp_cum_cols vals msk r; Ok (sp_cat_cols x y)
  end.
Definition sp_incr_to_cum (m : nat -> nat -> cell) (c : coo) : result coo :=
  do r <- sp_cum_cols (sp_nan_to_num c) (sp_nan_to_num (sp_array (mask_arr (s2 c) (s3 c) m))) (seq 0 (s3 c));
  Ok (sp_num_to_nan r).

(** dunders.py 43-47, 242-334: arithmetic with another array. *)
Definition sp_cleanup (m : nat -> nat -> cell) (c : coo) : result coo :=
  do r <- sp_elemwise cmul c (sp_nan_to_num (sp_array (mask_arr (s2 c) (s3 c) m))); Ok (sp_num_to_nan r).
Definition sp_op (op : aop) (m : nat -> nat -> cell) (a b : coo) : result coo :=
  match op with
  | OAdd => do r <- sp_elemwise cadd (sp_nan_to_num a) (sp_nan_to_num b); sp_cleanup m r
  | OSub => do r <- sp_elemwise csub (sp_nan_to_num a) (sp_nan_to_num b); sp_cleanup m r
  | OMul => sp_elemwise cmul a b
  | ODiv => sp_elemwise cdiv a b
  end.
(** With a number [q]. *)
Definition sp_op_num (op : aop) (m : nat -> nat -> cell) (a : coo) (q : Qc) : result coo :=
  match op with
  | OAdd => sp_cleanup m (sp_map (fun x => cadd x (Some q)) (sp_nan_to_num a))
  | OSub => sp_cleanup m (sp_map (fun x => csub x (Some q)) (sp_nan_to_num a))
  | OMul => Ok (sp_map (fun x => cmul x (Some q)) a)
  | ODiv => Ok (sp_map (fun x => cdiv x (Some q)) a)
  end.
(** slice.py 245-250: keep the cells where [key] holds. *)
Definition sp_filter (key : nat -> nat -> bool) (c : coo) : result coo :=
  do r <- sp_elemwise cmul c (sp_array (mask_arr (s2 c) (s3 c) (fun o d => Some (if key o d then 1%Qc else 0%Qc)))); Ok (sp_num_to_nan r).
(** dunders.py 194-201: alignment by moving the coordinates. *)
Definition sp_place (n2 n3 ol dl : nat) (c : coo) : coo :=
  Coo (s0 c) (s1 c) n2 n3 (fill c) (map (fun e => let '(i, v, o, d) := fst e in ((i, v, o + ol, d + dl), snd e)) (entries c)).

(** slice.py 83-100: setting one cell ([iat], [at]).  The maximum of no coordinates raises. *)
Definition sp_set_cell (p : pos) (x : cell) (c : coo) : result coo :=
  match entries c with
  | [] => Err ValueError
  | _ => if stored c p then Ok (with_entries c (fill c) (map (fun e => if pos_eqb (fst e) p then (fst e, x) else e) (entries c)))
         else Ok (with_entries c (fill c) (filter (fun e => negb (same_cell (snd e) (fill c))) (entries c ++ [(p, x)])))
  end.
(** Dense: [values[i, v, o, d] = x]. *)
Definition set_cell (p : pos) (x : cell) (a : arr) : arr :=
  Arr (ax0 a) (ax1 a) (ax2 a) (ax3 a) (fun i c o d => if pos_eqb p (i, c, o, d) then x else av a i c o d).
(** slice.py 222-231: assigning an existing column.  [before] is the array without it. *)
Definition sp_set_col (k : nat) (b c : coo) : coo :=
  let before := flat_map (fun e => let '(i, v, o, d) := fst e in
                  if v =? k then [] else [((i, (if v <? k then v else v - 1), o, d), snd e)]) (entries c) in
  let moved := map (fun e => let '(i, v, o, d) := fst e in ((i, (if k <=? v then v + 1 else v), o, d), snd e)) before in
  let value := map (fun e => let '(i, v, o, d) := fst e in ((i, k, o, d), snd e)) (entries b) in
  with_entries c None (filter (fun e => negb (same_cell (snd e) None)) (moved ++ value)).
(** Dense (233-235): [values[:, k : k + 1] = value], the value is broadcast. *)
Definition set_col (k : nat) (b a : arr) : result arr :=
  if fits (ax0 b) (ax0 a) && fits (ax1 b) 1 && fits (ax2 b) (ax2 a) && fits (ax3 b) (ax3 a)
  then Ok (Arr (ax0 a) (ax1 a) (ax2 a) (ax3 a) (fun i c o d =>
    if c =? k then av b (bidx (ax0 b) i) 0 (bidx (ax2 b) o) (bidx (ax3 b) d) else av a i c o d))
  else Err ValueError.

(** triangle.py 450-454 on coordinate arrays: patterns; cumprod is that of the dense array
    (utils/sparse.py 78-79). *)
Definition sp_ldf_to_cdf (m : nat -> nat -> cell) (c : coo) : arr :=
  let v := todense (sp_num_to_value (sp_nan_to_num c) (Some 1%Qc)) in
  Arr (s0 c) (s1 c) (s2 c) (s3 c) (fun i k o d =>
    cmul (fold_right cmul (Some 1%Qc) (map (fun j => av v i k o (d + j)) (seq 0 (s3 c - d)))) (m o d)).

(** * Programs over arrays, run on either storage *)
Inductive expr :=
| EVar (n : nat)
| EOp (op : aop) (future : nat -> nat -> bool) (x y : expr)
| ENum (op : aop) (future : nat -> nat -> bool) (x : expr) (q : Qc)
| ECum (future : nat -> nat -> bool) (x : expr)
| ESum (axis : nat) (x : expr)
| EFilter (key : nat -> nat -> bool) (x : expr)
| ECols (lo hi : nat) (x : expr)
| ECat (x y : expr)
| EPlace (n2 n3 ol dl : nat) (x : expr).
(** triangle.py 482-505 [cum_to_incr] of [x] with [n] ages; [future] is that of the later ages. *)
Definition EIncr (n : nat) (future : nat -> nat -> bool) (x : expr) : expr :=
  ECat (ECols 0 1 x) (EOp OSub future (ECols 1 n x) (ECols 0 (n - 1) x)).
(** The nan_triangle of a triangle (base.py 207-219). *)
Definition ones_where (future : nat -> nat -> bool) (o d : nat) : cell := if future o d then None else Some 1%Qc.

Fixpoint run_sparse (env : nat -> coo) (e : expr) : result coo :=
  match e with
  | EVar n => Ok (env n)
  | EOp op f x y => do a <- run_sparse env x; do b <- run_sparse env y; sp_op op (ones_where f) a b
  | ENum op f x q => do a <- run_sparse env x; sp_op_num op (ones_where f) a q
  | ECum f x => do a <- run_sparse env x; sp_incr_to_cum (ones_where f) a
  | ESum k x => do a <- run_sparse env x; Ok (sp_num_to_nan (sp_nansum k a))
  | EFilter key x => do a <- run_sparse env x; sp_filter key a
  (* no age selected: slice.py 15-33 has no dates to take the latest of *)
  | ECols lo hi x => do a <- run_sparse env x; if lo <? Nat.min hi (s3 a) then Ok (sp_cols lo hi a) else Err ValueError
  | ECat x y => do a <- run_sparse env x; do b <- run_sparse env y; sp_concat a b
  (* the target holds the placed block: dunders.py 150-175 computes it so *)
  | EPlace n2 n3 ol dl x => do a <- run_sparse env x;
      if (ol + s2 a <=? n2) && (dl + s3 a <=? n3) then Ok (sp_place n2 n3 ol dl a) else Err ValueError
  end.

(** The same operations on dense arrays: Tri.v [cleanup], [add_arr], [mul_arr],
    [incr_to_cum]; pandas.py 350-382; slice.py 245-250. *)
Definition dense_cleanup (m : nat -> nat -> cell) (a : arr) : arr :=
  Arr (ax0 a) (ax1 a) (ax2 a) (ax3 a) (fun i c o d => n2n (cmul (av a i c o d) (Some (nz (m o d))))).
Definition dense_op (op : aop) (m : nat -> nat -> cell) (a b : arr) : result arr :=
  match op with
  | OAdd => do r <- bmap2 nz_add a b; Ok (dense_cleanup m r)
  | OSub => do r <- bmap2 nz_sub a b; Ok (dense_cleanup m r)
  | OMul => bmap2 cmul a b
  | ODiv => bmap2 cdiv a b
  end.
Definition dense_cum (m : nat -> nat -> cell) (a : arr) : arr :=
  Arr (ax0 a) (ax1 a) (ax2 a) (ax3 a) (fun i c o d => n2n (cmul (av (cumsum3 a) i c o d) (m o d))).
Fixpoint run_dense (env : nat -> arr) (e : expr) : result arr :=
  match e with
  | EVar n => Ok (env n)
  | EOp op f x y => do a <- run_dense env x; do b <- run_dense env y; dense_op op (ones_where f) a b
  | ENum op f x q => do a <- run_dense env x; dense_op op (ones_where f) a (scalar_arr q)
  | ECum f x => do a <- run_dense env x; Ok (dense_cum (ones_where f) a)
  | ESum k x => do a <- run_dense env x; Ok (map_arr n2n (nansum_axis k a))
  | EFilter key x => do a <- run_dense env x;
      Ok (Arr (ax0 a) (ax1 a) (ax2 a) (ax3 a) (fun i c o d => n2n (cmul (av a i c o d) (Some (if key o d then 1%Qc else 0%Qc)))))
  | ECols lo hi x => do a <- run_dense env x;
      if lo <? Nat.min hi (ax3 a) then Ok (Arr (ax0 a) (ax1 a) (ax2 a) (Nat.min hi (ax3 a) - lo) (fun i c o d => av a i c o (lo + d))) else Err ValueError
  | ECat x y => do a <- run_dense env x; do b <- run_dense env y; if cat_ok 3 a b then Ok (cat2 3 a b) else Err ValueError
  | EPlace n2 n3 ol dl x => do a <- run_dense env x;
      if (ol + ax2 a <=? n2) && (dl + ax3 a <=? n3) then place (ax0 a) (ax1 a) n2 n3 ol (ol + ax2 a) dl (dl + ax3 a) a else Err ValueError
  end.
