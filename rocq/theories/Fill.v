(** Filling gaps, dropping columns, first and last rows, minimum and maximum (core/pandas.py, core/base.py).  Definitions only. *)
From Verif Require Export Arith Loc.
Local Open Scope Z_scope.

(** core/base.py 411-418 [__array_ufunc__]: [(nan_to_num(x) == 0) * w]. *)
Definition empty_times (x w : cell) : cell := cmul (Some (if Qc_eqb (nz x) 0%Qc then 1%Qc else 0%Qc)) w.
(** core/pandas.py 203-205: [fill], and the sum with [frame] as the cells of [t]. *)
Definition fill_gaps (t frame w : tri) : result tri :=
  do f <- bmap2 empty_times (values frame) (values w);
  do r <- tri_op OAdd frame (set_values w f);
  Ok (set_values t (values r)).
(** core/pandas.py 186-209 [fillna], [value] a number; numpy storage. *)
Definition fillna_num (t : tri) (v : Qc) : result tri :=
  do frame <- add_arr t (scalar_arr (v * 0)%Qc);
  do z <- mul_arr t (scalar_arr 0%Qc);
  do w <- add_arr z (scalar_arr v);
  fill_gaps t frame w.
(** The same, [value] a Triangle. *)
Definition fillna_tri (t v : tri) : result tri :=
  do v0 <- mul_arr v (scalar_arr 0%Qc);
  do frame <- tri_op OAdd t v0;
  do z <- mul_arr t (scalar_arr 0%Qc);
  do w <- tri_op OAdd z v;
  fill_gaps t frame w.

(** core/pandas.py 211-236 [drop]; an axis is a number or a name. *)
Definition drop (t : tri) (labels : list string) (ax : Z + string) : result tri :=
  match ax with
  | inl 1 => getitem_cols t (filter (fun c => negb (mem_str c labels)) (vdims t))
  | _ => Err NotImplementedError
  end.

(** core/pandas.py 319-323 [head], [tail]. *)
Definition head (t : tri) (n : Z) : result tri :=
  iloc t (KSlice None (Some n) None) (KSlice None None None) (KSlice None None None) (KSlice None None None).
Definition tail (t : tri) (n : Z) : result tri :=
  iloc t (KSlice (Some (- n)) None None) (KSlice None None None) (KSlice None None None) (KSlice None None None).

(** core/pandas.py 334-338 [minimum], [maximum] through core/base.py 411-418: numpy's functions of the two arrays, NaN if either is; the
    labels are those of [t]. *)
Definition cell_min (x y : cell) : cell :=
  match x, y with Some a, Some b => Some (if Qc_ltb b a then b else a) | _, _ => None end.
Definition cell_max (x y : cell) : cell :=
  match x, y with Some a, Some b => Some (if Qc_ltb a b then b else a) | _, _ => None end.
Definition minimum_arr (t : tri) (b : arr) : result tri := do v <- bmap2 cell_min (values t) b; Ok (set_values t v).
Definition maximum_arr (t : tri) (b : arr) : result tri := do v <- bmap2 cell_max (values t) b; Ok (set_values t v).
Definition minimum (t u : tri) : result tri := minimum_arr t (values u).
Definition maximum (t u : tri) : result tri := maximum_arr t (values u).

(** core/dunders.py 286-289 [__abs__]. *)
Definition cell_abs (x : cell) : cell := match x with Some a => Some (if Qc_ltb a 0%Qc then (- a)%Qc else a) | None => None end.
Definition abs_tri (t : tri) : tri := set_values t (map_arr cell_abs (values t)).
(** core/dunders.py 269-273 [__rsub__]: a number less a triangle. *)
Definition rsub_num (q : Qc) (t : tri) : result tri :=
  do v <- bmap2 (fun x y => nz_sub y x) (values t) (scalar_arr q); Ok (cleanup (set_values t v)).
(** core/dunders.py 306-316 [__pow__] with a number that is a natural number; numpy's 0 ** 0 is 1. *)
Definition pow_num (t : tri) (k : nat) : tri := set_values t (map_arr (fun x => Some (Qcpower (nz x) k)) (values t)).
