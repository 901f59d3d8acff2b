(** New labels for an axis, missing columns, single cells, appended rows and rounding.  Definitions only. *)
From Coq Require Import Qround.
From Verif Require Export Select.
Local Open Scope Z_scope.

(** The triangle after the statement, and the exception it raised.  [rename] returns the triangle it was called on. *)
Definition stmt : Type := (tri * option exn)%type.
(** core/base.py 170-176 [_len_check]. *)
Definition same_len (n m : nat) (t : tri) (k : stmt) : stmt := if (n =? m)%nat then k else (t, Some ValueError).

(** New index: a data frame (its rows as texts and the names of its columns) or a list of labels. *)
Inductive index_value := IxFrame (rows : list (list string)) (names : list string) | IxList (l : list string).
(** core/triangle.py 306-314, the index setter. *)
Definition put_index (t : tri) (v : index_value) : stmt :=
  match v with
  | IxFrame rows names => same_len (List.length (kdims t)) (List.length rows) t (set_keys t rows names, None)
  | IxList l => same_len (List.length (kdims t)) (List.length l) t (t, Some TypeError)
  end.
(** A text or a list of texts; the length of a text is its number of characters. *)
Inductive names_value := NmText (s : string) | NmList (l : list string).
(** core/triangle.py 320-326, the columns setter. *)
Definition put_columns (t : tri) (v : names_value) : stmt :=
  same_len (List.length (vdims t)) (match v with NmText s => String.length s | NmList l => List.length l end) t
    (set_vdims t (match v with NmText s => [s] | NmList l => l end), None).
(** First month of the period a month belongs to, for periods that close in December; half years are spans of two quarters
    that may begin with any quarter. *)
Definition first_month (g : grain) (m : Z) : Z :=
  match g with GY => 12 * (m / 12) | GS | GQ => 3 * (m / 3) | GM => m end.
(** core/triangle.py 345-354, the origin setter.  The new origins are given as months; the version test of pandas and
    [origin_close] other than December are left out. *)
Definition put_origin (t : tri) (l : list Z) : stmt :=
  same_len (List.length (odims t)) (List.length l) t (set_odims t (map (first_month (ograin t)) l), None).
(** core/triangle.py 377-380, the development setter, for a list of whole numbers: an array of them is never a DatetimeIndex. *)
Definition put_development (t : tri) (l : list Z) : stmt :=
  same_len (List.length (dlist (ddims t))) (List.length l) t (set_ddims t (Ages l), None).

Inductive new_labels := NewIndex (v : index_value) | NewColumns (v : names_value) | NewOrigin (l : list Z) | NewDevelopment (l : list Z).
(** core/pandas.py 273-299 [rename]: a text stands for a list of one. *)
Definition rename (t : tri) (v : new_labels) : stmt :=
  match v with
  | NewIndex v => put_index t v
  | NewColumns (NmText s) => put_columns t (NmList [s])
  | NewColumns v => put_columns t v
  | NewOrigin l => put_origin t l
  | NewDevelopment l => put_development t l
  end.
(** core/triangle.py 382-389 [set_index(value)]: the copy is changed, the caller is not. *)
Definition set_index (t : tri) (v : index_value) : result tri :=
  match put_index t v with (u, None) => Ok u | (_, Some e) => Err e end.

(** core/triangle.py 985-990 [reindex(columns, fill_value)]; [None] is NaN.  Adding NaN to zero times the first column gives a
    column without amounts. *)
Definition add_column (t : tri) (name : string) (fill : cell) : result tri :=
  match fill with
  | Some q => match setitem t name (VNum q) with (u, None) => Ok u | (_, Some e) => Err e end
  | None => Ok (set_values (set_vdims t (vdims t ++ [name]))
                 (cat2 1 (values t) (Arr (ax0 (values t)) 1 (ax2 (values t)) (ax3 (values t)) (fun _ _ _ _ => None))))
  end.
Fixpoint reindex (t : tri) (names : list string) (fill : cell) : result tri :=
  match names with
  | [] => Ok t
  | n :: ns => if mem_str n (vdims t) then reindex t ns fill else do u <- add_column t n fill; reindex u ns fill
  end.

(** core/slice.py 310-326 [iat[i, c, o, d]] with integers. *)
Definition iat_get (t : tri) (i c o d : Z) : result cell :=
  do u <- iloc t (KInt i) (KInt c) (KInt o) (KInt d); Ok (av (values u) 0%nat 0%nat 0%nat 0%nat).
(** core/slice.py 321-326 and 58-66, dense storage: the integers become slices of length one of the array. *)
Definition iat_set (t : tri) (i c o d : Z) (x : cell) : result tri :=
  do i <- posify (ax0 (values t)) i; do c <- posify (ax1 (values t)) c; do o <- posify (ax2 (values t)) o; do d <- posify (ax3 (values t)) d;
  let a := values t in
  Ok (set_values t (Arr (ax0 a) (ax1 a) (ax2 a) (ax3 a) (fun i' c' o' d' =>
    if (Z.of_nat i' =? i) && (Z.of_nat c' =? c) && (Z.of_nat o' =? o) && (Z.of_nat d' =? d) then x else av a i' c' o' d'))).

(** core/pandas.py 257-271 [append]. *)
Definition append (t u : tri) : result tri := Tri.concat [t; u] AxIndex.

(** numpy's [round]: the nearest whole number, halves to the even one, at a scale of ten to the number of decimals. *)
Definition nearest (q : Q) : Z :=
  let f := Qfloor q in
  match ((q - inject_Z f) ?= 1 # 2)%Q with
  | Lt => f
  | Gt => f + 1
  | Eq => if Z.even f then f else f + 1
  end.
Definition ten_to (d : Z) : Qc := if 0 <=? d then Q2Qc (inject_Z (10 ^ d)) else (/ Q2Qc (inject_Z (10 ^ (- d))))%Qc.
Definition round_cell (d : Z) (x : cell) : cell :=
  match x with Some q => Some (Q2Qc (inject_Z (nearest (this (q * ten_to d)%Qc))) / ten_to d)%Qc | None => None end.
(** core/dunders.py 318-322 [__round__], core/pandas.py 343-344. *)
Definition round_tri (t : tri) (d : Z) : tri := set_values t (map_arr (round_cell d) (values t)).
