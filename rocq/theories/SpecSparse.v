(** Specification of sparse storage. *)
From Verif Require Export Spec Sparse.
Local Open Scope nat_scope.

(** The coordinate array and the dense array are the same array. *)
Record holds (c : coo) (a : arr) : Prop := {
  hd_0 : s0 c = ax0 a; hd_1 : s1 c = ax1 a; hd_2 : s2 c = ax2 a; hd_3 : s3 c = ax3 a;
  hd_cell : forall i v o d, i < ax0 a -> v < ax1 a -> o < ax2 a -> d < ax3 a -> coo_get c (i, v, o, d) = av a i v o d }.
(** Same shape and same cells. *)
Record same_arr (a b : arr) : Prop := {
  sm_0 : ax0 a = ax0 b; sm_1 : ax1 a = ax1 b; sm_2 : ax2 a = ax2 b; sm_3 : ax3 a = ax3 b;
  sm_cell : forall i v o d, i < ax0 a -> v < ax1 a -> o < ax2 a -> d < ax3 a -> av a i v o d = av b i v o d }.
(** A sound coordinate array: every stored cell lies in the shape and is stored once, cells
    that are not stored are missing, and missing cells are not stored. *)
Record sound (c : coo) : Prop := {
  so_nodup : NoDup (map fst (entries c));
  so_range : forall i v o d x, In ((i, v, o, d), x) (entries c) -> i < s0 c /\ v < s1 c /\ o < s2 c /\ d < s3 c;
  so_fill : fill c = None;
  so_nan : forall p x, In (p, x) (entries c) -> x <> None;
  so_3 : 1 <= s3 c }.
(** Two outcomes agree: the same error, or sound storage of the same array. *)
Definition agree (s : result coo) (d : result arr) : Prop :=
  match s, d with Ok c, Ok a => sound c /\ holds c a | Err e, Err e' => e = e' | _, _ => False end.
