(** Specification vocabulary for operations that align triangles by label. *)
From Verif Require Export Spec Arith.

(** Sum of [f i] over the positions [i] of [l] that carry the label [x]; with
    distinct labels, the value at the position labelled [x], and 0 if there is none. *)
Definition pick {A} (dec : forall a b : A, {a = b} + {a <> b}) (l : list A) (x dflt : A) (f : nat -> Qc) : Qc :=
  sumn (List.length l) (fun i => if dec (nth i l dflt) x then f i else 0%Qc).

Definition key_dec : forall a b : list string, {a = b} + {a <> b} := list_eq_dec string_dec.

(** The amount a triangle carries under the index key [k], column name [v],
    origin [o] and development label [a]; 0 if a label is absent. *)
Definition amount_at (t : tri) (k : list string) (v : string) (o a : Z) : Qc :=
  pick key_dec (kdims t) k [] (fun i =>
  pick string_dec (vdims t) v EmptyString (fun c =>
  pick Z.eq_dec (odims t) o 0%Z (fun r =>
  pick Z.eq_dec (dlist (ddims t)) a 0%Z (fun d => amount t i c r d)))).

(** The two triangles have the same labels on every axis and the same grains
    (their valuation dates and flags may differ). *)
Record same_axes (x y : tri) : Prop := {
  sa_k : kdims y = kdims x; sa_kl : key_labels y = key_labels x;
  sa_v : vdims y = vdims x; sa_o : odims y = odims x; sa_d : ddims y = ddims x;
  sa_og : ograin y = ograin x; sa_dg : dgrain y = dgrain x }.

(** Same cells and labels. *)
Record same_content (x y : tri) : Prop := {
  sc_k : kdims y = kdims x; sc_kl : key_labels y = key_labels x;
  sc_v : vdims y = vdims x; sc_o : odims y = odims x; sc_d : ddims y = ddims x;
  sc_vd : vdate y = vdate x;
  sc_cell : forall i c o d, in_range x i c o d -> cel y i c o d = cel x i c o d }.

Definition uniq_labels (t : tri) : Prop := NoDup (kdims t) /\ NoDup (vdims t).

(** Labels [g] apart without gaps: start, start + g, start + 2g, ... *)
Definition gap_free (g : Z) (l : list Z) : Prop :=
  exists start, l = map (fun k => start + g * Z.of_nat k)%Z (seq 0 (List.length l)).
(** Both lists lie on one grid of spacing [g]. *)
Definition one_grid (g : Z) (l m : list Z) : Prop :=
  forall x y, In x l -> In y m -> (g | x - y)%Z.

(** Two label lists that can be aligned: equal, or both gap-free on one grid
    with at least two labels each. *)
Definition alignable (g : Z) (l m : list Z) : Prop :=
  l = m \/ (gap_free g l /\ gap_free g m /\ one_grid g l m /\ (2 <= List.length l)%nat /\ (2 <= List.length m)%nat).

(** Both development axes are ages, or both are valuation dates. *)
Definition same_kind (a b : ddim) : Prop :=
  match a, b with Ages _, Ages _ | Vals _, Vals _ => True | _, _ => False end.

(** The labels are all present in the triangle. *)
Definition has_labels (t : tri) (k : list string) (v : string) (o a : Z) : Prop :=
  In k (kdims t) /\ In v (vdims t) /\ In o (odims t) /\ In a (dlist (ddims t)).

(** No cell of the joint frame (origins of either, ages of either) is valued
    beyond the last date the library can represent. *)
Definition frame_fits (x y : tri) : Prop :=
  match ddims x with
  | Ages _ => forall o a, In o (odims x) \/ In o (odims y) ->
                In a (dlist (ddims x)) \/ In a (dlist (ddims y)) -> a <> 9999%Z -> (o + a - 1 < ULT_VAL)%Z
  | Vals _ => True
  end.

(** Number operation of [+] and [-]. *)
Definition qop (op : aop) : Qc -> Qc -> Qc := match op with OSub => Qcminus | _ => Qcplus end.
Definition is_addsub (op : aop) : Prop := op = OAdd \/ op = OSub.

(** Every key has one entry per key label. *)
Definition full_keys (t : tri) : Prop := forall k, In k (kdims t) -> List.length k = List.length (key_labels t).

(** Every operand lists its columns in the order of [cols], possibly lacking some at the end. *)
Definition prefix_of (l cols : list string) : Prop := exists s, cols = l ++ s.

(** The operand agrees with the first one on every axis but the one concatenated. *)
Definition same_other (ax : axis) (t0 t : tri) : Prop :=
  (ax <> AxIndex -> kdims t = kdims t0) /\ (ax <> AxOrigin -> odims t = odims t0) /\
  (ax <> AxDev -> ddims t = ddims t0) /\ same_kind (ddims t0) (ddims t).
Definition axis_unique (ax : axis) (ts : list tri) : Prop :=
  match ax with
  | AxIndex => NoDup (List.concat (map kdims ts))
  | AxColumn => NoDup (List.concat (map vdims ts))
  | AxOrigin => NoDup (List.concat (map odims ts))
  | AxDev => NoDup (List.concat (map (fun t => dlist (ddims t)) ts))
  end.
Definition cols_agree (cols : list string) (ts : list tri) : Prop :=
  NoDup cols /\ (forall t, In t ts -> prefix_of (vdims t) cols) /\ (forall c, In c cols -> exists t, In t ts /\ In c (vdims t)).

(** Some operand differs from the first one on an axis that is not concatenated. *)
Definition other_differs (ax : axis) (t0 t : tri) : Prop :=
  (ax <> AxIndex /\ kdims t <> kdims t0) \/ (ax <> AxOrigin /\ odims t <> odims t0) \/ (ax <> AxDev /\ ddims t <> ddims t0).

Definition same_shape (x y : tri) : Prop :=
  ax0 (values y) = ax0 (values x) /\ ax1 (values y) = ax1 (values x) /\ ax2 (values y) = ax2 (values x) /\ ax3 (values y) = ax3 (values x).

(** [t < b] and [t <= b] for an array of the same shape. *)
Definition same_shape_arr (x : tri) (b : arr) : Prop :=
  ax0 b = ax0 (values x) /\ ax1 b = ax1 (values x) /\ ax2 b = ax2 (values x) /\ ax3 b = ax3 (values x).

(** Where an operand's cells sit in a concatenation: shifted by the lengths of
    the operands before it. *)
Fixpoint suml (l : list nat) : nat := match l with [] => 0%nat | x :: r => (x + suml r)%nat end.
Definition axn (k : nat) (a : arr) : nat :=
  match k with 0 => ax0 a | 1 => ax1 a | 2 => ax2 a | _ => ax3 a end%nat.
(** The cell at (i, c, o, d) with the coordinate on axis k increased by p. *)
Definition avk (k : nat) (a : arr) (p i c o d : nat) : cell :=
  match k with
  | 0 => av a (p + i) c o d | 1 => av a i (p + c) o d | 2 => av a i c (p + o) d | _ => av a i c o (p + d)
  end%nat.
Definition coord (k i c o d : nat) : nat := match k with 0 => i | 1 => c | 2 => o | _ => d end%nat.
Definition offset (ax : axis) (pre : list tri) : nat := suml (map (fun t => axn (axis_num ax) (values t)) pre).
