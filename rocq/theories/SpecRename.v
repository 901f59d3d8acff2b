(** Specification of new labels, missing columns, single cells and rounding. *)
From Coq Require Import Qround Qcabs.
From Verif Require Export SpecLabel SpecLoc Rename.

(** Same cells, valuation date, flags and grains; labels may differ. *)
Record same_but_labels (t u : tri) : Prop := {
  bl_dims : ax0 (values u) = ax0 (values t) /\ ax1 (values u) = ax1 (values t) /\ ax2 (values u) = ax2 (values t) /\ ax3 (values u) = ax3 (values t);
  bl_cell : forall i c o d, cel u i c o d = cel t i c o d;
  bl_rest : vdate u = vdate t /\ is_cumulative u = is_cumulative t /\ is_pattern u = is_pattern t /\ ograin u = ograin t /\ dgrain u = dgrain t }.
(** Same labels of index, origin and development, same valuation date, flags and grains; columns may differ. *)
Definition same_but_columns (t u : tri) : Prop :=
  kdims u = kdims t /\ key_labels u = key_labels t /\ odims u = odims t /\ ddims u = ddims t /\ vdate u = vdate t /\
  is_cumulative u = is_cumulative t /\ is_pattern u = is_pattern t /\ ograin u = ograin t /\ dgrain u = dgrain t /\
  ax0 (values u) = ax0 (values t) /\ ax2 (values u) = ax2 (values t) /\ ax3 (values u) = ax3 (values t).
(** A cell that holds the fill value: the number, or nothing if there is none. *)
Definition filled_with (fill x : cell) : Prop := match fill with Some q => stores x q | None => x = None end.
(** Room for a column of numbers (a triangle, not a single row or column of cells). *)
Definition real_triangle (t : tri) : Prop :=
  (1 <= ax0 (values t) /\ 1 <= ax1 (values t) /\ 2 <= ax2 (values t) /\ 2 <= ax3 (values t))%nat.
(** [y] is the multiple of [unit] nearest to [x]; of two that are equally near, the even one. *)
Definition rounded_to (unit x y : Qc) : Prop :=
  exists z : Z, y = (Q2Qc (inject_Z z) * unit)%Qc /\ (- (unit / qc 2) <= x - y)%Qc /\ (x - y <= unit / qc 2)%Qc /\
    ((x - y = unit / qc 2 \/ x - y = - (unit / qc 2))%Qc -> Z.even z = true).
