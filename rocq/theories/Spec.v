(** Specification vocabulary, independent of the model's operations: what a
    well-formed triangle is, when a cell lies in the future, and what it means
    for two triangles to agree. *)
From Coq Require Export Sorted.
From Verif Require Export Tri.

(** The month at whose end the cell (origin label, age label) is valued:
    the origin starts in month [o] and is [a] months old. *)
Definition age_month (o a : Z) : Z := (if a =? 9999 then 12 * 2261 + 11 else o + a - 1)%Z.
Definition month_of (t : tri) (o d : nat) : Z :=
  match ddims t with
  | Ages l => age_month (nth o (odims t) 0%Z) (nth d l 0%Z)
  | Vals l => nth d l 0%Z
  end.

(** The cell is later than the valuation date. *)
Definition future (t : tri) (o d : nat) : Prop := (vdate t < month_of t o d)%Z.

(** Well-formed triangle: label lists match the array, labels are in strictly
    increasing order, ages are at least one month, no origin starts after the
    valuation date, only the age 9999 is valued at the "ultimate" date. *)
Record wf (t : tri) : Prop := {
  wf_k : ax0 (values t) = List.length (kdims t);
  wf_v : ax1 (values t) = List.length (vdims t);
  wf_o : ax2 (values t) = List.length (odims t);
  wf_d : ax3 (values t) = List.length (dlist (ddims t));
  wf_o1 : (1 <= ax2 (values t))%nat;
  wf_d1 : (1 <= ax3 (values t))%nat;
  wf_osort : StronglySorted Z.lt (odims t);
  wf_dsort : StronglySorted Z.lt (dlist (ddims t));
  wf_vd : (vdate t <= ULT_VAL)%Z;
  wf_dev : match ddims t with
           | Ages l => (forall a, In a l -> 1 <= a <= 9999)%Z /\
                       (forall o, In o (odims t) -> o <= vdate t)%Z /\
                       (forall o a, In o (odims t) -> In a l -> a <> 9999 -> o + a - 1 < ULT_VAL)%Z
           | Vals l => (forall v, In v l -> v <= ULT_VAL)%Z
           end }.

Definition in_range (t : tri) (i c o d : nat) : Prop :=
  (i < ax0 (values t) /\ c < ax1 (values t) /\ o < ax2 (values t) /\ d < ax3 (values t))%nat.

(** Cells after the valuation date hold no data. *)
Definition blank_future (t : tri) : Prop :=
  forall i c o d, in_range t i c o d -> future t o d -> cel t i c o d = None.
(** There is no cell after the valuation date. *)
Definition no_future (t : tri) : Prop :=
  forall o d, (o < ax2 (values t))%nat -> (d < ax3 (values t))%nat -> ~ future t o d.

(** Same shape, labels, dates and grains; values and flags may differ. *)
Record same_frame (t u : tri) : Prop := {
  sf_k : kdims u = kdims t; sf_kl : key_labels u = key_labels t;
  sf_v : vdims u = vdims t; sf_o : odims u = odims t; sf_d : ddims u = ddims t;
  sf_vd : vdate u = vdate t; sf_og : ograin u = ograin t; sf_dg : dgrain u = dgrain t;
  sf_0 : ax0 (values u) = ax0 (values t); sf_1 : ax1 (values u) = ax1 (values t);
  sf_2 : ax2 (values u) = ax2 (values t); sf_3 : ax3 (values u) = ax3 (values t) }.

(** The number a cell stands for: a missing cell is worth 0. *)
Definition amount (t : tri) (i c o d : nat) : Qc := nz (cel t i c o d).

(** A cell stores a number only if the number is not zero (the library stores
    zero amounts as missing). *)
Definition stores (x : cell) (q : Qc) : Prop :=
  (q = 0%Qc -> x = None) /\ (q <> 0%Qc -> x = Some q).

(** A regular age triangle: origins [g] months apart, ages [h] months apart
    with g a multiple of h, and every origin observed up to the valuation date
    ([dl] is the column of the youngest origin's latest value). *)
Definition regular (t : tri) (o0 a0 : Z) (h m dl : nat) : Prop :=
  (1 <= h)%nat /\ (1 <= m)%nat /\
  odims t = map (fun k => o0 + Z.of_nat (h * m * k))%Z (seq 0 (ax2 (values t))) /\
  ddims t = Ages (map (fun k => a0 + Z.of_nat (h * k))%Z (seq 0 (ax3 (values t)))) /\
  (forall k, (k < ax3 (values t))%nat -> (a0 + Z.of_nat (h * k) <> 9999)%Z) /\
  (vdate t = o0 + Z.of_nat (h * m * (ax2 (values t) - 1)) + a0 + Z.of_nat (h * dl) - 1)%Z /\
  (dl + m * (ax2 (values t) - 1) < ax3 (values t))%nat.

(** Age-to-age factor of two cells: defined when both amounts are present and not 0. *)
Definition age_to_age (x y : cell) (f : cell) : Prop :=
  (nz x <> 0%Qc -> nz y <> 0%Qc -> f = Some (nz y / nz x)%Qc) /\
  (nz x = 0%Qc \/ nz y = 0%Qc -> f = None).

(** A development factor: missing and zero entries count as 1. *)
Definition factor (x : cell) : Qc := if Qc_eqb (nz x) 0%Qc then 1%Qc else nz x.

(** Shapes for which differencing is exact: at least two origins and three
    development periods, or no future cell at all. *)
Definition round_trip_shape (t : tri) : Prop :=
  (2 <= ax2 (values t) /\ 3 <= ax3 (values t))%nat \/ ((2 <= ax3 (values t))%nat /\ no_future t).

(** A pattern (set of factors) is a single row, or is valued entirely in the past. *)
Definition pattern_shape (t : tri) : Prop := ax2 (values t) = 1%nat \/ no_future t.

(** Among the positions below [n], those satisfying [P] are evenly spaced. *)
Definition evenly (n : nat) (P : nat -> Prop) : Prop :=
  exists a s m, (1 <= s)%nat /\ forall x, (x < n)%nat -> (P x <-> exists k, (k < m)%nat /\ x = (a + s * k)%nat).

(** Every origin has a value at the valuation date, and the columns where this
    happens are evenly spaced. *)
Definition even_diag (t : tri) : Prop :=
  (forall o, (o < ax2 (values t))%nat -> exists d, (d < ax3 (values t))%nat /\ month_of t o d = vdate t) /\
  evenly (ax3 (values t)) (fun d => exists o, (o < ax2 (values t))%nat /\ month_of t o d = vdate t).
