(** Specification of the two views of a triangle. *)
From Verif Require Export SpecDev View.

(** Origins [h * m] months apart and ages [h] months apart, matching the grains. *)
Definition age_grid (t : tri) (o0 a0 : Z) (h m : nat) : Prop :=
  (1 <= h)%nat /\ (1 <= m)%nat /\
  odims t = map (fun k => o0 + Z.of_nat (h * m * k))%Z (seq 0 (ax2 (values t))) /\
  ddims t = Ages (map (fun k => a0 + Z.of_nat (h * k))%Z (seq 0 (ax3 (values t)))) /\
  (forall k, (k < ax3 (values t))%nat -> (a0 + Z.of_nat (h * k) <> 9999)%Z) /\
  grain_months (dgrain t) = Z.of_nat h /\ grain_months (ograin t) = Z.of_nat (h * m).
(** Valuations [h] months apart, the first at age [a0] of the first origin. *)
Definition val_grid (t : tri) (o0 a0 : Z) (h m : nat) : Prop :=
  (1 <= h)%nat /\ (1 <= m)%nat /\
  odims t = map (fun k => o0 + Z.of_nat (h * m * k))%Z (seq 0 (ax2 (values t))) /\
  ddims t = Vals (map (fun k => o0 + a0 - 1 + Z.of_nat (h * k))%Z (seq 0 (ax3 (values t)))) /\
  grain_months (dgrain t) = Z.of_nat h /\ grain_months (ograin t) = Z.of_nat (h * m).

(** The valuations of the grid follow each other without a gap: one origin, or the
    ages span a full origin period, or the oldest origin reaches the valuation date. *)
Definition no_gap (t : tri) (h m : nat) : Prop :=
  ax2 (values t) = 1%nat \/ (m <= ax3 (values t))%nat \/
  (vdate t < month_of t 0 (ax3 (values t) - 1) + Z.of_nat h)%Z.
(** No cell is valued in 2261 or later, the library's stand-in for "ultimate". *)
Definition before_ultimate (t : tri) : Prop :=
  forall o d, (o < ax2 (values t))%nat -> (d < ax3 (values t))%nat -> (month_of t o d < 12 * 2261)%Z.
(** Less than 9999 months (833 years) from the first origin to the valuation date. *)
Definition short_history (t : tri) : Prop := (vdate t < hd 0 (odims t) + 9998)%Z.
(** The library keeps the cells of a full cumulative triangle as running totals. *)
Definition not_full_cumulative (t : tri) : Prop :=
  is_cumulative t <> Some true \/
  ((2 <= ax2 (values t))%nat /\ (2 <= ax3 (values t))%nat /\ exists o d, (o < ax2 (values t))%nat /\ (d < ax3 (values t))%nat /\ future t o d).

(** Some origin other than the first holds data (or there is only one). *)
Definition data_beyond_first (t : tri) : Prop :=
  ax2 (values t) = 1%nat \/ exists i c o d, in_range t i c o d /\ (1 <= o)%nat /\ cel t i c o d <> None.

(** Everything but the development axis, the cells and flags is shared. *)
Record same_rows (t u : tri) : Prop := {
  sr_k : kdims u = kdims t; sr_kl : key_labels u = key_labels t; sr_v : vdims u = vdims t; sr_o : odims u = odims t;
  sr_vd : vdate u = vdate t; sr_og : ograin u = ograin t; sr_dg : dgrain u = dgrain t;
  sr_pat : is_pattern u = is_pattern t; sr_cum : is_cumulative u = is_cumulative t;
  sr_0 : ax0 (values u) = ax0 (values t); sr_1 : ax1 (values u) = ax1 (values t); sr_2 : ax2 (values u) = ax2 (values t) }.

(** The two triangles hold the same data by date: every amount of one is found in
    the same row, column and origin of the other at the same month, and they hold
    nothing else. *)
Definition found_in (t u : tri) : Prop :=
  forall i c o d q, in_range t i c o d -> cel t i c o d = Some q ->
    exists e, (e < ax3 (values u))%nat /\ month_of u o e = month_of t o d /\ cel u i c o e = Some q.
Definition same_data_by_date (t u : tri) : Prop := same_rows t u /\ found_in t u /\ found_in u t.

(** No amount is valued before its origin has reached age [a0]. *)
Definition nothing_before (t : tri) (a0 : Z) : Prop :=
  forall i c o d, in_range t i c o d -> cel t i c o d <> None -> (nth o (odims t) 0 + a0 - 1 <= month_of t o d)%Z.

(** The running total known at the end of month [v]: the amount of the last age
    reached by then, nothing before the first age. *)
Definition total_at (t : tri) (i c o : nat) (v : Z) (q : Qc) : Prop :=
  (q = 0%Qc /\ forall d, (d < ax3 (values t))%nat -> (v < month_of t o d)%Z) \/
  (exists d, (d < ax3 (values t))%nat /\ (month_of t o d <= v)%Z /\
     (forall e, (e < ax3 (values t))%nat -> (month_of t o e <= v)%Z -> (e <= d)%nat) /\ q = amount t i c o d).

(** An age grid followed by the ultimate column 9999. *)
Definition ultimate_grid (t : tri) (o0 a0 : Z) (h m : nat) : Prop :=
  (1 <= h)%nat /\ (1 <= m)%nat /\ (2 <= ax3 (values t))%nat /\
  odims t = map (fun k => o0 + Z.of_nat (h * m * k))%Z (seq 0 (ax2 (values t))) /\
  ddims t = Ages (map (fun k => a0 + Z.of_nat (h * k))%Z (seq 0 (ax3 (values t) - 1)) ++ [9999%Z]) /\
  grain_months (dgrain t) = Z.of_nat h /\ grain_months (ograin t) = Z.of_nat (h * m).

(** Some amount in the first [n] columns belongs to an origin other than the first
    (or there is only one origin). *)
Definition amounts_beyond_first (t : tri) (n : nat) : Prop :=
  ax2 (values t) = 1%nat \/ exists i c o d, in_range t i c o d /\ (1 <= o)%nat /\ (d < n)%nat /\ amount t i c o d <> 0%Qc.

(** A valuation grid followed by the ultimate column. *)
Definition ultimate_val_grid (t : tri) (o0 a0 : Z) (h m : nat) : Prop :=
  (1 <= h)%nat /\ (1 <= m)%nat /\ (2 <= ax3 (values t))%nat /\
  odims t = map (fun k => o0 + Z.of_nat (h * m * k))%Z (seq 0 (ax2 (values t))) /\
  ddims t = Vals (map (fun k => o0 + a0 - 1 + Z.of_nat (h * k))%Z (seq 0 (ax3 (values t) - 1)) ++ [ULT_VAL]) /\
  grain_months (dgrain t) = Z.of_nat h /\ grain_months (ograin t) = Z.of_nat (h * m).
