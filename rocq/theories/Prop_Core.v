(** Statements: conversions, latest diagonal, link ratios, valuation filters. *)
From Coq Require Import Lia.
From Verif Require Import P_Core P_Pattern P_Filter Ex.
Local Open Scope Z_scope.

(** C01. incremental -> cumulative -> incremental restores every amount (zeros
    come back as missing), the labels and the flags. *)
Theorem C01_incr_cum_incr : forall t,
  wf t -> blank_future t -> is_pattern t = false -> is_cumulative t <> Some true -> round_trip_shape t ->
  exists u, cum_to_incr (incr_to_cum t) = Ok u /\ same_frame t u /\ is_cumulative u = Some false /\
    forall i c o d, in_range t i c o d -> stores (cel u i c o d) (amount t i c o d).
Proof. exact incr_cum_incr. Qed.
Print Assumptions C01_incr_cum_incr.
Example C01_hyps : wf ex3i /\ blank_future ex3i /\ is_pattern ex3i = false /\ is_cumulative ex3i <> Some true /\ round_trip_shape ex3i.
Proof. conj_all; [apply ex3i_wf|apply ex3i_blank|reflexivity|discriminate|left; cbn; lia]. Qed.

(** Without the shape condition the claim is false: with two development
    periods the last origin comes back with a spurious negative amount in a
    future cell. *)
Theorem C01_two_periods_refuted : exists t u,
  wf t /\ blank_future t /\ is_pattern t = false /\ is_cumulative t = Some false /\ ax2 (values t) = 2%nat /\ ax3 (values t) = 2%nat /\
  cum_to_incr (incr_to_cum t) = Ok u /\ in_range t 0 0 1 1 /\ future t 1 1 /\ cel t 0%nat 0%nat 1%nat 1%nat = None /\ cel u 0%nat 0%nat 1%nat 1%nat = Some (qc (-120)).
Proof.
  exists ex2i, (get ex2i (cum_to_incr (incr_to_cum ex2i))).
  split; [apply ex2i_wf|]. split; [apply ex2i_blank|]. do 4 (split; [reflexivity|]).
  split; [apply get_ok; vm_compute; reflexivity|]. split; [unfold in_range; cbn; lia|].
  split; [reflexivity|]. split; [reflexivity|]. apply cell_eqb_eq. vm_compute. reflexivity.
Qed.
Print Assumptions C01_two_periods_refuted.

(** C02. cumulative -> incremental -> cumulative restores every amount, for
    every triangle with at least two development periods ... *)
Theorem C02_cum_incr_cum : forall t,
  wf t -> blank_future t -> is_pattern t = false -> is_cumulative t <> Some false -> (2 <= ax3 (values t))%nat ->
  exists u, cum_to_incr t = Ok u /\ same_frame t (incr_to_cum u) /\ is_cumulative (incr_to_cum u) = Some true /\
    forall i c o d, in_range t i c o d -> stores (cel (incr_to_cum u) i c o d) (amount t i c o d).
Proof. exact cum_incr_cum. Qed.
Print Assumptions C02_cum_incr_cum.
Example C02_hyps : wf ex3 /\ blank_future ex3 /\ is_pattern ex3 = false /\ is_cumulative ex3 <> Some false /\ (2 <= ax3 (values ex3))%nat.
Proof. conj_all; [apply ex3_wf|apply ex3_blank|reflexivity|discriminate|cbn; lia]. Qed.
(** ... and with a single development period the conversion always raises. *)
Theorem C02_single_period_raises : forall t,
  wf t -> is_pattern t = false -> is_cumulative t <> Some false -> ax3 (values t) = 1%nat ->
  exists e, cum_to_incr t = Err e.
Proof. exact cum_to_incr_one. Qed.
Print Assumptions C02_single_period_raises.

(** C03. The increments of every row add up to its latest diagonal. *)
Theorem C03_increments_sum_to_latest : forall t,
  wf t -> blank_future t -> is_pattern t = false -> is_cumulative t <> Some false -> round_trip_shape t -> even_diag t ->
  exists u l, cum_to_incr t = Ok u /\ latest_diagonal t = Ok l /\
    forall i c o, (i < ax0 (values t))%nat -> (c < ax1 (values t))%nat -> (o < ax2 (values t))%nat ->
      sumn (ax3 (values t)) (fun d => amount u i c o d) = amount l i c o 0%nat.
Proof. exact increments_sum_to_latest. Qed.
Print Assumptions C03_increments_sum_to_latest.
Example C03_hyps : wf ex3 /\ blank_future ex3 /\ is_pattern ex3 = false /\ is_cumulative ex3 <> Some false /\ round_trip_shape ex3 /\ even_diag ex3.
Proof.
  split; [apply ex3_wf|]. split; [apply ex3_blank|]. split; [reflexivity|]. split; [discriminate|].
  split; [left; cbn; lia|]. exact (regular_even_diag ex3 _ _ _ _ _ ex3_wf ex3_regular).
Qed.
(** With two development periods it is false: the second row's latest value is
    120 and its increments add up to 0. *)
Theorem C03_two_periods_refuted : exists t u l,
  wf t /\ blank_future t /\ is_pattern t = false /\ is_cumulative t = Some true /\ cum_to_incr t = Ok u /\ latest_diagonal t = Ok l /\
  ax3 (values t) = 2%nat /\ amount l 0 0 1 0 = qc 120 /\ sumn 2 (fun d => amount u 0 0 1 d) = 0%Qc.
Proof.
  exists ex2, (get ex2 (cum_to_incr ex2)), (get ex2 (latest_diagonal ex2)).
  split; [apply ex2_wf|]. split; [apply ex2_blank|]. split; [reflexivity|]. split; [reflexivity|].
  split; [apply get_ok; vm_compute; reflexivity|]. split; [apply get_ok; vm_compute; reflexivity|]. split; [reflexivity|].
  split; apply qeqb; vm_compute; reflexivity.
Qed.
Print Assumptions C03_two_periods_refuted.

(** C04. Converting twice is converting once. *)
Theorem C04_incr_to_cum_idempotent : forall t, incr_to_cum (incr_to_cum t) = incr_to_cum t.
Proof. exact incr_to_cum_idem. Qed.
Print Assumptions C04_incr_to_cum_idempotent.
Theorem C04_cum_to_incr_idempotent : forall t u, cum_to_incr t = Ok u -> cum_to_incr u = Ok u.
Proof. exact cum_to_incr_idem. Qed.
Print Assumptions C04_cum_to_incr_idempotent.
Example C04_hyps : exists u, cum_to_incr ex3 = Ok u /\ is_cumulative ex3 <> is_cumulative u.
Proof.
  exists (get ex3 (cum_to_incr ex3)). split; [apply get_ok; vm_compute; reflexivity|].
  assert (E : is_cumulative (get ex3 (cum_to_incr ex3)) = Some false) by (vm_compute; reflexivity). rewrite E. discriminate.
Qed.

(** C05. The cumulative factor at an age is the product of the age-to-age
    factors from that age on, and the two representations convert back and forth. *)
Theorem C05_cdf_is_product : forall t,
  wf t -> is_pattern t = true -> is_cumulative t <> Some true -> pattern_shape t ->
  same_frame t (incr_to_cum t) /\ is_cumulative (incr_to_cum t) = Some true /\ is_pattern (incr_to_cum t) = true /\
  forall i c o d, in_range t i c o d ->
    cel (incr_to_cum t) i c o d = Some (prodn (ax3 (values t) - d) (fun k => factor (cel t i c o (d + k)%nat))).
Proof. exact ldf_to_cdf_cell. Qed.
Print Assumptions C05_cdf_is_product.
Theorem C05_ldf_cdf_ldf : forall t,
  wf t -> is_pattern t = true -> is_cumulative t <> Some true -> pattern_shape t -> (2 <= ax3 (values t))%nat ->
  exists u, cum_to_incr (incr_to_cum t) = Ok u /\ same_frame t u /\ is_cumulative u = Some false /\
    forall i c o d, in_range t i c o d -> cel u i c o d = Some (factor (cel t i c o d)).
Proof. exact ldf_cdf_ldf. Qed.
Print Assumptions C05_ldf_cdf_ldf.
Theorem C05_cdf_ldf_cdf : forall t,
  wf t -> is_pattern t = true -> is_cumulative t <> Some false -> pattern_shape t -> (2 <= ax3 (values t))%nat ->
  exists u, cum_to_incr t = Ok u /\ same_frame t (incr_to_cum u) /\ is_cumulative (incr_to_cum u) = Some true /\
    forall i c o d, in_range t i c o d -> cel (incr_to_cum u) i c o d = Some (factor (cel t i c o d)).
Proof. exact cdf_ldf_cdf. Qed.
Print Assumptions C05_cdf_ldf_cdf.
Example C05_hyps : wf exldf /\ is_pattern exldf = true /\ is_cumulative exldf <> Some true /\ pattern_shape exldf /\ (2 <= ax3 (values exldf))%nat
  /\ cell_eqb (cel (incr_to_cum exldf) 0 0 0 0) (Some (qc 6)) = true.
Proof. split; [apply exldf_wf|]. split; [reflexivity|]. split; [discriminate|]. split; [left; reflexivity|]. split; [cbn; lia|]. vm_compute; reflexivity. Qed.

(** C10. Link ratios. *)
Theorem C10_link_ratio : forall t,
  wf t -> blank_future t -> is_pattern t = false ->
  (exists o d, (o < ax2 (values t))%nat /\ (S d < ax3 (values t))%nat /\ month_of t o (S d) <= vdate t) ->
  exists u no nd, link_ratio t = Ok u /\
    kdims u = kdims t /\ vdims u = vdims t /\
    odims u = firstn no (odims t) /\ ddims u = dmap (firstn nd) (ddims t) /\
    (no <= ax2 (values t))%nat /\ (nd < ax3 (values t))%nat /\
    ax0 (values u) = ax0 (values t) /\ ax1 (values u) = ax1 (values t) /\ ax2 (values u) = no /\ ax3 (values u) = nd /\
    is_pattern u = true /\
    (forall i c o d, in_range u i c o d -> age_to_age (cel t i c o d) (cel t i c o (S d)) (cel u i c o d)) /\
    (forall o d, (o < ax2 (values t))%nat -> (S d < ax3 (values t))%nat -> ~ ((o < no)%nat /\ (d < nd)%nat) -> future t o (S d)).
Proof. exact link_ratio_ok. Qed.
Print Assumptions C10_link_ratio.
Example C10_hyps : wf ex3 /\ blank_future ex3 /\ is_pattern ex3 = false /\
  (exists o d, (o < ax2 (values ex3))%nat /\ (S d < ax3 (values ex3))%nat /\ month_of ex3 o (S d) <= vdate ex3) /\
  (exists u, link_ratio ex3 = Ok u /\ ax2 (values u) = 2%nat /\ ax3 (values u) = 2%nat /\ cell_eqb (cel u 0 0 1 0) (Some (qcf 3 2)) = true).
Proof.
  split; [apply ex3_wf|]. split; [apply ex3_blank|]. split; [reflexivity|]. split.
  - exists 0%nat, 0%nat. cbn. repeat split; try lia.
  - exists (get ex3 (link_ratio ex3)). split; [apply get_ok; vm_compute; reflexivity|]. repeat split; vm_compute; reflexivity.
Qed.

(** C11. The latest diagonal holds, for each origin, the amount valued at the
    valuation date; it has one column, labelled by the valuation date. *)
Theorem C11_latest_diagonal : forall t, wf t -> even_diag t ->
  exists l, latest_diagonal t = Ok l /\ kdims l = kdims t /\ key_labels l = key_labels t /\ vdims l = vdims t /\
    odims l = odims t /\ vdate l = vdate t /\
    ax0 (values l) = ax0 (values t) /\ ax1 (values l) = ax1 (values t) /\ ax2 (values l) = ax2 (values t) /\ ax3 (values l) = 1%nat /\
    (forall i c o d, in_range t i c o d -> month_of t o d = vdate t -> stores (cel l i c o 0%nat) (amount t i c o d)) /\
    ((exists o o' d d', (o < ax2 (values t) /\ o' < ax2 (values t) /\ d < d' < ax3 (values t))%nat /\
        month_of t o d = vdate t /\ month_of t o' d' = vdate t) -> ddims l = Vals [vdate t]).
Proof. exact latest_diagonal_ok. Qed.
Print Assumptions C11_latest_diagonal.
(** Every regular triangle meets the hypothesis. *)
Theorem C11_regular : forall t o0 a0 h m dl, wf t -> regular t o0 a0 h m dl -> even_diag t.
Proof. exact regular_even_diag. Qed.
Print Assumptions C11_regular.
Example C11_hyps : wf ex3 /\ regular ex3 (y 2001) 12 12 1 0.
Proof. split; [apply ex3_wf|apply ex3_regular]. Qed.

(** C17. Filtering by valuation keeps exactly the selected cells. *)
Theorem C17_valuation_filter : forall t key, wf t -> (2 <= ax3 (values t))%nat ->
  (exists o d, (o < ax2 (values t))%nat /\ (d < ax3 (values t))%nat /\ key o d = true) ->
  evenly (ax2 (values t)) (fun o => exists d, (d < ax3 (values t))%nat /\ key o d = true) ->
  evenly (ax3 (values t)) (fun d => exists o, (o < ax2 (values t))%nat /\ key o d = true) ->
  exists u, getitem_valuation t key = Ok u /\ wf u /\
    kdims u = kdims t /\ vdims u = vdims t /\ is_cumulative u = is_cumulative t /\
    (forall o, (o < ax2 (values t))%nat ->
       (In (nth o (odims t) 0) (odims u) <-> exists d, (d < ax3 (values t))%nat /\ key o d = true)) /\
    (forall d, (d < ax3 (values t))%nat ->
       (In (nth d (dlist (ddims t)) 0) (dlist (ddims u)) <-> exists o, (o < ax2 (values t))%nat /\ key o d = true)) /\
    (forall i c o d o' d', in_range t i c o d -> in_range u i c o' d' ->
       nth o' (odims u) 0 = nth o (odims t) 0 -> nth d' (dlist (ddims u)) 0 = nth d (dlist (ddims t)) 0 ->
       cel u i c o' d' = if key o d then n2n (cel t i c o d) else None) /\
    vdate u <= vdate t /\
    (forall o d, (o < ax2 (values t))%nat -> (d < ax3 (values t))%nat -> key o d = true -> month_of t o d <= vdate t ->
       month_of t o d <= vdate u) /\
    (vdate u < vdate t -> exists o d, (o < ax2 (values t))%nat /\ (d < ax3 (values t))%nat /\ key o d = true /\ month_of t o d = vdate u).
Proof. exact valuation_filter. Qed.
Print Assumptions C17_valuation_filter.
(** Bounds on the valuation (t.valuation <= v, t.valuation > v) always meet the
    spacing hypotheses. *)
Theorem C17_upto_spacing : forall t v, wf t -> let key := fun o d => valuation t o d <=? v in
  evenly (ax2 (values t)) (fun o => exists d, (d < ax3 (values t))%nat /\ key o d = true) /\
  evenly (ax3 (values t)) (fun d => exists o, (o < ax2 (values t))%nat /\ key o d = true).
Proof. exact valuation_upto_evenly. Qed.
Print Assumptions C17_upto_spacing.
Theorem C17_after_spacing : forall t v, wf t -> let key := fun o d => v <? valuation t o d in
  evenly (ax2 (values t)) (fun o => exists d, (d < ax3 (values t))%nat /\ key o d = true) /\
  evenly (ax3 (values t)) (fun d => exists o, (o < ax2 (values t))%nat /\ key o d = true).
Proof. exact valuation_after_evenly. Qed.
Print Assumptions C17_after_spacing.
(** The valuation the library reports for a cell is the month the labels say. *)
Theorem C17_valuation_is_month : forall t o d, wf t -> (o < ax2 (values t))%nat -> (d < ax3 (values t))%nat ->
  valuation t o d = month_of t o d.
Proof. exact valuation_month. Qed.
Print Assumptions C17_valuation_is_month.
Example C17_hyps : wf ex3 /\ (2 <= ax3 (values ex3))%nat /\
  (exists o d, (o < ax2 (values ex3))%nat /\ (d < ax3 (values ex3))%nat /\ (valuation ex3 o d <=? dec 2002) = true) /\
  exists u, getitem_valuation ex3 (fun o d => valuation ex3 o d <=? dec 2002) = Ok u /\ odims u = [y 2001; y 2002] /\ ddims u = Ages [12; 24] /\ vdate u = dec 2002.
Proof.
  split; [apply ex3_wf|]. split; [cbn; lia|]. split.
  - exists 0%nat, 0%nat. cbn. repeat split; lia.
  - exists (get ex3 (getitem_valuation ex3 (fun o d => valuation ex3 o d <=? dec 2002))).
    split; [apply get_ok; vm_compute; reflexivity|]. repeat split; vm_compute; reflexivity.
Qed.
