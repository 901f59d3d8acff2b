(** C64: Clark's growth curves and their tails. *)
From Coq Require Import Lia Lra Qreals.
From Verif Require Import TriFacts P_Core P_Mack P_Bondy P_Corr5 P_Clark1 P_Clark2 P_Clark3 P_Clark4 P_Clark5 Ex ExLabel Prop_Berq SpecClark.
Local Open Scope R_scope.

Section Facts.
Variables (t : tri) (n : nat) (g : growth) (om th : nat -> nat -> R) (weights : bool).
Hypothesis I : clark_input t n.
Hypothesis N : named_growth g.
Hypothesis Hom : forall i c, 0 < om i c.
Hypothesis Hth : forall i c, 0 < th i c.
Lemma ck_facts r : clark_fit g om th weights t = Ok r -> fit_facts t n g om th weights r.
Proof. intros F. destruct (clark_ok t n g om th weights I N Hom Hth) as (r' & E & X). congruence. Qed.
End Facts.

(** C64. Both growth curves lie between 0 and 1, increase with age and reach every share below 1. *)
Theorem C64_growth : forall g om th x, 0 < om -> 0 < th -> 0 < x ->
  0 < growth_curve g om th x < 1 /\ (forall y, x < y -> growth_curve g om th x < growth_curve g om th y) /\
  (forall e, 0 < e -> exists x0, 0 < x0 /\ forall y, x0 <= y -> 1 - e < growth_curve g om th y).
Proof.
  intros g om th x Hom Hth Hx. split; [apply growth_range; auto|]. split; [intros y Hy; apply growth_mono; auto|]. intros e He. apply growth_limit; auto.
Qed.
Print Assumptions C64_growth.
(** The growth function of the estimator is the documented curve. *)
Theorem C64_growth_value : forall g om th x, 0 < om -> 0 < th -> 0 < x -> named_growth g -> growth_at g th om x = growth_curve g om th x.
Proof. intros g om th x Hom Hth Hx N. exact (growth_at_curve g om th Hom Hth x Hx N). Qed.
Print Assumptions C64_growth_value.
(** The fit works on every square triangle, whatever the parameters. *)
Theorem C64_fits : forall g om th weights t n, clark_input t n -> named_growth g -> (forall i c, 0 < om i c) -> (forall i c, 0 < th i c) ->
  exists r, clark_fit g om th weights t = Ok r.
Proof. intros g om th weights t n I N Hom Hth. destruct (clark_ok t n g om th weights I N Hom Hth) as (r & E & _). exists r. exact E. Qed.
Print Assumptions C64_fits.
(** A growth curve with another name is refused, but not with the ValueError other estimators raise for unknown options. *)
Theorem C64_unknown_growth : forall om th weights t n, clark_input t n -> clark_fit OtherGrowth om th weights t = Err UnboundLocalError.
Proof.
  intros om th weights t n I. destruct (clark_parts t n I) as (ld & inc & s & lat & lr & Eld & Einc & Es & Elat & _ & _).
  unfold clark_fit. rewrite Eld, Einc, Es. cbn [rbind]. rewrite Elat. reflexivity.
Qed.
Print Assumptions C64_unknown_growth.
(** Labels: the factors are a pattern with an age less; the fitted increments and residuals have the labels of the triangle. *)
Theorem C64_labels : forall g om th weights t n r, clark_input t n -> named_growth g -> (forall i c, 0 < om i c) -> (forall i c, 0 < th i c) -> clark_fit g om th weights t = Ok r ->
  let l := rt_frame (ck_ldf r) in
  kdims l = kdims t /\ vdims l = vdims t /\ odims l = firstn 1 (odims t) /\ ddims l = dmap (firstn (n - 1)) (ddims t) /\
  ax2 (values l) = 1%nat /\ ax3 (values l) = (n - 1)%nat /\ is_pattern l = true /\ is_cumulative l = Some false /\
  rt_frame (ck_fits r) = set_cumulative t (Some false) /\ rt_frame (ck_resid r) = set_cumulative t (Some false).
Proof. intros g om th weights t n r I N Hom Hth F l. destruct (ck_facts _ _ _ _ _ _ I N Hom Hth _ F). unfold l. repeat (split; auto). Qed.
Print Assumptions C64_labels.
(** The factor of an age is the growth from its average age to the next one. *)
Theorem C64_factors : forall g om th weights t n r i c d, clark_input t n -> named_growth g -> (forall i c, 0 < om i c) -> (forall i c, 0 < th i c) -> clark_fit g om th weights t = Ok r -> (S d < n)%nat ->
  exists f, rt_cell (ck_ldf r) i c 0%nat d = Some f /\ 1 < f /\
    f = growth_curve g (om i c) (th i c) (average_age t (S d)) / growth_curve g (om i c) (th i c) (average_age t d).
Proof.
  intros g om th weights t n r i c d I N Hom Hth F Hd. eexists. split; [apply (ff_ldf _ _ _ _ _ _ _ (ck_facts _ _ _ _ _ _ I N Hom Hth _ F)); auto|]. split; [|reflexivity].
  pose proof (curve_pos t n g om th I Hom Hth i c d ltac:(lia)) as A. pose proof (growth_mono g (om i c) (th i c) (Hom i c) (Hth i c) (average_age t d) (average_age t (S d))) as M.
  specialize (M (conj (average_pos t n I d ltac:(lia)) (average_mono t n I d (S d) ltac:(lia) Hd))).
  apply (Rmult_lt_reg_r (growth_curve g (om i c) (th i c) (average_age t d))); [lra|]. unfold Rdiv. rewrite Rmult_assoc, Rinv_l, Rmult_1_r by lra. lra.
Qed.
Print Assumptions C64_factors.
(** The product of the factors from an age on is the growth to the last age. *)
Theorem C64_pattern : forall g om th weights t n r i c d, clark_input t n -> named_growth g -> (forall i c, 0 < om i c) -> (forall i c, 0 < th i c) -> clark_fit g om th weights t = Ok r -> (d < n)%nat ->
  rprod_from d (n - 1) (fun k => nzr (rt_cell (ck_ldf r) i c 0%nat k)) = growth_curve g (om i c) (th i c) (average_age t (n - 1)) / growth_curve g (om i c) (th i c) (average_age t d).
Proof.
  intros g om th weights t n r i c d I N Hom Hth F Hd. pose proof (ck_facts _ _ _ _ _ _ I N Hom Hth _ F) as X. unfold rprod_from.
  assert (A : forall m, (d + m < n)%nat -> rprodn m (fun j => nzr (rt_cell (ck_ldf r) i c 0%nat (d + j))) = growth_curve g (om i c) (th i c) (average_age t (d + m)) / growth_curve g (om i c) (th i c) (average_age t d)).
  { induction m as [|m IH]; intros H; cbn [rprodn].
    - rewrite Nat.add_0_r. pose proof (curve_pos t n g om th I Hom Hth i c d Hd). field. lra.
    - rewrite IH by lia. rewrite (ff_ldf _ _ _ _ _ _ _ X) by lia. cbn [nzr]. replace (d + S m)%nat with (S (d + m)) by lia.
      pose proof (curve_pos t n g om th I Hom Hth i c d Hd). pose proof (curve_pos t n g om th I Hom Hth i c (d + m) ltac:(lia)). field. lra. }
  rewrite A by lia. replace (d + (n - 1 - d))%nat with (n - 1)%nat by lia. reflexivity.
Qed.
Print Assumptions C64_pattern.
(** Fitted increments: the share of the period of the ultimate amount of the origin, in the known cells. *)
Theorem C64_fitted : forall g om th weights t n r i c o d, clark_input t n -> named_growth g -> (forall i c, 0 < om i c) -> (forall i c, 0 < th i c) -> clark_fit g om th weights t = Ok r ->
  (i < ax0 (values t))%nat -> (c < ax1 (values t))%nat -> (o < n)%nat -> (d < n)%nat -> amount t i c o (n - 1 - o) <> 0%Qc ->
  rt_cell (ck_fits r) i c o d = if (o + d <? n)%nat then Some (expected_increment g t n (om i c) (th i c) i c o d) else None.
Proof. intros g om th weights t n r i c o d I N Hom Hth F Hi Hc Ho Hd A. exact (ff_fits _ _ _ _ _ _ _ (ck_facts _ _ _ _ _ _ I N Hom Hth _ F) i c o d Hi Hc Ho Hd A). Qed.
Print Assumptions C64_fitted.
(** When the first age is that of one period, the fitted increments of an origin add up to its latest amount. *)
Theorem C64_fitted_total : forall g om th weights t n r i c o, clark_input t n -> named_growth g -> (forall i c, 0 < om i c) -> (forall i c, 0 < th i c) -> clark_fit g om th weights t = Ok r ->
  (i < ax0 (values t))%nat -> (c < ax1 (values t))%nat -> (o < n)%nat -> average_age t 0 <= IZR (grain_months (dgrain t)) ->
  rnansum n (fun d => rt_cell (ck_fits r) i c o d) = rv (amount t i c o (n - 1 - o)).
Proof.
  intros g om th weights t n r i c o I N Hom Hth F Hi Hc Ho Av. pose proof (ck_facts _ _ _ _ _ _ I N Hom Hth _ F) as X. unfold rnansum.
  destruct (Qc_eq_dec (amount t i c o (n - 1 - o)) 0%Qc) as [Z|Z].
  - rewrite Z, rv_0. apply rsumn_zero. intros d Hd. rewrite (ff_none _ _ _ _ _ _ _ X) by auto. reflexivity.
  - rewrite (rsumn_cut n (n - o)).
    + rewrite (rsumn_ext (n - o) _ (fun d => grown_ultimate g t n (om i c) (th i c) i c o * period_share g t (om i c) (th i c) d)).
      * rewrite rsumn_scale. replace (n - o)%nat with (S (n - 1 - o)) by lia. rewrite (shares_add t n g I) by (auto; lia). unfold grown_ultimate. pose proof (curve_pos t n g om th I Hom Hth i c (n - 1 - o) ltac:(lia)). field. lra.
      * intros d Hd. rewrite (ff_fits _ _ _ _ _ _ _ X) by (auto; lia). destruct (Nat.ltb_spec (o + d) n); [reflexivity|lia].
    + lia.
    + intros d Hd Hd'. rewrite (ff_fits _ _ _ _ _ _ _ X) by auto. destruct (Nat.ltb_spec (o + d) n); [lia|reflexivity].
Qed.
Print Assumptions C64_fitted_total.
(** The scale is the sum of the squared deviations over the fitted increments, divided by the number of known cells less the number of parameters. *)
Theorem C64_scale : forall g om th weights t n r i c, clark_input t n -> named_growth g -> (forall i c, 0 < om i c) -> (forall i c, 0 < th i c) -> clark_fit g om th weights t = Ok r ->
  (i < ax0 (values t))%nat -> (c < ax1 (values t))%nat -> (3 <= n)%nat -> positive_latest t n i c ->
  exists s, ck_scale r i c = Some s /\ 0 <= s /\
    s = known_sum n (fun o d => (rv (increment_of t i c o d) - expected_increment g t n (om i c) (th i c) i c o d) ^ 2 / expected_increment g t n (om i c) (th i c) i c o d) / free_cells_of n weights.
Proof.
  intros g om th weights t n r i c I N Hom Hth F Hi Hc Hn Pl. pose proof (ck_facts _ _ _ _ _ _ I N Hom Hth _ F) as X.
  assert (Fc : 0 < free_cells_of n weights).
  { unfold free_cells_of. rewrite mult_INR, plus_INR. pose proof (le_INR 3 n Hn) as L. cbn in L |- *. destruct weights; nra. }
  eexists. split; [apply (ff_scale _ _ _ _ _ _ _ X); auto; [intros o Ho E; specialize (Pl o Ho); rewrite E in Pl; revert Pl; apply Qcle_not_lt, Qcle_refl|change (free_cells_of n weights <> 0); lra]|]. split; [|reflexivity].
  apply Rmult_le_pos; [|left; apply Rinv_0_lt_compat; exact Fc]. apply known_sum_nonneg. intros o d L.
  assert (P : 0 < expected_increment g t n (om i c) (th i c) i c o d) by (apply (grown_pos t n g I N i c Hi Hc); auto).
  apply Rmult_le_pos; [apply pow2_ge_0|]. left. apply Rinv_0_lt_compat. exact P.
Qed.
Print Assumptions C64_scale.
(** Normalised residuals: the deviation over the square root of the scale times the fitted increment. *)
Theorem C64_residuals : forall g om th weights t n r i c o d s, clark_input t n -> named_growth g -> (forall i c, 0 < om i c) -> (forall i c, 0 < th i c) -> clark_fit g om th weights t = Ok r ->
  (i < ax0 (values t))%nat -> (c < ax1 (values t))%nat -> (o + d < n)%nat -> positive_latest t n i c -> increment_of t i c o d <> 0%Qc -> ck_scale r i c = Some s -> 0 < s ->
  rt_cell (ck_resid r) i c o d = Some ((rv (increment_of t i c o d) - expected_increment g t n (om i c) (th i c) i c o d) / sqrt (s * expected_increment g t n (om i c) (th i c) i c o d)).
Proof.
  intros g om th weights t n r i c o d s I N Hom Hth F Hi Hc L Pl Ni Es Ps. pose proof (ck_facts _ _ _ _ _ _ I N Hom Hth _ F) as X.
  apply (ff_resid _ _ _ _ _ _ _ X); auto.
  - intros E. specialize (Pl o ltac:(lia)). rewrite E in Pl. revert Pl. apply Qcle_not_lt, Qcle_refl.
  - apply Rmult_lt_0_compat; auto. apply (grown_pos t n g I N i c Hi Hc); auto.
Qed.
Print Assumptions C64_residuals.
(** What the parameters minimise: minus the log-likelihood of the known increments. *)
Theorem C64_likelihood : forall g t n i c om th, clark_input t n -> named_growth g -> (i < ax0 (values t))%nat -> (c < ax1 (values t))%nat -> 0 < om -> 0 < th -> positive_latest t n i c -> moving t n i c ->
  ldf_loss g t i c om th = Ok (poisson_loss n (fun o d => rv (increment_of t i c o d)) (expected_increment g t n om th i c)).
Proof. intros g t n i c om th I N Hi Hc Hom Hth Pl M. exact (ldf_loss_ok t n g I N i c Hi Hc om th Hom Hth Pl M). Qed.
Print Assumptions C64_likelihood.
Theorem C64_exposure_likelihood : forall g t sw n i c om th e, clark_input t n -> named_growth g -> (i < ax0 (values t))%nat -> (c < ax1 (values t))%nat -> 0 < om -> 0 < th -> 0 < e -> exposure_by_origin sw n i c -> moving t n i c ->
  cc_loss g t sw i c om th e = Ok (poisson_loss n (fun o d => rv (increment_of t i c o d)) (exposed_increment g t sw om th e i c)).
Proof. intros g t sw n i c om th e I N Hi Hc Hom Hth He Ew M. exact (cc_loss_ok t n g I N i c Hi Hc sw om th e Hom Hth He Ew M). Qed.
Print Assumptions C64_exposure_likelihood.
(** The best parameters do not depend on the currency of the amounts. *)
Theorem C64_currency : forall g t u k n i c om th, clark_input t n -> clark_input u n -> named_growth g -> (i < ax0 (values t))%nat -> (c < ax1 (values t))%nat -> positive_latest t n i c -> moving t n i c ->
  (0 < k)%Qc -> in_currency t u k -> 0 < om -> 0 < th -> (best_growth (ldf_loss g t i c) om th <-> best_growth (ldf_loss g u i c) om th).
Proof.
  intros g t u k n i c om th I Iu N Hi Hc Pl M Hk (Cd & Cg & C0 & C1 & Ca) Hom Hth. pose proof (rv_pos _ Hk) as Rk.
  assert (Nk : k <> 0%Qc) by (intros E; rewrite E in Hk; revert Hk; apply Qcle_not_lt, Qcle_refl).
  assert (Plu : positive_latest u n i c). { intros o Ho. rewrite Ca. specialize (Pl o Ho). replace 0%Qc with (k * 0)%Qc by ring. rewrite !(Qcmult_comm k). apply Qcmult_lt_compat_r; auto. }
  assert (Iu2 : forall o d, increment_of u i c o d = (k * increment_of t i c o d)%Qc). { intros o d. unfold increment_of. destruct d; rewrite ?Ca; ring. }
  assert (Mu : moving u n i c). { intros o d L. rewrite Iu2. intros E. apply Qcmult_integral in E. destruct E as [E|E]; [contradiction|]. exact (M o d L E). }
  assert (L : forall om th, 0 < om -> 0 < th -> exists v, ldf_loss g t i c om th = Ok v /\ ldf_loss g u i c om th = Ok (rv k * v - rv k * ln (rv k) * known_sum n (fun o d => rv (increment_of t i c o d)))).
  { intros om1 th1 H1 H2. eexists. split; [apply (C64_likelihood g t n); auto|]. rewrite (C64_likelihood g u n) by (auto; rewrite ?C0, ?C1; auto). f_equal.
    rewrite <- poisson_scale; auto; [|intros o d L; apply (grown_pos t n g I N i c Hi Hc); auto].
    unfold poisson_loss. f_equal. apply known_sum_ext. intros o d L. rewrite Iu2, rv_mult. replace (expected_increment g u n om1 th1 i c o d) with (rv k * expected_increment g t n om1 th1 i c o d); [reflexivity|].
    unfold expected_increment, grown_ultimate, period_share, average_age. rewrite Ca, Cd, Cg, rv_mult. unfold Rdiv. ring. }
  unfold best_growth. split; intros (v & E & B); destruct (L om th Hom Hth) as (w & Et & Eu).
  - rewrite E in Et. injection Et as ->. eexists. split; [exact Eu|]. intros om' th' H1 H2. destruct (L om' th' H1 H2) as (w' & Et' & Eu'). eexists. split; [exact Eu'|].
    destruct (B om' th' H1 H2) as (v' & Ev & Le). rewrite Et' in Ev. injection Ev as ->. pose proof (Rmult_le_compat_l (rv k) _ _ (Rlt_le _ _ Rk) Le). lra.
  - rewrite E in Eu. injection Eu as ->. eexists. split; [exact Et|]. intros om' th' H1 H2. destruct (L om' th' H1 H2) as (w' & Et' & Eu'). eexists. split; [exact Et'|].
    destruct (B om' th' H1 H2) as (v' & Ev & Le). rewrite Eu' in Ev. injection Ev as <-. apply (Rmult_le_reg_l (rv k)); auto. lra.
Qed.
Print Assumptions C64_currency.
(** With exposures, the best loss ratio for a growth curve is the one of the Cape Cod method: all latest amounts over all exposures at
    their known shares. *)
Theorem C64_loss_ratio : forall g t sw n i c om th e, clark_input t n -> named_growth g -> (i < ax0 (values t))%nat -> (c < ax1 (values t))%nat -> 0 < om -> 0 < th -> 0 < e ->
  exposure_by_origin sw n i c -> moving t n i c -> positive_latest t n i c -> average_age t 0 <= IZR (grain_months (dgrain t)) ->
  ((exists v, cc_loss g t sw i c om th e = Ok v /\ forall e', 0 < e' -> exists v', cc_loss g t sw i c om th e' = Ok v' /\ v <= v') <->
   e = rsumn n (fun o => rv (amount t i c o (n - 1 - o))) / rsumn n (fun o => rv (amount sw i c o 0) * growth_curve g om th (average_age t (n - 1 - o)))).
Proof.
  intros g t sw n i c om th e I N Hi Hc Hom Hth He Ew M Pl Av. pose proof (cl_n _ _ I) as Hn.
  set (x := fun o d => rv (increment_of t i c o d)). set (w := fun o d => rv (amount sw i c o 0) * period_share g t om th d).
  assert (Sx : known_sum n x = rsumn n (fun o => rv (amount t i c o (n - 1 - o)))).
  { apply rsumn_ext. intros o Ho. replace (n - o)%nat with (S (n - 1 - o)) by lia. apply increments_add. }
  assert (Sw : known_sum n w = rsumn n (fun o => rv (amount sw i c o 0) * growth_curve g om th (average_age t (n - 1 - o)))).
  { apply rsumn_ext. intros o Ho. unfold w. rewrite rsumn_scale. f_equal. replace (n - o)%nat with (S (n - 1 - o)) by lia. apply (shares_add t n g I); auto. lia. }
  assert (Pw : forall o d, (o + d < n)%nat -> 0 < w o d).
  { intros o d L. destruct (Ew o ltac:(lia)) as (q & Eq & Pq). unfold w, amount. rewrite Eq. cbn [nz]. apply Rmult_lt_0_compat; [apply rv_pos; auto|]. apply (period_share_pos t n g (fun _ _ => om) (fun _ _ => th) I (fun _ _ => Hom) (fun _ _ => Hth) 0 0). lia. }
  assert (Px : 0 < known_sum n x). { rewrite Sx. apply rsumn_pos1; [lia|]. intros o Ho. apply rv_pos, Pl, Ho. }
  pose proof (known_sum_pos n w ltac:(lia) Pw) as Pf.
  assert (L : forall e, 0 < e -> cc_loss g t sw i c om th e = Ok (poisson_loss n x (fun o d => e * w o d))).
  { intros e1 H1. rewrite (C64_exposure_likelihood g t sw n) by auto. f_equal. unfold poisson_loss. f_equal. apply known_sum_ext. intros o d Lo. unfold exposed_increment, w.
    replace (rv (amount sw i c o 0) * e1 * period_share g t om th d) with (e1 * (rv (amount sw i c o 0) * period_share g t om th d)) by ring. reflexivity. }
  rewrite <- Sx, <- Sw. pose proof (best_multiple n x w e He ltac:(lia) Px Pw) as BM.
  transitivity (e * known_sum n w = known_sum n x).
  - rewrite <- BM. split.
    + intros (v & Ev & B) e' He'. destruct (B e' He') as (v' & Ev' & Le). rewrite L in Ev by auto. rewrite L in Ev' by auto. injection Ev as <-. injection Ev' as <-. exact Le.
    + intros B. eexists. split; [apply L; auto|]. intros e' He'. eexists. split; [apply L; auto|]. apply B; auto.
  - split; intros E; [rewrite <- E; field; lra|rewrite E; field; lra].
Qed.
Print Assumptions C64_loss_ratio.

(** ** Tails *)
(** The tail has the factors of the development before the attachment age and the growth of the curve from there on; the last factor leads to
    the ultimate amount. *)
Theorem C64_tail : forall g om th weights aa years t l n k, clark_input t n -> named_growth g -> (forall i c, 0 < om i c) -> (forall i c, 0 < th i c) -> clark_factors t l n -> attached t n years aa k ->
  let m := tail_length t n years in
  exists r, tail_clark g om th weights aa None years t l = Ok r /\
    kdims (rt_frame r) = kdims l /\ vdims (rt_frame r) = vdims l /\ odims (rt_frame r) = odims l /\ ddims (rt_frame r) = Ages (map (projected_age t) (seq 0 m)) /\ ax3 (values (rt_frame r)) = m /\
    (forall i c o d, (d < k)%nat -> rt_cell r i c o d = if (d <? n - 1)%nat then r_of (cel l i c o d) else Some 1) /\
    (forall i c o d, (k <= d)%nat -> (S d < m)%nat -> rt_cell r i c o d = Some (growth_curve g (om i c) (th i c) (projected_average t (S d)) / growth_curve g (om i c) (th i c) (projected_average t d))) /\
    (forall i c o, rt_cell r i c o (m - 1)%nat = Some (/ growth_curve g (om i c) (th i c) (projected_average t (m - 1)))) /\
    (forall i c o d, (k <= d)%nat -> (d < m)%nat -> rprod_from d m (fun j => nzr (rt_cell r i c o j)) = / growth_curve g (om i c) (th i c) (projected_average t d)).
Proof.
  intros g om th weights aa years t l n k I N Hom Hth Fl At m. destruct (tail_facts t l n g om th weights aa years k I N Hom Hth Fl None At Logic.I) as (r & E & Fk & Fv & Fo & Fd & _ & _ & _ & F3 & C1 & C2 & C3).
  fold m in Fd, F3, C2, C3. pose proof (cl_n _ _ I) as Hn. assert (Hm : (2 <= m)%nat) by (unfold m, tail_length; lia).
  assert (C3' : forall i c o, rt_cell r i c o (m - 1)%nat = Some (tail_factor t n g om th years i c (m - 1))) by (intros i c o; rewrite C3; cbn [cut_at]; f_equal; ring).
  exists r. do 6 (split; auto). split; [exact C1|]. split; [|split].
  - intros i c o d Hk Hd. rewrite C2 by auto. unfold tail_factor. fold m. destruct (Nat.ltb_spec (S d) m); [reflexivity|lia].
  - intros i c o. rewrite C3'. unfold tail_factor. fold m. destruct (Nat.ltb_spec (S (m - 1)) m); [lia|reflexivity].
  - intros i c o d Hk Hd. rewrite <- (tail_product t n g om th years I Hom Hth) by auto. fold m. unfold rprod_from. apply rprodn_ext. intros j Hj.
    destruct (Nat.eq_dec (d + j) (m - 1)) as [->|]; [rewrite C3'; reflexivity|rewrite C2 by lia; reflexivity].
Qed.
Print Assumptions C64_tail.
(** An attachment at the first age replaces all factors by those of the growth curve. *)
Theorem C64_tail_whole : forall g om th weights years t l n r p, clark_input t n -> named_growth g -> (forall i c, 0 < om i c) -> (forall i c, 0 < th i c) -> clark_factors t l n ->
  clark_fit g om th weights t = Ok r -> tail_clark g om th weights (Some (nth 0 (dlist (ddims t)) 0%Z)) None years t l = Ok p ->
  forall i c d, (S d < n)%nat -> rt_cell p i c 0%nat d = rt_cell (ck_ldf r) i c 0%nat d.
Proof.
  intros g om th weights years t l n r p I N Hom Hth Fl F T i c d Hd. pose proof (ck_facts _ _ _ _ _ _ I N Hom Hth _ F) as X.
  assert (At : attached t n years (Some (nth 0 (dlist (ddims t)) 0%Z)) 0).
  { pose proof (average_pos t n I 0 ltac:(lia)) as A. unfold average_age in A. pose proof (months_pos t n I) as B. split; [|split; [unfold tail_length; lia|split; [lia|unfold projected_age; lia]]]. intros E. rewrite E in A. lra. }
  destruct (C64_tail g om th weights _ years t l n 0 I N Hom Hth Fl At) as (p' & E & _ & _ & _ & _ & _ & _ & C & _). rewrite T in E. injection E as <-.
  rewrite C by (unfold tail_length; lia). rewrite (ff_ldf _ _ _ _ _ _ _ X) by auto. rewrite !(projected_known t n I) by lia. reflexivity.
Qed.
Print Assumptions C64_tail_whole.
(** A truncation age multiplies the last factor by the growth at it. *)
Theorem C64_truncation : forall g om th weights aa years t l n k x, clark_input t n -> named_growth g -> (forall i c, 0 < om i c) -> (forall i c, 0 < th i c) -> clark_factors t l n -> attached t n years aa k -> 0 < x ->
  let m := tail_length t n years in
  exists r p, tail_clark g om th weights aa None years t l = Ok r /\ tail_clark g om th weights aa (Some x) years t l = Ok p /\
    (forall i c o d, (S d < m)%nat -> rt_cell p i c o d = rt_cell r i c o d) /\
    (forall i c o, rt_cell p i c o (m - 1)%nat = Some (growth_curve g (om i c) (th i c) x / growth_curve g (om i c) (th i c) (projected_average t (m - 1)))).
Proof.
  intros g om th weights aa years t l n k x I N Hom Hth Fl At Hx m. destruct (tail_facts t l n g om th weights aa years k I N Hom Hth Fl None At Logic.I) as (r & E & _ & _ & _ & _ & _ & _ & _ & _ & C1 & C2 & C3).
  destruct (tail_facts t l n g om th weights aa years k I N Hom Hth Fl (Some x) At Hx) as (p & E' & _ & _ & _ & _ & _ & _ & _ & _ & D1 & D2 & D3). fold m in C2, C3, D2, D3.
  exists r, p. split; [exact E|]. split; [exact E'|]. split.
  - intros i c o d Hd. destruct (Nat.lt_ge_cases d k); [rewrite C1, D1 by auto; reflexivity|rewrite C2, D2 by auto; reflexivity].
  - intros i c o. rewrite D3. pose proof (cl_n _ _ I). unfold tail_factor. fold m. destruct (Nat.ltb_spec (S (m - 1)) m); [unfold m, tail_length in *; lia|]. cbn [cut_at]. f_equal. unfold Rdiv. ring.
Qed.
Print Assumptions C64_truncation.
(** The truncation age is not an average age: amounts of the truncation age still develop, whatever the curve. *)
Theorem C64_truncation_refuted : forall g om th weights aa years t l n k, clark_input t n -> named_growth g -> (forall i c, 0 < om i c) -> (forall i c, 0 < th i c) -> clark_factors t l n -> attached t n years aa k ->
  let m := tail_length t n years in
  exists p, tail_clark g om th weights aa (Some (IZR (projected_age t (m - 1)))) years t l = Ok p /\ forall i c o, exists f, rt_cell p i c o (m - 1)%nat = Some f /\ 1 < f.
Proof.
  intros g om th weights aa years t l n k I N Hom Hth Fl At m. pose proof (months_pos t n I) as Mp. pose proof (projected_pos t n I (m - 1)) as Pp. assert (Hx : projected_average t (m - 1) < IZR (projected_age t (m - 1))) by (unfold projected_average; lra).
  destruct (C64_truncation g om th weights aa years t l n k (IZR (projected_age t (m - 1))) I N Hom Hth Fl At ltac:(lra)) as (_ & p & _ & E & _ & C). exists p. split; [exact E|]. intros i c o. eexists. split; [apply C|].
  pose proof (growth_range g (om i c) (th i c) (Hom i c) (Hth i c) _ Pp) as A. pose proof (growth_mono g (om i c) (th i c) (Hom i c) (Hth i c) _ _ (conj Pp Hx)) as B. fold m.
  apply (Rmult_lt_reg_r (growth_curve g (om i c) (th i c) (projected_average t (m - 1)))); [lra|]. unfold Rdiv. rewrite Rmult_assoc, Rinv_l, Rmult_1_r by lra. lra.
Qed.
Print Assumptions C64_truncation_refuted.

(** ** Cases *)
Definition ktri (n : nat) (rows : list (list (option Z))) : tri :=
  tri4 [["Total"%string]] ["Total"%string] ["paid"%string] (map (fun k => y 2001 + Z.of_nat (12 * 1 * k))%Z (seq 0 n))
    (Ages (map (fun k => 12 + Z.of_nat (12 * k))%Z (seq 0 n))) (dec (2000 + Z.of_nat n)) [[rows]].
Lemma ktri_input n rows : (2 <= n)%nat -> wf (ktri n rows) -> blank_future (ktri n rows) -> ax2 (values (ktri n rows)) = n -> ax3 (values (ktri n rows)) = n -> (n < 100)%nat -> clark_input (ktri n rows) n.
Proof.
  intros Hn W Bl E2 E3 Hb.
  assert (Q : square (ktri n rows) n (y 2001) 12 12).
  { split; [|auto]. unfold regular. rewrite E2, E3. repeat split; try reflexivity; try lia. unfold ktri, tri4. cbn [vdate]. unfold dec, y. lia. }
  constructor; auto. exists (y 2001), 12%Z, 12%nat. split; [exact Q|]. split; [reflexivity|lia].
Qed.
Ltac kinput := apply ktri_input; [lia|by_wfb|by_blankb|reflexivity|reflexivity|lia].
Definition kexp (n : nat) (us : list Z) : tri :=
  Tri [["Total"%string]] ["Total"%string] ["premium"%string] (map (fun k => y 2001 + Z.of_nat (12 * 1 * k))%Z (seq 0 n)) (Vals [dec (2000 + Z.of_nat n)]) (Arr 1 1 n 1 (fun _ _ o _ => Some (qc (nth o us 0%Z)))) (dec (2000 + Z.of_nat n)) (Some true) false GY GY.
Definition kldf (n : nat) : tri := Tri [["Total"%string]] ["Total"%string] ["paid"%string] [y 2001] (Ages (map (fun k => 12 + Z.of_nat (12 * k))%Z (seq 0 (n - 1)))) (Arr 1 1 1 (n - 1) (fun _ _ _ _ => Some (qc 2))) ULT_VAL (Some false) true GY GY.
Definition kt1 := ktri 3 [[Some 50; Some 80; Some 100]; [Some 90; Some 150; None]; [Some 70; None; None]]%Z.
Definition ksw := kexp 3 [200; 200; 200]%Z.
Definition latestb (t : tri) (n : nat) : bool := forallb (fun o => Qc_ltb 0%Qc (amount t 0 0 o (n - 1 - o))) (seq 0 n).
Lemma by_latestb t n : latestb t n = true -> positive_latest t n 0 0.
Proof. intros H o Ho. unfold latestb in H. rewrite forallb_forall in H. specialize (H o ltac:(apply in_seq; lia)). destruct (Qc_ltb_spec 0%Qc (amount t 0 0 o (n - 1 - o))); [auto|discriminate]. Qed.
Lemma by_movingb t n : all_cells n (fun o d => negb (Qc_eqb (increment_of t 0 0 o d) 0%Qc)) = true -> moving t n 0 0.
Proof. intros H o d L. pose proof (all_cells_ok _ _ H o d L) as A. cbv beta in A. destruct (Qc_eqb_spec (increment_of t 0 0 o d) 0%Qc); [discriminate|auto]. Qed.
Lemma kt1_input : clark_input kt1 3.
Proof. kinput. Qed.
Lemma kexp_ok n us : forallb (fun o => Qc_ltb 0%Qc (qc (nth o us 0%Z))) (seq 0 n) = true -> exposure_by_origin (kexp n us) n 0 0.
Proof. intros H o Ho. rewrite forallb_forall in H. specialize (H o ltac:(apply in_seq; lia)). exists (qc (nth o us 0%Z)). split; [reflexivity|]. destruct (Qc_ltb_spec 0%Qc (qc (nth o us 0%Z))); [auto|discriminate]. Qed.
Example C64_case : clark_input kt1 3 /\ named_growth LogLogistic /\ named_growth Weibull /\ positive_latest kt1 3 0 0 /\ moving kt1 3 0 0 /\ exposure_by_origin ksw 3 0 0 /\
  average_age kt1 0 <= IZR (grain_months (dgrain kt1)) /\ clark_factors kt1 (kldf 3) 3 /\ attached kt1 3 1 None 1 /\ attached kt1 3 1 (Some 12%Z) 0 /\ attached kt1 3 1 (Some 40%Z) 3.
Proof.
  split; [exact kt1_input|]. split; [left; auto|]. split; [right; auto|]. split; [apply by_latestb; vm_compute; reflexivity|]. split; [apply by_movingb; vm_compute; reflexivity|]. split; [apply kexp_ok; vm_compute; reflexivity|].
  split; [unfold average_age; cbn; lra|]. split; [constructor; reflexivity|]. split; [reflexivity|].
  split; (split; [lia|]; split; [cbn; lia|]; split; [intros d Hd; destruct d as [|[|[|d]]]; try lia; vm_compute; reflexivity|vm_compute; discriminate]).
Qed.
Example C64_currency_case : in_currency kt1 (ktri 3 [[Some 100; Some 160; Some 200]; [Some 180; Some 300; None]; [Some 140; None; None]]%Z) (qc 2) /\
  clark_input (ktri 3 [[Some 100; Some 160; Some 200]; [Some 180; Some 300; None]; [Some 140; None; None]]%Z) 3.
Proof.
  split; [|kinput]. do 4 (split; [reflexivity|]). intros i c o d. apply Qc_is_canon.
  destruct i as [|[|i]], c as [|[|c]], o as [|[|[|[|o]]]], d as [|[|[|[|d]]]]; vm_compute; reflexivity.
Qed.
(** The fitted increments of the Cape Cod method are not those of its exposures and loss ratio: here for no curve and no loss ratio. *)
Theorem C64_cape_cod_refuted : exists t sw n, clark_input t n /\ exposure_by_origin sw n 0 0 /\ positive_latest t n 0 0 /\ moving t n 0 0 /\
  forall g om th e, named_growth g -> (forall i c, 0 < om i c) -> (forall i c, 0 < th i c) -> 0 < e ->
  exists r o d, clark_fit g om th true t = Ok r /\ (o + d < n)%nat /\ rt_cell (ck_fits r) 0 0 o d <> Some (exposed_increment g t sw (om 0 0)%nat (th 0 0)%nat e 0 0 o d).
Proof.
  exists kt1, ksw, 3%nat. pose proof C64_case as (I & _ & _ & Pl & M & Ew & _). do 4 (split; auto). intros g om th e N Hom Hth He.
  destruct (C64_fits g om th true kt1 3 I N Hom Hth) as (r & F). exists r.
  assert (Z : forall q : Z, (0 < q)%Z -> qc q <> 0%Qc). { intros q Hq E. apply (f_equal (fun x => Qnum (this x))) in E. unfold qc, Q2Qc in E. cbn [this] in E. rewrite Qred_identity in E; [cbn in E; lia|]. cbn. apply Z.gcd_1_r. }
  assert (A : forall o, (o < 2)%nat -> rt_cell (ck_fits r) 0 0 o 0 = Some (expected_increment g kt1 3 (om 0 0)%nat (th 0 0)%nat 0 0 o 0)).
  { intros o Ho. rewrite (C64_fitted g om th true kt1 3 r 0 0 o 0 I N Hom Hth F) by (try (vm_compute; lia); try lia; intros E; specialize (Pl o ltac:(lia)); rewrite E in Pl; revert Pl; apply Qcle_not_lt, Qcle_refl).
    destruct (Nat.ltb_spec (o + 0) 3); [reflexivity|lia]. }
  pose proof (period_share_pos kt1 3 g om th I Hom Hth 0 0 0 ltac:(lia)) as Ps.
  pose proof (growth_range g (om 0 0)%nat (th 0 0)%nat (Hom _ _) (Hth _ _) _ (average_pos kt1 3 I 2 ltac:(lia))) as G2. pose proof (growth_range g (om 0 0)%nat (th 0 0)%nat (Hom _ _) (Hth _ _) _ (average_pos kt1 3 I 1 ltac:(lia))) as G1.
  pose proof (growth_mono g (om 0 0)%nat (th 0 0)%nat (Hom _ _) (Hth _ _) _ _ (conj (average_pos kt1 3 I 1 ltac:(lia)) (average_mono kt1 3 I 1 2 ltac:(lia) ltac:(lia)))) as G12.
  set (p := period_share g kt1 (om 0 0)%nat (th 0 0)%nat 0) in *. set (u := growth_curve g (om 0 0)%nat (th 0 0)%nat (average_age kt1 2)) in *. set (v := growth_curve g (om 0 0)%nat (th 0 0)%nat (average_age kt1 1)) in *.
  assert (E0 : expected_increment g kt1 3 (om 0 0)%nat (th 0 0)%nat 0 0 0 0 = rv (qc 100) / u * p) by reflexivity.
  assert (E1 : expected_increment g kt1 3 (om 0 0)%nat (th 0 0)%nat 0 0 1 0 = rv (qc 150) / v * p) by reflexivity.
  assert (X : forall o, (o < 2)%nat -> exposed_increment g kt1 ksw (om 0 0)%nat (th 0 0)%nat e 0 0 o 0 = rv (qc 200) * e * p) by (intros [|[|o]] Ho; [reflexivity|reflexivity|lia]).
  assert (R100 : rv (qc 100) = 100) by (unfold rv, qc, Q2Qc, Q2R; cbn; lra). assert (R150 : rv (qc 150) = 150) by (unfold rv, qc, Q2Qc, Q2R; cbn; lra).
  destruct (Req_dec (rv (qc 100) / u) (rv (qc 200) * e)) as [E|E].
  - exists 1%nat, 0%nat. split; [exact F|]. split; [lia|]. rewrite A, X, E1 by lia. intros Q. injection Q as Q. apply Rmult_eq_reg_r in Q; [|lra]. rewrite <- E in Q. rewrite R100, R150 in Q.
    assert (Q' : 150 * u = 100 * v). { replace (150 * u) with (150 / v * (u * v)) by (field; lra). rewrite Q. field. lra. } lra.
  - exists 0%nat, 0%nat. split; [exact F|]. split; [lia|]. rewrite A, X, E0 by lia. intros Q. injection Q as Q. apply Rmult_eq_reg_r in Q; [|lra]. contradiction.
Qed.
Print Assumptions C64_cape_cod_refuted.
(** An increment of 0 is left out of the likelihood, also the amount expected for it. *)
Definition kt2 := ktri 3 [[Some 100; Some 100; Some 120]; [Some 90; Some 150; None]; [Some 70; None; None]]%Z.
Theorem C64_zero_increment_refuted : exists t n, clark_input t n /\ positive_latest t n 0 0 /\
  forall g om th, named_growth g -> 0 < om -> 0 < th -> exists v, ldf_loss g t 0 0 om th = Ok v /\ v < poisson_loss n (fun o d => rv (increment_of t 0 0 o d)) (expected_increment g t n om th 0 0).
Proof.
  assert (I : clark_input kt2 3) by kinput. assert (Pl : positive_latest kt2 3 0 0) by (apply by_latestb; vm_compute; reflexivity). exists kt2, 3%nat. split; [exact I|]. split; [exact Pl|]. intros g om th N Hom Hth.
  assert (Hi : (0 < ax0 (values kt2))%nat) by (vm_compute; lia). assert (Hc : (0 < ax1 (values kt2))%nat) by (vm_compute; lia).
  eexists. split; [apply (ldf_loss_terms kt2 3 g I N 0 0 Hi Hc om th Hom Hth Pl); intros [|[|[|o]]] Ho; [discriminate|discriminate|discriminate|lia]|].
  pose proof (grown_pos kt2 3 g I N 0 0 Hi Hc om th 0 1 Hom Hth Pl ltac:(lia)) as P.
  unfold poisson_loss, known_sum. cbn [rsumn Nat.sub].
  assert (Z1 : increment_of kt2 0 0 0 1 = 0%Qc) by (apply Qc_is_canon; vm_compute; reflexivity).
  assert (B : Qc_eqb (increment_of kt2 0 0 0 0) 0 = false /\ Qc_eqb (increment_of kt2 0 0 0 1) 0 = true /\ Qc_eqb (increment_of kt2 0 0 0 2) 0 = false /\ Qc_eqb (increment_of kt2 0 0 1 0) 0 = false /\ Qc_eqb (increment_of kt2 0 0 1 1) 0 = false /\ Qc_eqb (increment_of kt2 0 0 2 0) 0 = false) by (repeat split; vm_compute; reflexivity).
  destruct B as (-> & -> & -> & -> & -> & ->). rewrite Z1, rv_0. change (expected_increment g kt2 3 om th 0 0) with (grown kt2 3 g 0 0 om th). lra.
Qed.
Print Assumptions C64_zero_increment_refuted.
(** Two origins have fewer cells than parameters: the scale is negative, and there are no residuals. *)
Definition kt3 := ktri 2 [[Some 100; Some 80]; [Some 90; None]]%Z.
Theorem C64_two_origins_refuted : exists t n, clark_input t n /\ positive_latest t n 0 0 /\
  forall g om th, named_growth g -> (forall i c, 0 < om i c) -> (forall i c, 0 < th i c) -> exists r s, clark_fit g om th false t = Ok r /\ ck_scale r 0 0 = Some s /\ s < 0.
Proof.
  assert (I : clark_input kt3 2) by kinput. assert (Pl : positive_latest kt3 2 0 0) by (apply by_latestb; vm_compute; reflexivity). exists kt3, 2%nat. split; [exact I|]. split; [exact Pl|]. intros g om th N Hom Hth.
  assert (Hi : (0 < ax0 (values kt3))%nat) by (vm_compute; lia). assert (Hc : (0 < ax1 (values kt3))%nat) by (vm_compute; lia).
  destruct (C64_fits g om th false kt3 2 I N Hom Hth) as (r & F). pose proof (ck_facts _ _ _ _ _ _ I N Hom Hth _ F) as X. exists r.
  assert (Fc : free_cells 2 false = -1) by (unfold free_cells; cbn; lra).
  eexists. split; [exact F|]. split; [apply (ff_scale _ _ _ _ _ _ _ X); auto; [intros o Ho E; specialize (Pl o Ho); rewrite E in Pl; revert Pl; apply Qcle_not_lt, Qcle_refl|rewrite Fc; lra]|]. rewrite Fc.
  set (e := fun o d => expected kt3 2 g om th 0 0 o d).
  assert (Pe : forall o d, (o + d < 2)%nat -> 0 < e o d) by (intros o d L; apply (grown_pos kt3 2 g I N 0 0 Hi Hc); auto).
  set (f := fun o d => (rv (increment_of kt3 0 0 o d) - e o d) ^ 2 / e o d).
  assert (Nn : forall o d, (o + d < 2)%nat -> 0 <= f o d) by (intros o d L; apply Rmult_le_pos; [apply pow2_ge_0|left; apply Rinv_0_lt_compat, Pe, L]).
  assert (P : 0 < f 0%nat 1%nat).
  { apply Rdiv_lt_0_compat; [|apply Pe; lia]. assert (E : increment_of kt3 0 0 0 1 = qc (-20)) by (apply Qc_is_canon; vm_compute; reflexivity). rewrite E. assert (R20 : rv (qc (-20)) = -20) by (unfold rv, qc, Q2Qc, Q2R; cbn; lra). rewrite R20. pose proof (Pe 0%nat 1%nat ltac:(lia)). nra. }
  pose proof (known_sum_one_le 2 f 0 1 ltac:(lia) Nn) as L. change (known_sum 2 f / -1 < 0). lra.
Qed.
Print Assumptions C64_two_origins_refuted.
(** An attachment after the last age puts the whole curve after the factors: there are twice as many factors as ages. *)
Theorem C64_tail_beyond_refuted : exists t l n, clark_input t n /\ clark_factors t l n /\
  forall g om th weights years, named_growth g -> (forall i c, 0 < om i c) -> (forall i c, 0 < th i c) ->
  exists a r, tail_clark g om th weights (Some a) None years t l = Ok r /\ ax3 (values (rt_frame r)) = (2 * List.length (dlist (ddims (rt_frame r))))%nat /\ (1 < List.length (dlist (ddims (rt_frame r))))%nat.
Proof.
  pose proof C64_case as (I & _ & _ & _ & _ & _ & _ & Fl & _). exists kt1, (kldf 3), 3%nat. split; [exact I|]. split; [exact Fl|]. intros g om th weights years N Hom Hth.
  set (a := (projected_age kt1 (tail_length kt1 3 years - 1) + 1)%Z).
  destruct (tail_beyond kt1 (kldf 3) 3 g om th weights (Some a) years I N Hom Hth Fl a eq_refl) as (r & E & E1 & E2 & _); [unfold a; lia|unfold a, projected_age; cbn [ktri kt1 tri4 ddims dlist nth map seq dgrain grain_months]; lia|].
  exists a, r. split; [exact E|]. rewrite E1, E2. split; [reflexivity|]. unfold tail_length. lia.
Qed.
Print Assumptions C64_tail_beyond_refuted.
