(** Proofs about ClarkLDF: products of factors, totals of fitted increments, and the function it minimises. *)
From Coq Require Import Reals Lra Lia.
From Verif Require Import Spec TriFacts ArrFacts NumFacts P_Mack P_Bondy P_Clark1 P_Clark2 P_Clark3 SpecClark.
Local Open Scope nat_scope.

Lemma known_sum_plus n f g : known_sum n (fun o d => f o d + g o d)%R = (known_sum n f + known_sum n g)%R.
Proof. unfold known_sum. rewrite <- rsumn_plus. apply rsumn_ext. intros o Ho. apply rsumn_plus. Qed.
Lemma known_sum_scale n k f : known_sum n (fun o d => k * f o d)%R = (k * known_sum n f)%R.
Proof. unfold known_sum. rewrite <- rsumn_scale. apply rsumn_ext. intros o Ho. apply rsumn_scale. Qed.
Lemma rsumn_pos1 n f : (1 <= n) -> (forall k, k < n -> (0 < f k)%R) -> (0 < rsumn n f)%R.
Proof. intros Hn H. destruct n as [|n]; [lia|]. cbn [rsumn]. pose proof (rsumn_nonneg n f (fun k Hk => Rlt_le _ _ (H k ltac:(lia)))). specialize (H n ltac:(lia)). lra. Qed.
Lemma known_sum_pos n f : 1 <= n -> (forall o d, o + d < n -> (0 < f o d)%R) -> (0 < known_sum n f)%R.
Proof. intros Hn H. apply rsumn_pos1; auto. intros o Ho. apply rsumn_pos1; [lia|]. intros d Hd. apply H. lia. Qed.
Lemma known_sum_nonneg n f : (forall o d, o + d < n -> (0 <= f o d)%R) -> (0 <= known_sum n f)%R.
Proof. intros H. apply rsumn_nonneg. intros o Ho. apply rsumn_nonneg. intros d Hd. apply H. lia. Qed.
Lemma rsumn_one n f k : k < n -> (forall j, j < n -> (0 <= f j)%R) -> (f k <= rsumn n f)%R.
Proof.
  induction n as [|n IH]; intros Hk H; [lia|]. cbn [rsumn]. destruct (Nat.eq_dec k n) as [->|].
  - pose proof (rsumn_nonneg n f (fun j Hj => H j ltac:(lia))). lra.
  - specialize (IH ltac:(lia) (fun j Hj => H j ltac:(lia))). specialize (H n ltac:(lia)). lra.
Qed.
Lemma known_sum_one_le n f o d : o + d < n -> (forall o d, o + d < n -> (0 <= f o d)%R) -> (f o d <= known_sum n f)%R.
Proof.
  intros L H. unfold known_sum. eapply Rle_trans; [apply (rsumn_one (n - o) (f o) d); [lia|intros j Hj; apply H; lia]|].
  apply (rsumn_one n (fun o => rsumn (n - o) (f o)) o); [lia|]. intros j Hj. apply rsumn_nonneg. intros k Hk. apply H. lia.
Qed.
Lemma increments_add t i c o k : rsumn (S k) (fun d => rv (increment_of t i c o d)) = rv (amount t i c o k).
Proof. induction k as [|k IH]; [cbn; lra|]. cbn [rsumn] in *. rewrite IH. unfold increment_of. rewrite rv_minus. ring. Qed.
Lemma ln_le u : (0 < u)%R -> (ln u <= u - 1)%R.
Proof.
  intros H. destruct (Req_dec u 1) as [->|Ne]; [rewrite ln_1; lra|]. pose proof (exp_ineq1 (ln u)) as E. rewrite exp_ln in E by auto.
  assert (ln u <> 0%R) by (intros Z; apply Ne; rewrite <- (exp_ln u H), Z; apply exp_0). specialize (E H0). lra.
Qed.
Lemma ln_lt u : (0 < u)%R -> u <> 1%R -> (ln u < u - 1)%R.
Proof.
  intros H Ne. pose proof (exp_ineq1 (ln u)) as E. rewrite exp_ln in E by auto.
  assert (ln u <> 0%R) by (intros Z; apply Ne; rewrite <- (exp_ln u H), Z; apply exp_0). specialize (E H0). lra.
Qed.

Section Curve.
Variables (t : tri) (n : nat) (g : growth).
Hypothesis I : clark_input t n.
Hypothesis N : named_growth g.

(** The periods up to an age make up the share known at the age, when the first age is that of one period or less. *)
Lemma shares_add om th k : (0 < om)%R -> (0 < th)%R -> (average_age t 0 <= IZR (grain_months (dgrain t)))%R -> k < n ->
  rsumn (S k) (period_share g t om th) = growth_curve g om th (average_age t k).
Proof using I.
  intros Hom Hth A Hk. rewrite <- (share_curve g om th (average_age t k)) by (apply (average_pos t n I); auto). induction k as [|k IH].
  - cbn [rsumn]. unfold period_share. unfold known_share at 2. destruct (Rle_dec (average_age t 0 - IZR (grain_months (dgrain t))) 0); lra.
  - cbn [rsumn] in *. rewrite IH by lia. unfold period_share. replace (average_age t (S k) - IZR (grain_months (dgrain t)))%R with (average_age t k) by (rewrite (average_step t n I) by auto; lra). lra.
Qed.

Section Loss.
Variables (i c : nat).
Hypotheses (Hi : i < ax0 (values t)) (Hc : c < ax1 (values t)).

(** The terms of the sum that the fit minimises. *)
Lemma loss_terms inc lat lr ld f x : parts t n ld inc lat lr -> (forall o d, o + d < n -> f o d = Some (x o d) /\ (0 < x o d)%R) ->
  clark_loss t inc i c f = (- known_sum n (fun o d => match cel inc i c o d with Some q => rv q * ln (x o d) - x o d | None => 0 end))%R.
Proof using I Hi Hc.
  intros P H. unfold clark_loss. f_equal. apply (known_cells t n I). intros o d Ho Hd. rewrite (nan_r_known t n I) by auto.
  destruct (Nat.ltb_spec (o + d) n) as [L|L]; [|reflexivity]. destruct (H o d L) as (-> & Px). cbn [rlog]. destruct (Rlt_dec 0 (x o d)); [|lra].
  destruct (cel inc i c o d) as [q|]; cbn; ring.
Qed.
Lemma loss_moving inc lat lr ld f x : parts t n ld inc lat lr -> moving t n i c -> (forall o d, o + d < n -> f o d = Some (x o d) /\ (0 < x o d)%R) ->
  clark_loss t inc i c f = poisson_loss n (fun o d => rv (increment_of t i c o d)) x.
Proof using I Hi Hc.
  intros P M H. rewrite (loss_terms inc lat lr ld f x P H). unfold poisson_loss. f_equal. apply known_sum_ext. intros o d L.
  pose proof (pa_inc _ _ _ _ _ _ P i c o d Hi Hc L) as A. specialize (M o d L). destruct (cel inc i c o d) as [q|]; cbn [nz] in A; [rewrite A; reflexivity|congruence].
Qed.

Definition grown om th o d : R := (grown_ultimate g t n om th i c o * period_share g t om th d)%R.
Lemma grown_pos om th o d : (0 < om)%R -> (0 < th)%R -> positive_latest t n i c -> o + d < n -> (0 < grown om th o d)%R.
Proof using I N Hi Hc.
  intros Hom Hth Pl L. unfold grown, grown_ultimate. apply Rmult_lt_0_compat; [apply Rdiv_lt_0_compat|].
  - pose proof (rv_lt _ _ (Pl o ltac:(lia))). rewrite rv_0 in *. auto.
  - apply growth_range; auto. apply (average_pos t n I). lia.
  - apply (period_share_pos t n g (fun _ _ => om) (fun _ _ => th) I (fun _ _ => Hom) (fun _ _ => Hth) 0 0). lia.
Qed.
Lemma ldf_increment_ok om th inc lat lr ld : (0 < om)%R -> (0 < th)%R -> positive_latest t n i c -> parts t n ld inc lat lr ->
  forall o d, o + d < n -> ldf_increment g t lat i c th om o d = Some (grown om th o d) /\ (0 < grown om th o d)%R.
Proof using I N Hi Hc.
  intros Hom Hth Pl P o d L. split; [|apply grown_pos; auto]. unfold ldf_increment. rewrite (pa_lat _ _ _ _ _ _ P), (cl_len _ _ I), (pa_latc _ _ _ _ _ _ P) by (auto; lia).
  replace (n - 1 - (n - 1 - o)) with o by lia.
  assert (A : n2n (cel t i c o (n - 1 - o)) = Some (amount t i c o (n - 1 - o))).
  { specialize (Pl o ltac:(lia)). unfold amount in *. destruct (cel t i c o (n - 1 - o)) as [q|]; cbn [nz n2n] in *; [|exfalso; revert Pl; apply Qcle_not_lt, Qcle_refl]. destruct (Qc_eqb_spec q 0%Qc) as [->|]; [exfalso; revert Pl; apply Qcle_not_lt, Qcle_refl|reflexivity]. }
  rewrite A. cbn [r_of option_map].
  change (rmul (rmul (inv_growth g th om (end_age t (n - 1 - o))) (Some (rv (amount t i c o (n - 1 - o))))) (Some (age_share g t th om d)) = Some (grown om th o d)).
  rewrite end_average, inv_growth_curve by (auto; apply (average_pos t n I); lia). cbn [rmul]. f_equal.
  pose proof (age_share_period t n g (fun _ _ => om) (fun _ _ => th) I N (fun _ _ => Hom) (fun _ _ => Hth) 0 0 d ltac:(lia)) as S. cbv beta in S. rewrite S. unfold grown, grown_ultimate, Rdiv. ring.
Qed.
Lemma ldf_loss_ok om th : (0 < om)%R -> (0 < th)%R -> positive_latest t n i c -> moving t n i c ->
  ldf_loss g t i c om th = Ok (poisson_loss n (fun o d => rv (increment_of t i c o d)) (grown om th)).
Proof using I N Hi Hc.
  intros Hom Hth Pl M. destruct (clark_parts t n I) as (ld & inc & s & lat & lr & _ & Einc & Es & Elat & _ & P).
  unfold ldf_loss. rewrite Einc, Es. cbn [rbind]. rewrite Elat. cbn [rbind]. f_equal. apply (loss_moving inc lat lr ld); auto. eapply ldf_increment_ok; eauto.
Qed.
(** Increments of 0 after the first age are left out. *)
Lemma ldf_loss_terms om th : (0 < om)%R -> (0 < th)%R -> positive_latest t n i c -> (forall o, o < n -> amount t i c o 0 <> 0%Qc) ->
  ldf_loss g t i c om th = Ok (- known_sum n (fun o d => if Qc_eqb (increment_of t i c o d) 0%Qc then 0 else rv (increment_of t i c o d) * ln (grown om th o d) - grown om th o d))%R.
Proof using I N Hi Hc.
  intros Hom Hth Pl M. destruct (clark_parts t n I) as (ld & inc & s & lat & lr & _ & Einc & Es & Elat & _ & P).
  unfold ldf_loss. rewrite Einc, Es. cbn [rbind]. rewrite Elat. cbn [rbind]. f_equal. rewrite (loss_terms inc lat lr ld _ (grown om th) P) by (eapply ldf_increment_ok; eauto).
  f_equal. apply known_sum_ext. intros o d L. pose proof (pa_inc _ _ _ _ _ _ P i c o d Hi Hc L) as A. destruct (Qc_eqb_spec (increment_of t i c o d) 0%Qc) as [Z|Z].
  - destruct d as [|d]; [exfalso; apply (M o); [lia|exact Z]|]. rewrite (proj1 (pa_inc2 _ _ _ _ _ _ P i c o (S d) Hi Hc L ltac:(lia)) Z). reflexivity.
  - destruct (cel inc i c o d) as [q|]; cbn [nz] in A; [rewrite A; reflexivity|congruence].
Qed.

(** Exposures. *)
Definition exposed sw om th e o d : R := (rv (nz (cel sw i c o 0)) * e * period_share g t om th d)%R.
Lemma cc_loss_ok sw om th e : (0 < om)%R -> (0 < th)%R -> (0 < e)%R -> exposure_by_origin sw n i c -> moving t n i c ->
  cc_loss g t sw i c om th e = Ok (poisson_loss n (fun o d => rv (increment_of t i c o d)) (exposed sw om th e)).
Proof using I N Hi Hc.
  intros Hom Hth He Ew M. destruct (clark_parts t n I) as (ld & inc & s & lat & lr & _ & Einc & Es & Elat & _ & P).
  unfold cc_loss. rewrite Einc. cbn [rbind]. f_equal. apply (loss_moving inc lat lr ld); auto. intros o d L. destruct (Ew o ltac:(lia)) as (q & Eq & Pq). unfold cc_increment, exposed. rewrite Eq. cbn [r_of option_map rmul nz].
  pose proof (age_share_period t n g (fun _ _ => om) (fun _ _ => th) I N (fun _ _ => Hom) (fun _ _ => Hth) 0 0 d ltac:(lia)) as S. cbv beta in S. rewrite S. split; auto.
  pose proof (rv_lt _ _ Pq) as Q0. rewrite rv_0 in Q0. apply Rmult_lt_0_compat; [apply Rmult_lt_0_compat; auto|]. apply (period_share_pos t n g (fun _ _ => om) (fun _ _ => th) I (fun _ _ => Hom) (fun _ _ => Hth) 0 0). lia.
Qed.
End Loss.
End Curve.

(** Changing the unit of the amounts changes the loss by a factor and a constant. *)
Lemma poisson_scale n k x f : (0 < k)%R -> (forall o d, o + d < n -> (0 < f o d)%R) ->
  poisson_loss n (fun o d => k * x o d)%R (fun o d => k * f o d)%R = (k * poisson_loss n x f - k * ln k * known_sum n x)%R.
Proof.
  intros Hk Hf. unfold poisson_loss.
  rewrite (known_sum_ext n (fun o d => k * x o d * ln (k * f o d) - k * f o d)%R (fun o d => k * (x o d * ln (f o d) - f o d) + (k * ln k) * x o d)%R).
  - rewrite known_sum_plus, !known_sum_scale. ring.
  - intros o d L. rewrite ln_mult by auto. ring.
Qed.
(** The best multiple of given expected amounts makes their total that of the actual ones. *)
Lemma poisson_multiple n x w e e' : (0 < e)%R -> (0 < e')%R -> (forall o d, o + d < n -> (0 < w o d)%R) ->
  (poisson_loss n x (fun o d => e' * w o d)%R - poisson_loss n x (fun o d => e * w o d)%R = (e' - e) * known_sum n w - known_sum n x * ln (e' / e))%R.
Proof.
  intros He He' Hw. unfold poisson_loss.
  assert (A : forall e, (0 < e)%R -> known_sum n (fun o d => x o d * ln (e * w o d) - e * w o d)%R = (known_sum n (fun o d => x o d * ln (w o d)) + ln e * known_sum n x + (- e) * known_sum n w)%R).
  { intros k Hk. rewrite <- !known_sum_scale, <- !known_sum_plus. apply known_sum_ext. intros o d L. rewrite ln_mult by auto. ring. }
  rewrite !A by auto. unfold Rdiv. rewrite ln_mult, ln_Rinv by (auto; apply Rinv_0_lt_compat; auto). ring.
Qed.
Lemma best_multiple n x w e : (0 < e)%R -> (1 <= n) -> (0 < known_sum n x)%R -> (forall o d, o + d < n -> (0 < w o d)%R) ->
  ((forall e', (0 < e')%R -> (poisson_loss n x (fun o d => e * w o d)%R <= poisson_loss n x (fun o d => e' * w o d)%R)%R) <-> (e * known_sum n w = known_sum n x)%R).
Proof.
  intros He Hn Hx Hw. pose proof (known_sum_pos n w Hn Hw) as Pw. set (F := known_sum n w) in *. set (X := known_sum n x) in *. split.
  - intros H. set (e1 := (X / F)%R). assert (P1 : (0 < e1)%R) by (apply Rdiv_lt_0_compat; auto). specialize (H e1 P1).
    pose proof (poisson_multiple n x w e1 e P1 He Hw) as D. fold F X in D. assert (E1 : (e1 * F = X)%R) by (unfold e1; field; lra).
    destruct (Req_dec (e / e1) 1) as [E|E].
    + assert (e = e1). { apply (Rmult_eq_reg_r (/ e1)); [|apply Rinv_neq_0_compat; lra]. rewrite Rinv_r by lra. exact E. } subst e. exact E1.
    + exfalso. assert (Pu : (0 < e / e1)%R) by (apply Rdiv_lt_0_compat; auto). pose proof (ln_lt (e / e1) Pu E) as Lt.
      assert (T : (X * ln (e / e1) < X * (e / e1 - 1))%R) by (apply Rmult_lt_compat_l; auto).
      replace (X * (e / e1 - 1))%R with ((e - e1) * F)%R in T by (rewrite <- E1; field; lra). lra.
  - intros E e' He'. pose proof (poisson_multiple n x w e e' He He' Hw) as D. fold F X in D.
    assert (Pu : (0 < e' / e)%R) by (apply Rdiv_lt_0_compat; auto). pose proof (ln_le (e' / e) Pu) as Lt.
    assert (T : (X * ln (e' / e) <= X * (e' / e - 1))%R) by (apply Rmult_le_compat_l; lra).
    replace (X * (e' / e - 1))%R with ((e' - e) * F)%R in T by (rewrite <- E; field; lra). lra.
Qed.
