(** Proofs about Clark's growth curves. *)
From Coq Require Import Lia Lra Reals.
From Verif Require Import P_Mack SpecClark.
Local Open Scope R_scope.

Lemma pow_lt x y om : 0 < om -> 0 < x < y -> Rpower x om < Rpower y om.
Proof. intros H (A & B). unfold Rpower. apply exp_increasing. apply Rmult_lt_compat_l; auto. apply ln_increasing; auto. Qed.
Lemma pow_pos x om : 0 < Rpower x om.
Proof. apply exp_pos. Qed.

Section Curve.
Variables (g : growth) (om th : R).
Hypothesis Hom : 0 < om.
Hypothesis Hth : 0 < th.

Lemma growth_range x : 0 < x -> 0 < growth_curve g om th x < 1.
Proof using Hom Hth.
  intros H. unfold growth_curve. pose proof (pow_pos x om) as A. pose proof (pow_pos th om) as B.
  assert (L : 0 < Rpower x om / (Rpower x om + Rpower th om) < 1).
  { split; [apply Rdiv_lt_0_compat; lra|]. apply (Rmult_lt_reg_r (Rpower x om + Rpower th om)); [lra|]. unfold Rdiv. rewrite Rmult_assoc, Rinv_l, Rmult_1_r by lra. lra. }
  destruct g; auto. pose proof (pow_pos (x / th) om) as C. pose proof (exp_pos (- Rpower (x / th) om)). assert (exp (- Rpower (x / th) om) < exp 0) by (apply exp_increasing; lra). rewrite exp_0 in *. lra.
Qed.
Lemma growth_mono x y : 0 < x < y -> growth_curve g om th x < growth_curve g om th y.
Proof using Hom Hth.
  intros H. unfold growth_curve.
  assert (L : Rpower x om / (Rpower x om + Rpower th om) < Rpower y om / (Rpower y om + Rpower th om)).
  { pose proof (pow_lt x y om Hom H). pose proof (pow_pos x om). pose proof (pow_pos th om). pose proof (pow_pos y om).
    apply (Rmult_lt_reg_r ((Rpower x om + Rpower th om) * (Rpower y om + Rpower th om))); [apply Rmult_lt_0_compat; lra|].
    replace (Rpower x om / (Rpower x om + Rpower th om) * ((Rpower x om + Rpower th om) * (Rpower y om + Rpower th om))) with (Rpower x om * (Rpower y om + Rpower th om)) by (field; lra).
    replace (Rpower y om / (Rpower y om + Rpower th om) * ((Rpower x om + Rpower th om) * (Rpower y om + Rpower th om))) with (Rpower y om * (Rpower x om + Rpower th om)) by (field; lra). nra. }
  destruct g; auto. apply Rplus_lt_compat_l. apply Ropp_lt_contravar. apply exp_increasing. apply Ropp_lt_contravar. apply pow_lt; auto.
  assert (0 < / th) by (apply Rinv_0_lt_compat; auto). unfold Rdiv. split; [apply Rmult_lt_0_compat|apply Rmult_lt_compat_r]; lra.
Qed.
(** Every share below 1 is exceeded. *)
Lemma growth_limit e : 0 < e -> exists x0, 0 < x0 /\ forall x, x0 <= x -> 1 - e < growth_curve g om th x.
Proof using Hom Hth.
  intros He. set (k := 1 / e). assert (Hk : 0 < k) by (apply Rdiv_lt_0_compat; lra).
  (* both curves are above 1 - 1/(1 + (x/th)^om) *)
  set (x0 := th * Rpower k (/ om)). assert (P0 : 0 < x0) by (apply Rmult_lt_0_compat; auto; apply pow_pos).
  exists x0. split; auto. intros x Hx.
  assert (Px : 0 < x) by lra. set (z := Rpower (x / th) om).
  assert (Hz : k <= z).
  { unfold z. replace k with (Rpower (x0 / th) om).
    - destruct (Req_dec x x0) as [->|N]; [lra|]. left. apply pow_lt; auto. assert (0 < / th) by (apply Rinv_0_lt_compat; auto). unfold Rdiv. split; [apply Rmult_lt_0_compat; auto|apply Rmult_lt_compat_r; lra].
    - unfold x0. replace (th * Rpower k (/ om) / th) with (Rpower k (/ om)) by (field; lra). rewrite Rpower_mult, Rinv_l by lra. apply Rpower_1. auto. }
  assert (Ez : Rpower x om = z * Rpower th om).
  { unfold z. rewrite Rpower_mult_distr; [f_equal; field; lra| |auto]. apply Rdiv_lt_0_compat; auto. }
  pose proof (pow_pos th om) as Pt. assert (Pz : 0 < z) by apply pow_pos.
  assert (L : 1 - e < z / (z + 1)).
  { apply (Rmult_lt_reg_r (z + 1)); [lra|]. replace (z / (z + 1) * (z + 1)) with z by (field; lra). assert (1 <= e * z). { unfold k in Hz. replace 1 with (e * (1 / e)) by (field; lra). apply Rmult_le_compat_l; lra. } lra. }
  assert (G1 : Rpower x om / (Rpower x om + Rpower th om) = z / (z + 1)) by (rewrite Ez; assert (0 < z * Rpower th om) by (apply Rmult_lt_0_compat; auto); field; split; lra).
  unfold growth_curve. destruct g; [rewrite G1; auto| |rewrite G1; auto].
  fold z. assert (E : exp (- z) <= / (z + 1)).
  { rewrite exp_Ropp. apply Rinv_le_contravar; [lra|]. pose proof (exp_ineq1 z ltac:(lra)). lra. }
  replace (z / (z + 1)) with (1 - / (z + 1)) in L by (field; lra). lra.
Qed.
Lemma growth_at_curve x : 0 < x -> named_growth g -> growth_at g th om x = growth_curve g om th x.
Proof using Hom Hth.
  intros H N. unfold growth_at, inv_growth. destruct (Req_EM_T x 0); [lra|]. pose proof (growth_range x H) as Rg. destruct N as [-> | ->]; unfold growth_curve in *.
  - rewrite Rpower_Ropp. pose proof (pow_pos x om). pose proof (pow_pos th om). field. lra.
  - field. pose proof (pow_pos (x / th) om) as C. lra.
Qed.
Lemma inv_growth_curve x : 0 < x -> named_growth g -> inv_growth g th om x = Some (/ growth_curve g om th x).
Proof using Hom Hth.
  intros H N. pose proof (growth_at_curve x H N) as E. unfold growth_at in E. pose proof (growth_range x H) as Rg. unfold inv_growth in *. destruct (Req_EM_T x 0); [lra|]. f_equal. rewrite <- E.
  match goal with |- ?v = _ => generalize v end. intros v. unfold Rdiv. rewrite Rmult_1_l, Rinv_inv. reflexivity.
Qed.
Lemma growth_at_zero : growth_at g th om 0 = 0.
Proof using. unfold growth_at, inv_growth. destruct (Req_EM_T 0 0); [auto|lra]. Qed.
Lemma known_share_at x : named_growth g -> growth_at g th om (Rmax x 0) = known_share g om th x.
Proof using Hom Hth.
  intros N. unfold known_share. destruct (Rle_dec x 0); [rewrite Rmax_right by auto; apply growth_at_zero|]. rewrite Rmax_left by lra. apply growth_at_curve; auto. lra.
Qed.
Lemma share_curve x : 0 < x -> known_share g om th x = growth_curve g om th x.
Proof using. intros H. unfold known_share. destruct (Rle_dec x 0); [lra|auto]. Qed.
Lemma known_share_mono x y : x < y -> 0 < y -> known_share g om th x < known_share g om th y.
Proof using Hom Hth.
  intros H Py. rewrite (share_curve y Py). unfold known_share. destruct (Rle_dec x 0); [apply growth_range; auto|apply growth_mono; lra].
Qed.
End Curve.
