(** Proofs about the Munich chain ladder: the slopes. *)
From Coq Require Import Lia Lra.
From Verif Require Import Spec TriFacts ArrFacts P_Mack P_Bondy P_Corr5 P_Munich1 P_Munich2 SpecMunich.
Local Open Scope R_scope.

Section Used.
Variables (n : nat) (use : nat -> nat -> R).
Lemma used_sum_ext f g : (forall o d, (o + d < n - 1)%nat -> use o d <> 0 -> f o d = g o d) -> used_sum n use f = used_sum n use g.
Proof.
  intros H. unfold used_sum. apply rsumn_ext. intros o Ho. apply rsumn_ext. intros d Hd. destruct (Nat.ltb_spec (o + d) (n - 1)); auto.
  destruct (Req_EM_T (use o d) 0); auto.
Qed.
Lemma used_sum_plus f g : used_sum n use (fun o d => f o d + g o d) = used_sum n use f + used_sum n use g.
Proof.
  unfold used_sum. rewrite <- rsumn_plus. apply rsumn_ext. intros o Ho. rewrite <- rsumn_plus. apply rsumn_ext. intros d Hd.
  destruct (o + d <? n - 1)%nat; [|ring]. destruct (Req_EM_T (use o d) 0); ring.
Qed.
Lemma used_sum_scale c f : used_sum n use (fun o d => c * f o d) = c * used_sum n use f.
Proof.
  unfold used_sum. rewrite <- rsumn_scale. apply rsumn_ext. intros o Ho. rewrite <- rsumn_scale. apply rsumn_ext. intros d Hd.
  destruct (o + d <? n - 1)%nat; [|ring]. destruct (Req_EM_T (use o d) 0); ring.
Qed.
Lemma used_sum_nonneg f : (forall o d, 0 <= f o d) -> 0 <= used_sum n use f.
Proof. intros H. unfold used_sum. apply rsumn_nonneg. intros o Ho. apply rsumn_nonneg. intros d Hd. destruct (o + d <? n - 1)%nat; [|lra]. destruct (Req_EM_T (use o d) 0); auto. lra. Qed.
Lemma loss_expand x y b : used_sum n use (fun o d => (y o d - b * x o d) ^ 2) =
  used_sum n use (fun o d => y o d * y o d) - 2 * b * used_sum n use (fun o d => x o d * y o d) + b * b * used_sum n use (fun o d => x o d * x o d).
Proof.
  replace (- (2 * b) * used_sum n use (fun o d => x o d * y o d)) with (- 2 * b * used_sum n use (fun o d => x o d * y o d)) by ring.
  transitivity (used_sum n use (fun o d => y o d * y o d) + (- 2 * b) * used_sum n use (fun o d => x o d * y o d) + b * b * used_sum n use (fun o d => x o d * x o d)); [|ring].
  rewrite <- !used_sum_scale, <- !used_sum_plus. apply used_sum_ext. intros. ring.
Qed.
Lemma rsumn_all_zero k f : (forall j, (j < k)%nat -> 0 <= f j) -> rsumn k f = 0 -> forall j, (j < k)%nat -> f j = 0.
Proof.
  induction k as [|k IH]; intros P E j Hj; [lia|]. cbn [rsumn] in E. assert (0 <= rsumn k f) by (apply rsumn_nonneg; intros; apply P; lia). pose proof (P k ltac:(lia)).
  destruct (Nat.eq_dec j k) as [->|]; [lra|]. apply IH; [intros; apply P; lia|lra|lia].
Qed.
Lemma used_sum_sq_zero x y : used_sum n use (fun o d => x o d * x o d) = 0 -> used_sum n use (fun o d => x o d * y o d) = 0.
Proof.
  intros E. unfold used_sum in *.
  assert (Z : forall o d, (o < n)%nat -> (d < n)%nat -> (if (o + d <? n - 1)%nat then if Req_EM_T (use o d) 0 then 0 else x o d * x o d else 0) = 0).
  { assert (P : forall o d, 0 <= if (o + d <? n - 1)%nat then if Req_EM_T (use o d) 0 then 0 else x o d * x o d else 0).
    { intros o d. destruct (o + d <? n - 1)%nat; [|apply Rle_refl]. destruct (Req_EM_T (use o d) 0); [apply Rle_refl|apply Rle_0_sqr]. }
    set (g := fun o d => if (o + d <? n - 1)%nat then if Req_EM_T (use o d) 0 then 0 else x o d * x o d else 0) in *.
    intros o d Ho Hd. apply (rsumn_all_zero n (g o)); auto; [intros; apply P|].
    apply (rsumn_all_zero n (fun o => rsumn n (g o))); auto. intros j Hj. apply rsumn_nonneg. intros; apply P. }
  apply rsumn_zero. intros o Ho. apply rsumn_zero. intros d Hd. specialize (Z o d Ho Hd). destruct (o + d <? n - 1)%nat; auto. destruct (Req_EM_T (use o d) 0); auto.
  assert (H : x o d = 0) by (destruct (Rmult_integral _ _ Z); auto). rewrite H. ring.
Qed.
Lemma slope_best x y l : rdiv (rn2n (Some (used_sum n use (fun o d => x o d * y o d)))) (rn2n (Some (used_sum n use (fun o d => x o d * x o d)))) = Some l <->
  l <> 0 /\ only_best_slope n use x y l.
Proof.
  set (N := used_sum n use (fun o d => x o d * y o d)). set (D := used_sum n use (fun o d => x o d * x o d)).
  assert (D0 : 0 <= D) by (apply used_sum_nonneg; intros; nra).
  assert (Loss : forall b, used_sum n use (fun o d => (y o d - b * x o d) ^ 2) = used_sum n use (fun o d => y o d * y o d) - 2 * b * N + b * b * D) by (intros; apply loss_expand).
  unfold only_best_slope. setoid_rewrite Loss. set (Y := used_sum n use (fun o d => y o d * y o d)).
  assert (DN : D = 0 -> N = 0) by (intros; apply used_sum_sq_zero; auto). clearbody N D Y. clear Loss.
  cbn [rn2n]. split.
  - destruct (Req_EM_T N 0) as [|NN]; [discriminate|]. destruct (Req_EM_T D 0) as [|ND]; [discriminate|]. cbn [rdiv]. destruct (Req_EM_T D 0); [contradiction|].
    intros H. injection H as <-. split.
    + intros E. apply NN. transitivity (N / D * D); [field; auto|rewrite E; ring].
    + intros b Hb. assert (0 < D) by lra. assert (Pos : 0 < D * (b - N / D) ^ 2) by (apply Rmult_lt_0_compat; auto; cbn [pow]; rewrite Rmult_1_r; apply Rsqr_pos_lt; lra).
      replace (Y - 2 * b * N + b * b * D) with (Y - 2 * (N / D) * N + N / D * (N / D) * D + D * (b - N / D) ^ 2) by (field; auto). lra.
  - intros (Hl & Best). destruct (Req_EM_T D 0) as [E|ND].
    + exfalso. rewrite (DN E), E in Best. specialize (Best (l + 1) ltac:(lra)). lra.
    + assert (El : l = N / D).
      { destruct (Req_dec l (N / D)) as [|Ne]; auto. exfalso. specialize (Best (N / D) ltac:(auto)). assert (0 < D) by lra.
        assert (Pos : 0 <= D * (l - N / D) ^ 2) by (apply Rmult_le_pos; [lra|apply pow2_ge_0]).
        replace (Y - 2 * l * N + l * l * D) with (Y - 2 * (N / D) * N + N / D * (N / D) * D + D * (l - N / D) ^ 2) in Best by (field; auto). lra. }
      destruct (Req_EM_T N 0) as [E|NN]; [exfalso; apply Hl; rewrite El, E; unfold Rdiv; ring|]. cbn [rdiv]. destruct (Req_EM_T D 0); [contradiction|]. congruence.
Qed.
End Used.

(** Sums of optional numbers over the cells with a next amount. *)
Lemma rsumn_last n f : (1 <= n)%nat -> f (n - 1)%nat = 0 -> rsumn n f = rsumn (n - 1) f.
Proof. intros H E. destruct n as [|n]; [lia|]. cbn [rsumn]. replace (S n - 1)%nat with n in * by lia. rewrite E. ring. Qed.
Lemma rsum2_used n (f : nat -> nat -> option R) use g : (1 <= n)%nat ->
  (forall o d, (o < n - 1)%nat -> (d < n - 1)%nat -> nzr (f o d) = if (o + d <? n - 1)%nat then if Req_EM_T (use o d) 0 then 0 else g o d else 0) ->
  rsum2 (n - 1) (n - 1) f = used_sum n use g.
Proof.
  intros Hn H. unfold rsum2, used_sum, rnansum. rewrite (rsumn_last n) by (auto; apply rsumn_zero; intros d Hd; destruct (Nat.ltb_spec (n - 1 + d) (n - 1)); auto; lia).
  apply rsumn_ext. intros o Ho. rewrite (rsumn_last n) by (auto; destruct (Nat.ltb_spec (o + (n - 1)) (n - 1)); auto; lia).
  apply rsumn_ext. intros d Hd. apply H; auto.
Qed.

Lemma rmul_none_r x : rmul x None = None.
Proof. destruct x; reflexivity. Qed.
Section Lambda.
Variables (t ldf : tri) (n i p q : nat).
Hypothesis M : munich_input t ldf n.
Hypothesis Hi : (i < ax0 (values t))%nat.
Hypothesis Hp : (p < ax1 (values t))%nat.
Hypothesis Hq : (q < ax1 (values t))%nat.
Variables (how : interpolation) (sigma : rrow) (lr df : tri) (fp fi sp si rp ri : nat -> R).
Hypothesis Elr : forall c o d, (c < ax1 (values t))%nat -> (o < n - 1)%nat -> (d < n - 1)%nat -> cel lr i c o d = if (o + d <? n - 1)%nat then Some (SpecCorr.ratio t i c o d) else None.
Hypothesis Edf : forall o d, (o < n)%nat -> (d < n)%nat -> cel df 0 0 o d = if (o + d <? n - 1)%nat then Some (amount t 0 0 o d) else None.
Hypothesis Gf : forall d, (S d < n)%nat -> r_of (cel ldf i p 0 d) = Some (fp d) /\ r_of (cel ldf i q 0 d) = Some (fi d).
Hypothesis Gs : forall d, (S d < n)%nat -> sigma i p d = Some (sp d) /\ sigma i q d = Some (si d) /\ sp d <> 0 /\ si d <> 0.
Hypothesis Gr : forall d, (S d < n)%nat -> mu_rho how t i p q d = Some (rp d) /\ mu_rho how t i q p d = Some (ri d) /\ rp d <> 0 /\ ri d <> 0.

Lemma sqrt_amount c o d : (c < ax1 (values t))%nat -> (o + d < n)%nat -> rsqrt (r_of (cel t i c o d)) = Some (sqrt (rv (amount t i c o d))).
Proof.
  intros Hc L. rewrite (cell_known t ldf n i M Hi) by (auto; lia). destruct (Nat.ltb_spec (o + d) n); [|lia]. cbn [r_of option_map rsqrt].
  destruct (Rlt_dec _ 0) as [N|]; auto. pose proof (rv_pos _ (amount_pos t ldf n i M Hi c o d Hc L)). lra.
Qed.
Lemma rdiv_some a b : b <> 0 -> rdiv (Some a) (Some b) = Some (a / b).
Proof. intros H. cbn [rdiv]. destruct (Req_EM_T b 0); [contradiction|auto]. Qed.
Lemma resid_at c f s o d : (c < ax1 (values t))%nat -> (o < n - 1)%nat -> (d < n - 1)%nat -> r_of (cel ldf i c 0 d) = Some (f d) -> sigma i c d = Some (s d) -> s d <> 0 ->
  mu_resid t lr ldf sigma i c o d = if (o + d <? n - 1)%nat then Some (link_resid t i c f s o d) else None.
Proof.
  intros Hc Ho Hd Ef Es Ns. unfold mu_resid. rewrite Elr, Ef, Es by auto. destruct (Nat.ltb_spec (o + d) (n - 1)) as [L|L]; [|reflexivity].
  rewrite sqrt_amount by (auto; lia). cbn [r_of option_map rsub]. rewrite rdiv_some by auto. reflexivity.
Qed.
Lemma nans_at o d : (o < n)%nat -> (d < n)%nat -> mu_nans df o d = if (o + d <? n - 1)%nat then Some 1 else None.
Proof.
  intros Ho Hd. unfold mu_nans. rewrite Edf by auto. destruct (o + d <? n - 1)%nat; [|reflexivity]. cbn [known cmul cadd r_of option_map]. f_equal.
  rewrite rv_plus, rv_mult, rv_0, rv_1. ring.
Qed.
Lemma ratio_cell a b o d : (a < ax1 (values t))%nat -> (b < ax1 (values t))%nat -> (o + d < n)%nat ->
  r_of (cdiv (cel t i b o d) (cel t i a o d)) = Some (one_ratio t i a b o d).
Proof.
  intros Ha Hb L. rewrite !(cell_known t ldf n i M Hi) by (auto; lia). destruct (Nat.ltb_spec (o + d) n); [|lia]. cbn [cdiv].
  assert (Nz : amount t i a o d <> 0%Qc) by (apply (amount_nz t ldf n i M Hi); auto). destruct (Qc_eqb_spec (amount t i a o d) 0%Qc); [contradiction|].
  cbn [r_of option_map]. unfold one_ratio. rewrite rv_div by auto. reflexivity.
Qed.
Lemma r_of_csub x y : r_of (csub x y) = rsub (r_of x) (r_of y).
Proof. destruct x, y; cbn; auto. rewrite rv_minus. auto. Qed.
Lemma inv_q d : (d < n)%nat -> r_of (cdiv (Some 1%Qc) (mu_q t i q p d)) = Some (avg_ratio t n i p q d).
Proof.
  intros Hd. rewrite (proj1 (ratio_reg_at t ldf n i M Hi q p Hq Hp d Hd)).
  pose proof (qtotal_nz t ldf n i M Hi p d Hp Hd) as Np. pose proof (qtotal_nz t ldf n i M Hi q d Hq Hd) as Nq.
  assert (Nz : (qtotal t n i p d / qtotal t n i q d)%Qc <> 0%Qc).
  { intros E. apply Np. transitivity (qtotal t n i p d / qtotal t n i q d * qtotal t n i q d)%Qc; [field; auto|rewrite E; ring]. }
  cbn [cdiv]. destruct (Qc_eqb_spec (qtotal t n i p d / qtotal t n i q d) 0%Qc); [contradiction|]. cbn [r_of option_map]. f_equal.
  unfold avg_ratio. rewrite !(total_rv t n i), rv_div, rv_div, rv_1 by auto.
  assert (rv (qtotal t n i p d) <> 0) by (intros E; apply rv_eq0 in E; auto). assert (rv (qtotal t n i q d) <> 0) by (intros E; apply rv_eq0 in E; auto). field. auto.
Qed.
Lemma q_inv_resid_at o d : (o < n - 1)%nat -> (d < n - 1)%nat -> mu_q_inv_resid how t df i p q o d = if (o + d <? n - 1)%nat then Some (ratio_resid t n i p q rp o d) else None.
Proof.
  intros Ho Hd. unfold mu_q_inv_resid. rewrite nans_at by lia. destruct (Nat.ltb_spec (o + d) (n - 1)) as [L|L].
  - destruct (Gr d ltac:(lia)) as (-> & _ & Nr & _). rewrite r_of_csub, inv_q, ratio_cell, sqrt_amount by (auto; lia). cbn [rsub]. rewrite rdiv_some by auto. cbn [rmul]. f_equal. unfold ratio_resid. ring.
  - apply rmul_none_r.
Qed.
Lemma q_resid_at o d : (o < n - 1)%nat -> (d < n - 1)%nat -> mu_q_resid how t df i p q o d = if (o + d <? n - 1)%nat then Some (ratio_resid t n i q p ri o d) else None.
Proof.
  intros Ho Hd. unfold mu_q_resid. rewrite nans_at by lia. destruct (Nat.ltb_spec (o + d) (n - 1)) as [L|L].
  - destruct (Gr d ltac:(lia)) as (_ & -> & _ & Nr). rewrite r_of_csub, (q_at t ldf n i M Hi q p Hq Hp), ratio_cell, sqrt_amount by (auto; lia). cbn [rsub]. rewrite rdiv_some by auto. cbn [rmul]. f_equal. unfold ratio_resid. ring.
  - apply rmul_none_r.
Qed.
Lemma lambda_at : mu_lambda how t lr ldf df sigma i p q =
  (let use := link_resid t i q fi si in
   let xp := ratio_resid t n i p q rp in let xi := ratio_resid t n i q p ri in
   (rdiv (rn2n (Some (used_sum n use (fun o d => xp o d * link_resid t i p fp sp o d)))) (rn2n (Some (used_sum n use (fun o d => xp o d * xp o d)))),
    rdiv (rn2n (Some (used_sum n use (fun o d => xi o d * use o d)))) (rn2n (Some (used_sum n use (fun o d => xi o d * xi o d)))))).
Proof.
  destruct (mi_square _ _ _ M) as (o0 & a0 & h & Q). pose proof Q as (R & E2 & E3). pose proof (mi_n _ _ _ M) as Hn.
  unfold mu_lambda. rewrite E2, E3. cbv zeta. set (use := link_resid t i q fi si).
  assert (Ri : forall o d, (o < n - 1)%nat -> (d < n - 1)%nat -> mu_resid t lr ldf sigma i q o d = if (o + d <? n - 1)%nat then Some (use o d) else None).
  { intros o d Ho Hd. apply resid_at; auto; [apply (Gf d); lia|apply (Gs d); lia|apply (Gs d); lia]. }
  assert (Rp : forall o d, (o < n - 1)%nat -> (d < n - 1)%nat -> mu_resid t lr ldf sigma i p o d = if (o + d <? n - 1)%nat then Some (link_resid t i p fp sp o d) else None).
  { intros o d Ho Hd. apply resid_at; auto; [apply (Gf d); lia|apply (Gs d); lia|apply (Gs d); lia]. }
  unfold thru_orig_r.
  f_equal; (f_equal; (f_equal; (f_equal; apply rsum2_used; [lia|]; intros o d Ho Hd; rewrite ?Ri, ?Rp, ?q_inv_resid_at, ?q_resid_at by auto;
    destruct (o + d <? n - 1)%nat; [|reflexivity]; cbn [rn2n]; destruct (Req_EM_T (use o d) 0); cbn [rknown rmul nzr]; try ring))).
Qed.
End Lambda.
