(** Proofs for C61. *)
From Coq Require Import Lia Lra Qreals Sorted.
From Verif Require Import NumFacts ArrFacts TriFacts ConvFacts P_Core P_Agg P_Mack P_Curve SpecBondy.
Local Open Scope R_scope.

Lemma sorted_mono l k j : StronglySorted Z.lt l -> (k < j < List.length l)%nat -> (nth k l 0 < nth j l 0)%Z.
Proof.
  intros S. revert k j. induction S as [|x l S IH A]; intros k j H; cbn in H; [lia|]. rewrite Forall_forall in A.
  destruct j as [|j]; [lia|]. destruct k as [|k]; cbn; [apply A, nth_In; lia|apply IH; lia].
Qed.
Lemma ages_from_at l k : StronglySorted Z.lt l -> (k < List.length l)%nat -> ages_from (nth k l 0%Z) l = (List.length l - k)%nat.
Proof.
  intros S. revert k. induction S as [|x l S IH A]; intros k H; cbn in H; [lia|]. rewrite Forall_forall in A. unfold ages_from in *.
  destruct k as [|k]; cbn [nth filter List.length].
  - rewrite Z.leb_refl. cbn. f_equal. f_equal. rewrite filter_all; auto. intros z Hz. apply Z.leb_le. specialize (A z Hz). lia.
  - specialize (A (nth k l 0%Z)). assert (x < nth k l 0)%Z by (apply A, nth_In; lia). destruct (Z.leb_spec (nth k l 0%Z) x); [lia|]. rewrite IH by lia. lia.
Qed.
Lemma ages_to_at l k : StronglySorted Z.lt l -> (k < List.length l)%nat -> ages_to (nth k l 0%Z) l = S k.
Proof.
  intros S. revert k. induction S as [|x l S IH A]; intros k H; cbn in H; [lia|]. rewrite Forall_forall in A. unfold ages_to in *.
  destruct k as [|k]; cbn [nth filter].
  - rewrite Z.leb_refl. cbn. f_equal. clear IH H S. induction l as [|z l IH]; auto. cbn. pose proof (A z (or_introl eq_refl)). destruct (Z.leb_spec z x); [lia|]. apply IH. intros u Hu. apply A. right. auto.
  - specialize (A (nth k l 0%Z)). assert (x < nth k l 0)%Z by (apply A, nth_In; lia). destruct (Z.leb_spec x (nth k l 0%Z)); [|lia]. cbn. f_equal. apply IH. lia.
Qed.
Lemma zfirst_at l k : StronglySorted Z.lt l -> (k < List.length l)%nat -> zfirst (fun x => (x =? nth k l 0)%Z) l = Ok k.
Proof.
  intros S. revert k. induction S as [|x l S IH A]; intros k H; cbn in H; [lia|]. rewrite Forall_forall in A.
  destruct k as [|k]; cbn [nth zfirst]; [rewrite Z.eqb_refl; auto|].
  assert (x < nth k l 0)%Z by (apply A, nth_In; lia). destruct (Z.eqb_spec x (nth k l 0%Z)); [lia|]. rewrite IH by lia. auto.
Qed.
Lemma age_at_2 l : (2 <= List.length l)%nat -> age_at l (-2) = Ok (nth (List.length l - 2) l 0%Z).
Proof.
  intros H. unfold age_at. change ((-2 <? 0)%Z) with true. cbv iota. destruct (Z.ltb_spec (-2 + Z.of_nat (List.length l)) 0); [lia|]. destruct (Z.leb_spec (Z.of_nat (List.length l)) (-2 + Z.of_nat (List.length l))); [lia|].
  cbn [orb]. do 2 f_equal. lia.
Qed.
Lemma age_at_k l k : (k < List.length l)%nat -> age_at l (Z.of_nat k) = Ok (nth k l 0%Z).
Proof.
  intros H. unfold age_at. destruct (Z.ltb_spec (Z.of_nat k) 0); [lia|]. destruct (Z.leb_spec (Z.of_nat (List.length l)) (Z.of_nat k)); [lia|].
  destruct (Z.ltb_spec (Z.of_nat k) 0); [lia|]. cbn [orb]. rewrite Nat2Z.id. auto.
Qed.
Lemma fpow_pos v y : 0 < v -> fpow (Some v) y = Some (Rpower v y).
Proof. intros H. unfold fpow. destruct (Rlt_dec 0 v); auto. contradiction. Qed.
Lemma rv_pos q : (0 < q)%Qc -> 0 < rv q.
Proof. intros H. unfold rv. change 0 with (IZR 0). rewrite <- RMicromega.Q2R_0. apply Qlt_Rlt. exact H. Qed.

Section At.
Variables (t l : tri) (ea aa : option Z) (years : nat) (b : nat -> nat -> R) (j k : nat).
Hypothesis I : bondy_input t l.
Hypothesis At : bondy_at t ea aa j k.
Let W := bi_wf _ _ I. Let F := bi_factors _ _ I. Let L := bi_ages _ _ I.
Let n := ax3 (values t).
Let ages := dlist (ddims t).
Lemma ages_n : List.length ages = n.
Proof. unfold ages, n. symmetry. apply (wf_d _ W). Qed.
Lemma ages_pos x : (x < n)%nat -> (1 <= nth x ages 0)%Z.
Proof.
  intros H. unfold ages. pose proof (wf_dev _ W) as D. pose proof ages_n as E. unfold ages in E. pose proof (bi_view _ _ I) as V. unfold is_val_tri in V. destruct (ddims t) as [as_|vs]; [|discriminate].
  destruct D as (D & _). cbn in *. apply D, nth_In. lia.
Qed.

Lemma bondy_eq : exists r, tail_bondy ea aa years b t l = Ok r /\
  kdims (rt_frame r) = kdims l /\ key_labels (rt_frame r) = key_labels l /\ vdims (rt_frame r) = vdims l /\ odims (rt_frame r) = odims l /\ vdate (rt_frame r) = vdate l /\ same_flags l (rt_frame r) /\
  ddims (rt_frame r) = Ages (dlist (ddims l) ++ map (fun j => last (dlist (ddims l)) 0 + grain_months (dgrain t) * (Z.of_nat j + 1))%Z (seq 0 (S (periods_per_year (dgrain t) * years)))) /\
  ax0 (values (rt_frame r)) = ax0 (values l) /\ ax1 (values (rt_frame r)) = ax1 (values l) /\ ax2 (values (rt_frame r)) = 1%nat /\ ax3 (values (rt_frame r)) = S n /\
  (forall i c d, (d <= k)%nat -> rt_cell r i c 0%nat d = r_of (cel l i c 0 d)) /\
  (forall i c q, cel l i c 0 j = Some q -> (0 < q)%Qc ->
     (forall d, (k < d < n)%nat -> rt_cell r i c 0%nat d = Some (bondy_factor (rv q) (b i c) (d - j))) /\
     (b i c <> 1 -> rt_cell r i c 0%nat n = Some (Rpower (bondy_factor (rv q) (b i c) (n - 1 - j)) (b i c / (1 - b i c)))) /\
     (b i c = 1 -> rt_cell r i c 0%nat n = None)).
Proof.
  destruct (ba_order _ _ _ _ _ At) as (O1 & O2). fold n in O2. pose proof (ff_2 _ _ F) as F2. destruct (ff_d _ _ F) as (xs & Ed & Lx). pose proof ages_n as An.
  pose proof (wf_dsort _ W) as Sd. fold ages in Sd. fold n in L.
  pose proof (ba_early _ _ _ _ _ At) as Be. pose proof (ba_attach _ _ _ _ _ At) as Ba.
  assert (X1 : earliest_of (dgrain t) ages ea = Ok (nth j ages 0%Z)).
  { unfold earliest_of. destruct ea as [a|].
    - destruct Be as (-> & _). replace (Z.quot (factor_age (dgrain t) j) (grain_step (dgrain t)) - 1)%Z with (Z.of_nat j); [apply age_at_k; lia|].
      unfold factor_age. replace (grain_months (dgrain t)) with (grain_step (dgrain t)) by (destruct (dgrain t); reflexivity).
      rewrite Z.mul_comm, Z.quot_mul by (destruct (dgrain t); discriminate). lia.
    - rewrite age_at_2 by lia. do 2 f_equal. fold n in Be. lia. }
  set (aa' := match aa with Some 0%Z => None | _ => aa end).
  assert (X2 : exists a, match aa' with Some a => Ok a | None => age_at ages (-2) end = Ok a /\ ages_from a ages = (n - k)%nat /\ ages_to a ages = S k).
  { unfold aa'. destruct aa as [a|].
    - destruct Ba as (_ & <-). fold ages. exists (nth k ages 0%Z). pose proof (ages_pos k). rewrite ages_from_at, ages_to_at by (auto; lia).
      split; [|lia]. destruct (nth k ages 0%Z); auto; lia.
    - exists (nth (n - 2) ages 0%Z). split; [rewrite age_at_2 by lia; rewrite An; auto|]. fold n in Ba. rewrite ages_from_at, ages_to_at by (auto; lia). lia. }
  assert (X3 : match aa', ea with Some _, None => Err TypeError | Some a, Some e => if (a <? e)%Z then Err ValueError else Ok tt | None, _ => Ok tt end = Ok tt).
  { unfold aa'. destruct aa as [a|]; auto. destruct Ba as (N & <-). fold ages. destruct ea as [e|]; [|congruence]. destruct Be as (_ & <-). fold ages.
    destruct (nth k ages 0%Z) eqn:E; auto; rewrite <- E; clear E;
      (destruct (Nat.eq_dec j k) as [->|N1]; [rewrite Z.ltb_irrefl; auto|pose proof (sorted_mono ages j k Sd); destruct (Z.ltb_spec (nth k ages 0%Z) (nth j ages 0%Z)); auto; lia]). }
  destruct X2 as (a & X2 & X4 & X5).
  unfold tail_bondy. fold aa'. rewrite X3. cbn [rbind]. unfold tail_base. rewrite Ed. cbn [rbind]. fold ages. rewrite X1. cbn [rbind]. rewrite X2. cbn [rbind].
  pose proof (ages_pos j) as Pj. destruct (Z.eqb_spec (nth j ages 0%Z) 0%Z); [lia|]. rewrite zfirst_at by (auto; lia). cbn [rbind].
  destruct (Nat.leb_spec (ax3 (values l)) j); [lia|]. rewrite X4, X5. rewrite ages_from_at, An by (auto; lia).
  destruct (n - k)%nat as [|m] eqn:Em; [lia|]. eexists. split; [reflexivity|]. cbv [set_values set_ddims set_dims]. cbn [rt_frame rt_cell values kdims key_labels vdims odims vdate ddims is_cumulative is_pattern ograin dgrain ax0 ax1 ax2 ax3 av].
  split; [auto|]. split; [auto|]. split; [auto|]. split; [auto|]. split; [auto|]. split; [repeat split|]. split.
  { cbn [dlist]. do 2 f_equal. replace (per_year (dgrain t)) with (periods_per_year (dgrain t)) by (destruct (dgrain t); reflexivity).
    apply map_ext. intros z. replace (grain_step (dgrain t)) with (grain_months (dgrain t)) by (destruct (dgrain t); reflexivity). lia. }
  split; [auto|]. split; [auto|]. split; [auto|].
  replace (Nat.min (S k) (ax3 (values l) + S (per_year (dgrain t) * years))) with (S k) by lia.
  split; [lia|]. split.
  { intros i c d Hd. destruct (Nat.ltb_spec d (S k)); [|lia]. destruct (Nat.ltb_spec d (ax3 (values l))); [auto|lia]. }
  intros i c q Eq Pq. apply rv_pos in Pq. destruct (Nat.ltb_spec j (ax3 (values l))); [|lia]. unfold cel in Eq. rewrite Eq. cbn [r_of option_map].
  split; [|split].
  - intros d Hd. destruct (Nat.ltb_spec d (S k)); [lia|]. destruct (Nat.ltb_spec (n - j - m + (d - S k)) (n - j)); [|lia]. rewrite fpow_pos by auto. unfold bondy_factor. do 3 f_equal. lia.
  - intros Nb. destruct (Nat.ltb_spec n (S k)); [lia|]. destruct (Nat.ltb_spec (n - j - m + (n - S k)) (n - j)); [lia|]. destruct (Req_EM_T (b i c) 1); [contradiction|].
    rewrite (fpow_pos (rv q)) by auto. rewrite fpow_pos by apply exp_pos. unfold bondy_factor. do 4 f_equal. lia.
  - intros Nb. destruct (Nat.ltb_spec n (S k)); [lia|]. destruct (Nat.ltb_spec (n - j - m + (n - S k)) (n - j)); [lia|]. destruct (Req_EM_T (b i c) 1); [auto|contradiction].
Qed.
End At.

Lemma Rpower_pow_pos f x : 0 < Rpower f x.
Proof. apply exp_pos. Qed.
Lemma bondy_prod f b j n : rprod_from j (j + n) (bondy_factor f b) = exp (ln f * (b ^ j * rsumn n (fun k => b ^ k))).
Proof.
  unfold rprod_from. replace (j + n - j)%nat with n by lia. induction n as [|n IH]; cbn [rprodn rsumn].
  - rewrite !Rmult_0_r, exp_0. auto.
  - rewrite IH. unfold bondy_factor, Rpower. rewrite <- exp_plus. f_equal. rewrite pow_add. ring.
Qed.
Lemma geom n b : b <> 1 -> rsumn n (fun k => b ^ k) = (1 - b ^ n) / (1 - b).
Proof. intros H. induction n as [|n IH]; cbn [rsumn]; [cbn; field; lra|]. rewrite IH. cbn [pow]. field. lra. Qed.
Lemma geom_cv b : Rabs b < 1 -> Un_cv (fun n => rsumn n (fun k => b ^ k)) (/ (1 - b)).
Proof.
  intros H. assert (N : b <> 1) by (intros ->; rewrite Rabs_R1 in H; lra).
  assert (X : forall n, rsumn n (fun k => b ^ k) - / (1 - b) = - (b ^ n / (1 - b))) by (intros n; rewrite geom by auto; field; lra).
  intros e He. assert (P : 0 < Rabs (1 - b)) by (apply Rabs_pos_lt; lra).
  destruct (pow_lt_1_zero b H (e * Rabs (1 - b))) as (m & Hm); [apply Rmult_lt_0_compat; auto|]. exists m. intros n Hn. unfold R_dist. rewrite X, Rabs_Ropp.
  unfold Rdiv. rewrite Rabs_mult, Rabs_inv. apply (Rmult_lt_reg_r (Rabs (1 - b))); auto. rewrite Rmult_assoc, Rinv_l by lra. rewrite Rmult_1_r. apply Hm. lia.
Qed.
Lemma bondy_cv f b j : Rabs b < 1 -> product_to_infinity f b j (exp (ln f * (b ^ j / (1 - b)))).
Proof.
  intros H. unfold product_to_infinity. apply (Un_cv_ext (fun n => exp (ln f * (b ^ j * rsumn n (fun k => b ^ k))))); [intros n; symmetry; apply bondy_prod|].
  assert (C : Un_cv (fun n => ln f * (b ^ j * rsumn n (fun k => b ^ k))) (ln f * (b ^ j / (1 - b)))).
  { apply (CV_mult (fun _ => ln f)); [intros e He; exists 0%nat; intros; unfold R_dist; rewrite Rminus_diag_eq, Rabs_R0; auto|].
    apply (CV_mult (fun _ => b ^ j)); [intros e He; exists 0%nat; intros; unfold R_dist; rewrite Rminus_diag_eq, Rabs_R0; auto|]. apply geom_cv; auto. }
  refine (continuity_seq exp _ _ _ C). apply derivable_continuous_pt, derivable_pt_exp.
Qed.
Lemma tail_limit f b j : Rabs b < 1 -> product_to_infinity f b (S j) (Rpower (bondy_factor f b j) (b / (1 - b))).
Proof.
  intros H. assert (N : b <> 1) by (intros ->; rewrite Rabs_R1 in H; lra). replace (Rpower (bondy_factor f b j) (b / (1 - b))) with (exp (ln f * (b ^ S j / (1 - b)))); [apply bondy_cv; auto|].
  unfold bondy_factor, Rpower. rewrite ln_exp. f_equal. cbn [pow]. field. lra.
Qed.
Lemma two_limit f b j : Rabs b < 1 -> product_to_infinity f b j (bondy_factor f b j * Rpower (bondy_factor f b j) (b / (1 - b))).
Proof.
  intros H. assert (N : b <> 1) by (intros ->; rewrite Rabs_R1 in H; lra).
  replace (bondy_factor f b j * Rpower (bondy_factor f b j) (b / (1 - b))) with (exp (ln f * (b ^ j / (1 - b)))); [apply bondy_cv; auto|].
  unfold bondy_factor, Rpower. rewrite ln_exp, <- exp_plus. f_equal. field. lra.
Qed.

Lemma bondy_tail t l ea aa years b j k r i c q : bondy_input t l -> bondy_at t ea aa j k -> tail_bondy ea aa years b t l = Ok r ->
  cel l i c 0 j = Some q -> (0 < q)%Qc -> Rabs (b i c) < 1 ->
  let n := ax3 (values t) in
  product_to_infinity (rv q) (b i c) (n - j) (nzr (rt_cell r i c 0%nat n)) /\
  product_to_infinity (rv q) (b i c) (n - 1 - j) (whole_tail t r i c).
Proof.
  intros I At E Eq Pq Hb n. destruct (bondy_eq t l ea aa years b j k I At) as (r' & E' & _ & _ & _ & _ & _ & _ & _ & _ & _ & _ & A3 & _ & C).
  rewrite E in E'. injection E' as <-. destruct (ba_order _ _ _ _ _ At) as (O1 & O2). destruct (C i c q Eq Pq) as (C1 & C2 & _). fold n in A3, C1, C2, O2.
  assert (N : b i c <> 1) by (intros X; rewrite X, Rabs_R1 in Hb; lra). specialize (C2 N). specialize (C1 (n - 1)%nat ltac:(lia)).
  split.
  - rewrite C2. cbn [nzr]. replace (n - j)%nat with (S (n - 1 - j)) by lia. apply tail_limit; auto.
  - unfold whole_tail. fold n. rewrite A3. unfold rprod_from. replace (S n - (n - 1))%nat with 2%nat by lia. cbn [rprodn].
    replace (n - 1 + 0)%nat with (n - 1)%nat by lia. replace (n - 1 + 1)%nat with n by lia. rewrite C1, C2. cbn [nzr]. rewrite Rmult_1_l. apply two_limit; auto.
Qed.

Lemma bondy_classic t l years b r i c q : bondy_input t l -> (2 <= ax3 (values t))%nat -> tail_bondy None None years b t l = Ok r ->
  cel l i c 0 (ax3 (values t) - 2) = Some q -> (0 < q)%Qc -> b i c = / 2 -> whole_tail t r i c = rv q.
Proof.
  intros I H2 E Eq Pq Hb. assert (At : bondy_at t None None (ax3 (values t) - 2) (ax3 (values t) - 2)) by (constructor; lia).
  destruct (bondy_eq t l None None years b _ _ I At) as (r' & E' & _ & _ & _ & _ & _ & _ & _ & _ & _ & _ & A3 & _ & C).
  rewrite E in E'. injection E' as <-. destruct (C i c q Eq Pq) as (C1 & C2 & _). set (n := ax3 (values t)) in *.
  unfold whole_tail. fold n. rewrite A3. unfold rprod_from. replace (S n - (n - 1))%nat with 2%nat by lia. cbn [rprodn].
  replace (n - 1 + 0)%nat with (n - 1)%nat by lia. replace (n - 1 + 1)%nat with n by lia. rewrite C1, C2 by (lia || lra). cbn [nzr]. rewrite Hb.
  replace (n - 1 - (n - 2))%nat with 1%nat by lia. unfold bondy_factor. rewrite pow_1. replace (/ 2 / (1 - / 2)) with 1 by field.
  rewrite Rpower_1 by apply exp_pos. rewrite Rmult_1_l, <- Rpower_plus. replace (/ 2 + / 2) with 1 by field. apply Rpower_1. apply rv_pos; auto.
Qed.

Lemma rsumn_sq_zero n f : rsumn n (fun k => f k ^ 2) = 0 -> forall k, (k < n)%nat -> f k = 0.
Proof.
  assert (P : forall m, 0 <= rsumn m (fun k => f k ^ 2)) by (induction m as [|m IH]; cbn [rsumn]; [lra|pose proof (pow2_ge_0 (f m)); lra]).
  induction n as [|n IH]; cbn [rsumn]; intros H k Hk; [lia|]. pose proof (pow2_ge_0 (f n)). pose proof (P n).
  assert (F : f n ^ 2 = 0) by lra. destruct (Nat.eq_dec k n) as [->|]; [|apply IH; [lra|lia]]. apply Rsqr_0_uniq. unfold Rsqr. lra.
Qed.
Lemma best_exact n data b0 e0 b e : (forall k, (k < n)%nat -> data k = e0 * b0 ^ k) -> best_bondy n data b e ->
  forall k, (k < n)%nat -> e * b ^ k = data k.
Proof.
  intros H B k Hk. assert (Z : bondy_loss n data b0 e0 = 0).
  { unfold bondy_loss. clear B k Hk. induction n as [|n IH]; cbn [rsumn]; auto. rewrite IH by (intros; apply H; lia). rewrite (H n) by lia. ring. }
  assert (P : forall m, 0 <= bondy_loss m data b e) by (unfold bondy_loss; induction m as [|m IH]; cbn [rsumn]; [lra|pose proof (pow2_ge_0 (data m - e * b ^ m)); lra]).
  specialize (B b0 e0). rewrite Z in B. specialize (P n). assert (bondy_loss n data b e = 0) by lra.
  pose proof (rsumn_sq_zero n (fun k => data k - e * b ^ k) H0 k Hk). cbn in H1. lra.
Qed.
(** Factors that are a Bondy sequence with at least two members, the first not 1: the exponent is found. *)
Lemma best_unique n data b0 e0 b e : (2 <= n)%nat -> e0 <> 0 -> (forall k, (k < n)%nat -> data k = e0 * b0 ^ k) -> best_bondy n data b e -> b = b0 /\ e = e0.
Proof.
  intros Hn N H B. pose proof (best_exact n data b0 e0 b e H B 0%nat ltac:(lia)) as X. pose proof (best_exact n data b0 e0 b e H B 1%nat ltac:(lia)) as Y.
  rewrite (H 0%nat) in X by lia. rewrite (H 1%nat) in Y by lia. cbn [pow] in *. rewrite !Rmult_1_r in *. subst e. split; auto. apply (Rmult_eq_reg_l e0); auto.
Qed.
Lemma bondy_above f b j : 1 < f -> 0 < b < 1 -> 1 < bondy_factor f b (S j) < bondy_factor f b j.
Proof.
  intros Hf Hb. assert (L : 0 < ln f) by (rewrite <- ln_1; apply ln_increasing; lra). unfold bondy_factor, Rpower. assert (P : forall m, 0 < b ^ m) by (intros; apply pow_lt; lra).
  split; [rewrite <- exp_0|]; apply exp_increasing; [apply Rmult_lt_0_compat; auto|]. apply Rmult_lt_compat_r; auto. cbn [pow]. specialize (P j). nra.
Qed.
Lemma bondy_recovers t l ea aa years b j k r i c b0 q e : bondy_input t l -> bondy_at t ea aa j k -> tail_bondy ea aa years b t l = Ok r ->
  (S (S j) < ax3 (values t))%nat -> cel l i c 0 j = Some q -> (0 < q)%Qc -> q <> 1%Qc ->
  (forall m, (j + m < ax3 (values l))%nat -> exists p, cel l i c 0 (j + m) = Some p /\ rv p = bondy_factor (rv q) b0 m) ->
  best_bondy (ax3 (values l) - j) (log_factors l i c j) (b i c) e ->
  b i c = b0 /\ (forall d, (j <= d < ax3 (values l))%nat -> rt_cell r i c 0%nat d = r_of (cel l i c 0 d)).
Proof.
  intros I At E Hj Eq Pq Nq H B. destruct (bondy_eq t l ea aa years b j k I At) as (r' & E' & _ & _ & _ & _ & _ & _ & _ & _ & _ & _ & _ & K & C).
  rewrite E in E'. injection E' as <-. pose proof (bi_ages _ _ I) as L. destruct (C i c q Eq Pq) as (C1 & _). apply rv_pos in Pq.
  assert (D : forall m, (m < ax3 (values l) - j)%nat -> log_factors l i c j m = ln (rv q) * b0 ^ m).
  { intros m Hm. destruct (H m) as (p & E1 & E2); [lia|]. unfold log_factors. rewrite E1. cbn [nz]. rewrite E2. unfold bondy_factor, Rpower. rewrite ln_exp. ring. }
  destruct (best_unique (ax3 (values l) - j) (log_factors l i c j) b0 (ln (rv q)) (b i c) e) as (Eb & _); auto; [lia| |].
  { intros Z. apply Nq. assert (rv q = 1) by (apply ln_inv; [auto|lra|rewrite ln_1; auto]). apply Qc_is_canon. apply eqR_Qeq. unfold rv in H0. rewrite H0. cbn. unfold Q2R. cbn. lra. }
  split; auto. intros d Hd. destruct (le_lt_dec d k) as [X|X]; [apply K; auto|]. rewrite C1 by lia. rewrite Eb. destruct (H (d - j)%nat) as (p & E1 & E2); [lia|].
  replace (j + (d - j))%nat with d in E1 by lia. rewrite E1. cbn. rewrite E2. auto.
Qed.
