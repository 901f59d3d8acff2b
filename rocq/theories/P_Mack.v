(** Mack standard errors: proofs. *)
From Coq Require Import Lia Lra Qreals FunctionalExtensionality.
From Verif Require Export SpecMack P_FullTri P_Trend.
Local Open Scope R_scope.

(** ** Sums and products of reals *)
Lemma rsumn_ext n f g : (forall k, (k < n)%nat -> f k = g k) -> rsumn n f = rsumn n g.
Proof. induction n as [|n IH]; intros H; cbn [rsumn]; [reflexivity|]. rewrite IH, H by (auto; lia). reflexivity. Qed.
Lemma rsumn_scale n f c : rsumn n (fun k => c * f k) = c * rsumn n f.
Proof. induction n as [|n IH]; cbn [rsumn]; [ring|]. rewrite IH. ring. Qed.
Lemma rsumn_scale_r n f c : rsumn n (fun k => f k * c) = rsumn n f * c.
Proof. induction n as [|n IH]; cbn [rsumn]; [ring|]. rewrite IH. ring. Qed.
Lemma rsumn_plus n f g : rsumn n (fun k => f k + g k) = rsumn n f + rsumn n g.
Proof. induction n as [|n IH]; cbn [rsumn]; [ring|]. rewrite IH. ring. Qed.
Lemma rsumn_zero n f : (forall k, (k < n)%nat -> f k = 0) -> rsumn n f = 0.
Proof. induction n as [|n IH]; intros H; cbn [rsumn]; [reflexivity|]. rewrite IH, H by (auto; lia). ring. Qed.
Lemma rsumn_nonneg n f : (forall k, (k < n)%nat -> 0 <= f k) -> 0 <= rsumn n f.
Proof. induction n as [|n IH]; intros H; cbn [rsumn]; [lra|]. specialize (IH (fun k Hk => H k ltac:(lia))). specialize (H n ltac:(lia)). lra. Qed.
Lemma rsumn_le n f g : (forall k, (k < n)%nat -> f k <= g k) -> rsumn n f <= rsumn n g.
Proof. induction n as [|n IH]; intros H; cbn [rsumn]; [lra|]. specialize (IH (fun k Hk => H k ltac:(lia))). specialize (H n ltac:(lia)). lra. Qed.
Lemma rprodn_ext n f g : (forall k, (k < n)%nat -> f k = g k) -> rprodn n f = rprodn n g.
Proof. induction n as [|n IH]; intros H; cbn [rprodn]; [reflexivity|]. rewrite IH, H by (auto; lia). reflexivity. Qed.
Lemma rprod_from_end a f : rprod_from a a f = 1.
Proof. unfold rprod_from. rewrite Nat.sub_diag. reflexivity. Qed.
Lemma rprod_from_S a d f : (a <= d)%nat -> rprod_from a (S d) f = rprod_from a d f * f d.
Proof. intros H. unfold rprod_from. replace (S d - a)%nat with (S (d - a)) by lia. cbn [rprodn]. do 2 f_equal. lia. Qed.
Lemma carried_end f s a : carried f s a a = 0.
Proof. unfold carried, rsum_from. rewrite Nat.sub_diag. reflexivity. Qed.
Lemma carried_S f s a d : (a <= d)%nat -> carried f s a (S d) = s d ^ 2 + (f d) ^ 2 * carried f s a d.
Proof.
  intros H. unfold carried, rsum_from. replace (S d - a)%nat with (S (d - a)) by lia. cbn [rsumn]. replace (a + (d - a))%nat with d by lia.
  rewrite rprod_from_end. rewrite <- rsumn_scale. rewrite Rplus_comm. apply f_equal2; [ring|]. apply rsumn_ext. intros k Hk. rewrite rprod_from_S by lia. ring.
Qed.
Lemma carried_nonneg f s a d : 0 <= carried f s a d.
Proof. apply rsumn_nonneg. intros. apply pow2_ge_0. Qed.
Lemma carried_ext f s f' s' a d : (forall k, (a <= k < d)%nat -> f k = f' k /\ s k ^ 2 = s' k ^ 2) -> carried f s a d = carried f' s' a d.
Proof.
  intros H. destruct (Nat.le_gt_cases a d) as [L|L].
  - revert H. induction L as [|d L IH]; intros H; [rewrite !carried_end; reflexivity|]. rewrite !carried_S by auto. rewrite IH by (intros k Hk; apply H; lia). destruct (H d ltac:(lia)) as [-> ->]. reflexivity.
  - unfold carried, rsum_from. replace (d - a)%nat with 0%nat by lia. reflexivity.
Qed.
Lemma carried_zero f s a d : (forall k, (a <= k < d)%nat -> s k = 0) -> carried f s a d = 0.
Proof. intros H. unfold carried, rsum_from. apply rsumn_zero. intros k Hk. rewrite H by lia. ring. Qed.
Lemma carried_le f s s' a d : (forall k, (a <= k < d)%nat -> s k ^ 2 <= s' k ^ 2) -> carried f s a d <= carried f s' a d.
Proof.
  intros H. apply rsumn_le. intros k Hk. rewrite !Rpow_mult_distr. apply Rmult_le_compat_r; [apply pow2_ge_0|]. apply H. lia.
Qed.
Lemma carried_skip f s a b d : (a <= b <= d)%nat -> (forall k, (a <= k < b)%nat -> s k = 0) -> carried f s a d = carried f s b d.
Proof.
  intros [H1 H2] H. induction H2 as [|d L IH]; [rewrite carried_end; apply carried_zero; auto|]. rewrite !carried_S by lia. rewrite IH. reflexivity.
Qed.

(** ** The recursion *)
Lemma sq_nonneg_le x y : 0 <= x -> 0 <= y -> x ^ 2 <= y ^ 2 -> x <= y.
Proof. intros Hx Hy H. apply Rsqr_incr_0; auto. rewrite !Rsqr_pow2. exact H. Qed.
Lemma sqrt_sq x : 0 <= x -> sqrt x ^ 2 = x.
Proof. intros H. rewrite <- Rsqr_pow2. apply Rsqr_sqrt. auto. Qed.
Lemma risk_nonneg f t1 keep n : (forall k, 0 <= keep k) -> 0 <= risk f t1 keep n.
Proof. intros K. destruct n as [|n]; cbn [risk]; [lra|]. destruct (t1 n), (f n); try lra. apply Rmult_le_pos; [apply sqrt_pos|apply K]. Qed.
Lemma risk_known f t1 keep a : (forall k, (0 < k <= a)%nat -> keep k = 0) -> forall d, (d <= a)%nat -> risk f t1 keep d = 0.
Proof. intros K d H. destruct d as [|d]; cbn [risk]; [reflexivity|]. rewrite K by lia. destruct (t1 d), (f d); ring. Qed.
Lemma risk_carried f t1 keep fr sr a n :
  (forall k, (0 < k <= a)%nat -> keep k = 0) -> (forall k, (a < k <= n)%nat -> keep k = 1) ->
  (forall k, (a <= k < n)%nat -> f k = Some (fr k) /\ exists v, t1 k = Some v /\ v ^ 2 = sr k ^ 2) ->
  forall d, (a <= d <= n)%nat -> risk f t1 keep d ^ 2 = carried fr sr a d.
Proof.
  intros K0 K1 H d [L Hn]. revert Hn. induction L as [|d L IH]; intros Hn.
  - rewrite (risk_known f t1 keep a K0 a) by lia. rewrite carried_end. ring.
  - rewrite carried_S by auto. cbn [risk]. destruct (H d ltac:(lia)) as (Ef & v & Et & Ev). rewrite Ef, Et, K1, Rmult_1_r by lia. rewrite <- IH by lia.
    rewrite sqrt_sq; [rewrite Ev; ring|]. apply Rplus_le_le_0_compat; apply pow2_ge_0.
Qed.

(** ** Numbers *)
Lemma rv_0 : rv 0%Qc = 0.
Proof. apply RMicromega.Q2R_0. Qed.
Lemma rv_1 : rv 1%Qc = 1.
Proof. apply RMicromega.Q2R_1. Qed.
Lemma rv_plus a b : rv (a + b)%Qc = rv a + rv b.
Proof. unfold rv. rewrite <- Q2R_plus. apply Qeq_eqR. apply Qred_correct. Qed.
Lemma rv_mult a b : rv (a * b)%Qc = rv a * rv b.
Proof. unfold rv. rewrite <- Q2R_mult. apply Qeq_eqR. apply Qred_correct. Qed.
Lemma rv_opp a : rv (- a)%Qc = - rv a.
Proof. unfold rv. rewrite <- Q2R_opp. apply Qeq_eqR. apply Qred_correct. Qed.
Lemma rv_minus a b : rv (a - b)%Qc = rv a - rv b.
Proof. unfold Qcminus. rewrite rv_plus, rv_opp. reflexivity. Qed.
Lemma rv_inj a b : rv a = rv b -> a = b.
Proof. intros H. apply Qc_is_canon. apply eqR_Qeq. exact H. Qed.
Lemma rv_eq0 a : rv a = 0 -> a = 0%Qc.
Proof. intros H. apply rv_inj. rewrite rv_0. exact H. Qed.
Lemma rv_inv a : a <> 0%Qc -> rv (/ a)%Qc = / rv a.
Proof.
  intros H. apply (Rmult_eq_reg_l (rv a)); [|intros E; apply H, rv_eq0, E]. rewrite <- rv_mult, Qcmult_inv_r, Rinv_r, rv_1 by (auto; intros E; apply H, rv_eq0, E). reflexivity.
Qed.
Lemma rv_le a b : (a <= b)%Qc -> rv a <= rv b.
Proof. intros H. apply Qle_Rle. exact H. Qed.
Lemma rv_lt a b : (a < b)%Qc -> rv a < rv b.
Proof. intros H. apply Qlt_Rlt. exact H. Qed.
Lemma rv_sumn n f : rv (sumn n f) = rsumn n (fun k => rv (f k)).
Proof. induction n as [|n IH]; [apply rv_0|]. change (sumn (S n) f) with (sumn n f + f n)%Qc. rewrite rv_plus, IH. reflexivity. Qed.
Lemma nzr_of c : nzr (r_of c) = rv (nz c).
Proof. destruct c; cbn; [reflexivity|]. symmetry. apply rv_0. Qed.
Lemma nzr_rn2n x : nzr (rn2n x) = nzr x.
Proof. destruct x as [v|]; cbn; [|reflexivity]. destruct (Req_EM_T v 0); cbn; congruence. Qed.
Lemma nzr_sqrt_sum v : 0 <= v -> nzr (rsqrt (rn2n (Some v))) = sqrt v.
Proof.
  intros H. cbn [rn2n]. destruct (Req_EM_T v 0) as [->|N]; cbn [rsqrt nzr]; [symmetry; apply sqrt_0|]. destruct (Rlt_dec v 0); [lra|]. reflexivity.
Qed.

(** ** The amounts not yet final *)
Section OpenSum.
Local Open Scope Z_scope.
Variables t l x : tri.
Variable lat : nat -> nat.
Variable A : list Z.
Hypothesis MI : method_input t.
Hypothesis PF : pattern_for t l.
Hypothesis PJ : projectable t l.
Hypothesis UL : uniq_labels t.
Hypothesis LA : latest_ages t lat.
Hypothesis EH : enough_history t lat.
Hypothesis DA : ddims l = Ages A.
Hypothesis Wx : wf x.
Hypothesis Fx : runoff_frame t l x true.
Hypothesis Cx : forall i c o d, (i < ax0 (values t))%nat -> (c < ax1 (values t))%nat -> (o < ax2 (values t))%nat -> (d <= lat o)%nat -> stores (cel x i c o d) (amount t i c o d).
Let Wt := mi_wf _ MI.
Let no := ax2 (values t).
Let m := ax3 (values l).
Let nr' := nr t lat.

Lemma past_ok : exists p, getitem_valuation t (fun o d => valuation t o d <? vdate t) = Ok p /\ wf p /\
  kdims p = kdims t /\ key_labels p = key_labels t /\ vdims p = vdims t /\ ograin p = ograin t /\ dgrain p = dgrain t /\
  odims p = rng (odims t) 0 nr' /\ ddims p = Ages (rng A 0 (lat 0)) /\ blank_future p /\
  forall i c o d, (i < ax0 (values t))%nat -> (c < ax1 (values t))%nat -> (o < nr')%nat -> (d < lat 0)%nat ->
    amount p i c o d = if (d <? lat o)%nat then amount t i c o d else 0%Qc.
Proof.
  pose proof (nr_le t l lat EH) as Hnr. fold no nr' in Hnr. pose proof EH as (H1 & H2 & H3). fold no in H1.
  assert (Hno : (0 < no)%nat) by lia. destruct (lat_lt t l lat A MI PF LA DA 0 Hno) as [L0 L0m].
  destruct (A_prefix t l A MI PF DA) as [Ep Lp].
  set (key := fun o d => valuation t o d <? vdate t).
  assert (Mo : forall o d, (o < no)%nat -> (d < ax3 (values t))%nat -> month_of t o d = mon t A o d) by (intros; apply (mon_t t l lat A MI PF PJ DA); auto).
  assert (Hk : forall o d, (o < no)%nat -> (d < ax3 (values t))%nat -> key o d = (d <? lat o)%nat).
  { intros o d Ho Hd. unfold key. rewrite valuation_month by auto. rewrite Mo by auto. apply (mon_lt t l lat A MI PF PJ LA DA); auto; lia. }
  assert (Hr : forall o, (o < no)%nat -> (exists d, (d < ax3 (values t))%nat /\ key o d = true) <-> (o < nr')%nat).
  { intros o Ho. unfold nr'. rewrite <- (nr_lat t l lat A MI PF PJ LA DA) by auto. split.
    - intros (d & Hd & K). rewrite Hk in K by auto. apply Nat.ltb_lt in K. lia.
    - intros L. exists 0%nat. split; [lia|]. rewrite Hk by lia. apply Nat.ltb_lt. lia. }
  assert (Hc : forall d, (d < ax3 (values t))%nat -> (exists o, (o < ax2 (values t))%nat /\ key o d = true) <-> (d < lat 0)%nat).
  { intros d Hd. split.
    - intros (o & Ho & K). rewrite Hk in K by auto. apply Nat.ltb_lt in K. destruct (dl_le t l lat A MI PF PJ LA DA o Ho). lia.
    - intros L. exists 0%nat. split; [lia|]. rewrite Hk by lia. apply Nat.ltb_lt. lia. }
  destruct (getitem_valuation_ok t key Wt) as (p & E & Sp); [lia| | | |].
  { exists 0%nat, 0%nat. split; [lia|]. split; [lia|]. rewrite Hk by lia. apply Nat.ltb_lt. lia. }
  { apply (evenly_interval _ _ 0 nr'). intros z Hz. rewrite Hr by auto. lia. }
  { apply (evenly_interval _ _ 0 (lat 0)). intros z Hz. rewrite Hc by auto. lia. }
  assert (Kr : kept_rows t key = seq 0 nr').
  { apply sorted_lt_ext; [apply incr_pos_filter|apply (incr_pos_seq 0 nr' nr'); lia|]. intros z. rewrite in_kept_rows, in_seq. split.
    - intros (A1 & A2). apply Hr in A2; auto. lia.
    - intros A1. split; [unfold no in *; lia|]. apply Hr; lia. }
  assert (Kc : kept_cols t key = seq 0 (lat 0)).
  { apply sorted_lt_ext; [apply incr_pos_filter|apply (incr_pos_seq 0 (lat 0) (lat 0)); lia|]. intros z. rewrite in_kept_cols, in_seq. split.
    - intros (A1 & A2). apply Hc in A2; auto. lia.
    - intros A1. split; [lia|]. apply Hc; lia. }
  destruct Sp as [Sw Sk Skl Sv So Sd S0 S1 S2 S3 Scum Spat Sog Sdg Sc Svle Svge Svex Svub]. rewrite Kr, Kc in *. rewrite !seq_length in *.
  assert (Om : odims p = rng (odims t) 0 nr') by exact So.
  assert (Od : ddims p = Ages (rng A 0 (lat 0))).
  { rewrite Sd, Ep. cbn [dmap]. f_equal. unfold rng, sel. apply map_ext_in. intros k Hk'. apply in_seq in Hk'.
    rewrite <- (firstn_skipn (ax3 (values t)) A) at 2. rewrite app_nth1; auto. rewrite firstn_length, (A_len t l lat A PF DA). lia. }
  assert (Cel : forall i c o d, (i < ax0 (values t))%nat -> (c < ax1 (values t))%nat -> (o < nr')%nat -> (d < lat 0)%nat ->
    cel p i c o d = if (d <? lat o)%nat then n2n (cel t i c o d) else None).
  { intros i c o d Hi Hcc Ho Hd. rewrite Sc by auto. rewrite !seq_nth by auto. cbn [Nat.add]. rewrite Hk by lia. reflexivity. }
  exists p. repeat (split; [first [assumption|reflexivity]|]). split.
  - intros i c o d (Hi & Hcc & Ho & Hd) Hf. rewrite S2 in Ho. rewrite S3 in Hd. rewrite S0 in Hi. rewrite S1 in Hcc. rewrite Cel by auto.
    destruct (Nat.ltb_spec d (lat o)) as [L|L]; [|reflexivity]. exfalso. unfold future in Hf.
    assert (Em : month_of p o d = month_of t o d).
    { rewrite Mo by lia. unfold month_of, mon. rewrite Od, Om, !rng_nth by auto. unfold age_month. cbn [Nat.add].
      pose proof (A_small t l lat A PF PJ DA d ltac:(lia)). destruct (Z.eqb_spec (nth d A 0) 9999); [lia|reflexivity]. }
    specialize (Svge o d ltac:(lia) ltac:(lia)). rewrite Hk in Svge by lia. specialize (Svge (proj2 (Nat.ltb_lt _ _) L)).
    pose proof (mon_lt t l lat A MI PF PJ LA DA o d ltac:(lia) ltac:(lia)) as G. destruct (Nat.ltb_spec d (lat o)); [|lia]. apply Z.ltb_lt in G. rewrite <- Mo in G by lia. lia.
  - intros i c o d Hi Hcc Ho Hd. unfold amount. rewrite Cel by auto. destruct (d <? lat o)%nat; [apply nz_n2n|reflexivity].
Qed.

Lemma open_sum_ok se : exists os, open_sum t x se = Ok os /\
  forall i c d v, (i < ax0 (values t))%nat -> (c < ax1 (values t))%nat -> (d < ax3 (values t))%nat -> se i c d = Some v ->
    os i c d = Some (rsumn no (fun o => if (lat o <=? d)%nat then rv (amount x i c o d) else 0) * v)%R.
Proof.
  destruct past_ok as (p & Ep & Wp & Pk & Pkl & Pv & Pog & Pdg & Po & Pd & Pb & Pc).
  pose proof (nr_le t l lat EH) as Hnr. fold no nr' in Hnr. pose proof EH as (H1 & H2 & H3). fold no in H1.
  assert (Hno : (0 < no)%nat) by lia. destruct (lat_lt t l lat A MI PF LA DA 0 Hno) as [L0 L0m]. fold m in L0m.
  destruct (A_prefix t l A MI PF DA) as [Et Lp]. fold m in Lp. pose proof (A_len t l lat A PF DA) as LA'. fold m in LA'.
  destruct Fx as [Xk Xkl Xv Xo Xd Xvd Xcum Xpat Xog Xdg X0 X1 X2 X3]. fold m in X3.
  assert (Lo' : List.length (odims t) = no) by (symmetry; apply Wt).
  assert (To : odims t = rng (odims t) 0 no) by (rewrite <- Lo'; symmetry; apply rng_all).
  set (U := A ++ [9999]). assert (LU : List.length U = S m) by (unfold U; rewrite app_length, LA'; cbn; lia).
  assert (XU : dlist (ddims x) = U) by (rewrite Xd, DA; reflexivity).
  assert (SU : StronglySorted Z.lt U) by (rewrite <- XU; apply Wx).
  assert (TU : U = rng U 0 (S m)) by (rewrite <- LU; symmetry; apply rng_all).
  assert (PU : dlist (ddims p) = rng U 0 (lat 0)).
  { rewrite Pd. cbn [dlist]. unfold rng, sel, U. apply map_ext_in. intros k Hk. apply in_seq in Hk. rewrite app_nth1 by lia. reflexivity. }
  assert (Uo : zunion (odims x) (odims p) = odims t).
  { rewrite Xo, Po. rewrite To at 1. apply rng_union; [apply Wt|lia|lia|]. intros q Hq. lia. }
  assert (Ud : zunion (dlist (ddims x)) (dlist (ddims p)) = U).
  { rewrite XU, PU. rewrite TU at 1. apply rng_union; auto; lia. }
  assert (NF : no_future x).
  { intros o d Ho Hd F. unfold future in F. rewrite Xvd in F. pose proof (month_le_ult x _ o d Wx Xd Ho Hd). lia. }
  destruct (addsub_cells OSub x p) as (r & Er & Wr & Br & _ & Rk & Rkl & Rv & Ro & Rs & Rd & Rvd & Rc).
  - right; reflexivity.
  - exact Wx.
  - exact Wp.
  - destruct UL as [U1 U2]. split; congruence.
  - congruence.
  - congruence.
  - congruence.
  - congruence.
  - congruence.
  - rewrite Xd, Pd. exact I.
  - rewrite Xo, Po. rewrite To at 1. apply rng_ablocks; try lia. apply Wt.
  - rewrite XU, PU. rewrite TU at 1. apply rng_ablocks; try lia. auto.
  - unfold frame_fits. rewrite Xd. rewrite <- Xd. intros o a Ho Ha Hn. destruct (PJ _ DA) as (_ & Pj). apply Pj.
    + rewrite <- Uo, zunion_In. exact Ho.
    + assert (Ia : In a U) by (rewrite <- Ud, zunion_In; exact Ha). unfold U in Ia. apply in_app_iff in Ia. destruct Ia as [|[|[]]]; [auto|congruence].
  - intros i c o d (_ & _ & Ho & Hd) F. destruct (NF o d Ho Hd F).
  - exact Pb.
  - intros [_ E]. rewrite XU, PU in E. apply (f_equal (@List.length Z)) in E. rewrite rng_length in E. lia.
  - rewrite Uo in Ro. rewrite Ud in Rd.
    assert (R2 : ax2 (values r) = no) by (rewrite (wf_o _ Wr), Ro; auto). assert (R3 : ax3 (values r) = S m) by (rewrite (wf_d _ Wr), Rd; auto).
    assert (R0 : ax0 (values r) = ax0 (values t)) by (rewrite (wf_k _ Wr), (wf_k _ Wt); congruence). assert (R1 : ax1 (values r) = ax1 (values t)) by (rewrite (wf_v _ Wr), (wf_v _ Wt); congruence).
    destruct (iloc_dev_upto r (ax3 (values t)) Wr) as (s & Es & Cs); [pose proof (wf_d1 _ Wt); lia|].
    eexists. split; [unfold open_sum; rewrite Ep; cbn [rbind]; rewrite Er; cbn [rbind]; rewrite Es; reflexivity|].
    intros i c d v Hi Hc Hd Ev. f_equal.
    assert (Sc : forall o, (o < no)%nat -> cel s i c o d = cel r i c o d).
    { intros o Ho. rewrite (cl_eq _ _ Cs). unfold cel. cbn [set_vdate values]. unfold sel_dev. cbn [sel_tri values sel_arr av]. rewrite !seq_nth by (rewrite ?R0, ?R1, ?R2; auto). reflexivity. }
    assert (S2 : ax2 (values s) = no) by (rewrite (cl_eq _ _ Cs); cbn [set_vdate values sel_dev sel_tri sel_arr ax2]; rewrite seq_length; auto).
    unfold rnansum. rewrite S2. rewrite <- rsumn_scale_r. apply f_equal. apply rsumn_ext. intros o Ho. rewrite Sc, Ev by auto.
    assert (St : stores (cel r i c o d) (if (lat o <=? d)%nat then amount x i c o d else 0%Qc)).
    { eapply stores_eq; [apply Rc; repeat split; lia|]. cbn [qop]. rewrite Ro, Rd, Xo, XU, Po, PU.
      rewrite To at 1. rewrite rng_pick by (try apply Wt; lia). rewrite TU at 1. rewrite (rng_pick U 0 (S m)) by (auto; lia).
      destruct (Nat.ltb_spec o (0 + no)); [|lia]. destruct (Nat.ltb_spec d (0 + S m)); [|lia]. cbn [Nat.leb andb]. rewrite !Nat.sub_0_r.
      rewrite rng_pick by (try apply Wt; lia). rewrite rng_pick by (auto; lia). cbn [Nat.leb andb Nat.add]. rewrite !Nat.sub_0_r.
      destruct (dl_le t l lat A MI PF PJ LA DA o Ho) as [_ Hl].
      pose proof (nr_lat t l lat A MI PF PJ LA DA o Ho) as Hn. fold nr' in Hn.
      assert (Hx : (d < lat o)%nat -> amount x i c o d = amount t i c o d) by (intros; unfold amount at 1; apply stores_nz; apply Cx; auto; lia).
      destruct (Nat.leb_spec (lat o) d) as [K|K].
      - destruct (Nat.ltb_spec o nr'); [|ring]. destruct (Nat.ltb_spec d (lat 0)); [|ring]. rewrite Pc by auto. destruct (Nat.ltb_spec d (lat o)); [lia|]. ring.
      - destruct (Nat.ltb_spec o nr'); [|lia]. destruct (Nat.ltb_spec d (lat 0)); [|lia]. rewrite Pc by auto. destruct (Nat.ltb_spec d (lat o)); [|lia]. rewrite Hx by auto. ring. }
    destruct (Nat.leb_spec (lat o) d) as [K|K]; destruct (cel r i c o d) as [q|] eqn:E; cbn [r_of option_map rmul nzr]; destruct St as [Z0 Z1].
    + destruct (Qc_eq_dec (amount x i c o d) 0) as [E0|E0]; [specialize (Z0 E0); congruence|]. specialize (Z1 E0). congruence.
    + destruct (Qc_eq_dec (amount x i c o d) 0) as [E0|E0]; [rewrite E0, rv_0; ring|]. specialize (Z1 E0). congruence.
    + specialize (Z0 eq_refl). congruence.
    + ring.
Qed.
End OpenSum.

(** ** One step of the process risk *)
Lemma process_sq avg c s w :
  (nzr (r_of c) * (nzr (rdiv s (rn2n (rsqrt (npow (r_of c) (2 - exponent avg))))) * w)) ^ 2 = (spread avg (rv (nz c)) (nzr s) * w) ^ 2.
Proof.
  destruct c as [q|].
  - cbn [r_of option_map nzr nz]. destruct avg; cbn [exponent Nat.sub npow rpow option_map rsqrt spread].
    + (* regression *)
      destruct (Rlt_dec (rv q ^ 2) 0) as [L|L]; [pose proof (pow2_ge_0 (rv q)); lra|]. replace (sqrt (rv q ^ 2)) with (Rabs (rv q)) by (rewrite <- Rsqr_pow2, sqrt_Rsqr_abs; reflexivity). cbn [rn2n].
      destruct (Req_EM_T (Rabs (rv q)) 0) as [E|E].
      * destruct (Req_EM_T (rv q) 0) as [E'|E']; [|apply Rabs_no_R0 in E'; contradiction]. destruct s; cbn [rdiv nzr]; ring.
      * destruct (Req_EM_T (rv q) 0) as [E'|E']; [rewrite E', Rabs_R0 in E; contradiction|]. destruct s as [s|]; cbn [rdiv nzr]; [|ring].
        destruct (Req_EM_T (Rabs (rv q)) 0); [contradiction|]. cbn [nzr].
        replace ((rv q * (s / Rabs (rv q) * w)) ^ 2) with (s ^ 2 * w ^ 2 * (rv q ^ 2 / Rabs (rv q) ^ 2)) by (field; auto). rewrite pow2_abs. field. auto.
    + (* volume *)
      rewrite pow_1. destruct (Rlt_dec (rv q) 0) as [L|L]; destruct (Rlt_dec 0 (rv q)) as [L'|L']; try lra.
      * destruct s; cbn [rn2n rdiv nzr]; ring.
      * assert (P : 0 < sqrt (rv q)) by (apply sqrt_lt_R0; auto). cbn [rn2n]. destruct (Req_EM_T (sqrt (rv q)) 0); [lra|]. destruct s as [s|]; cbn [rdiv nzr]; [|ring].
        destruct (Req_EM_T (sqrt (rv q)) 0); [lra|]. cbn [nzr]. f_equal. rewrite <- (sqrt_sqrt (rv q)) at 1 by lra. field. lra.
      * assert (E : rv q = 0) by lra. rewrite E, sqrt_0. cbn [rn2n]. destruct s; cbn [rdiv nzr]; ring.
    + (* simple *)
      destruct (Rlt_dec 1 0); [lra|]. rewrite sqrt_1. cbn [rn2n]. destruct (Req_EM_T 1 0); [lra|]. destruct s as [s|]; cbn [rdiv nzr]; [|ring]. destruct (Req_EM_T 1 0); [lra|]. cbn [nzr]. field.
  - cbn [r_of option_map nzr nz]. rewrite rv_0. destruct avg; cbn [spread].
    + destruct (Req_EM_T 0 0); [ring|lra].
    + destruct (Rlt_dec 0 0); [lra|ring].
    + ring.
Qed.

(** ** The fit *)
Section Fit.
Variables (t : tri) (a : mack_attrs) (lat : nat -> nat) (sigma : rrow).
Hypothesis IN : mack_input t a lat.
Hypothesis SG : ma_sigma a = Some sigma.
Let l := ma_ldf a.
Let m := ax3 (values t).

Lemma mack_cells : exists u x r, cl_ultimate t l = Ok u /\ ultimate_frame t u /\ full_triangle t l u = Ok x /\ mack_fit t a = Ok (x, r) /\
  wf x /\ runoff_frame t l x true /\
  risk_labels t (odims t) (mr_parameter r) /\ risk_labels t (odims t) (mr_process r) /\ risk_labels t (firstn 1 (odims t)) (mr_total_parameter r) /\
  forall i c, (i < ax0 (values t))%nat -> (c < ax1 (values t))%nat ->
    (forall o d, rt_cell (mr_parameter r) i c o d = Some (risk (mack_factor t l i c) (fun d => rmul (Some (rv (amount x i c o d))) (ma_se a i c d)) (keep_of t o) d)) /\
    (forall o d, exists t1, rt_cell (mr_process r) i c o d = Some (risk (mack_factor t l i c) t1 (keep_of t o) d) /\
       forall k, exists v, t1 k = Some v /\ v ^ 2 = process_step a x i c o k ^ 2) /\
    (forall o d, exists t1, rt_cell (mr_total_parameter r) i c o d = Some (risk (mack_factor t l i c) t1 (fun _ => 1) d) /\
       forall k, (k < m)%nat -> forall v, ma_se a i c k = Some v -> t1 k = Some (total_step t a x lat i c k)).
Proof.
  destruct IN as [MI PF PJ UL LA EH EA TL MW MA]. fold l in PF, PJ, EA, TL. fold m in TL, MW, MA.
  destruct (cl_ultimate_ok t l MI PF) as (u & Eu & UF & _).
  destruct (full_triangle_ok t l u lat ltac:(constructor; auto)) as (x & Ex & Wx & Fx & Cx).
  destruct (pf_d _ _ PF) as (xs & more & D1 & D2).
  destruct (open_sum_ok t l x lat _ MI PF PJ UL LA EH D2 Wx Fx) with (se := ma_se a) as (os & Eos & Cos).
  { intros i c o d Hi Hc Ho Hd. apply (Cx i c o Hi Hc Ho). auto. }
  destruct MW as (W0 & W1 & W2 & W3).
  assert (Ef : full_std_err t x a sigma = Ok (fun i c o d =>
      nzr (rdiv (sigma i c d) (rn2n (rsqrt (npow (r_of (cel x i c o d)) (2 - exponent (average_at a d)))))) * weight_at a o d)).
  { unfold full_std_err. rewrite W0, W1, W2. rewrite !Nat.eqb_refl. cbn [Nat.eqb andb]. destruct (Nat.eqb_spec (ax3 (ma_w a) + 1) (ax3 (values t))) as [_|N]; [|fold m in N; lia].
    apply f_equal. do 4 (apply functional_extensionality; intro). unfold weight_at, average_at. destruct (_ <? _)%nat; [|reflexivity]. destruct (av (ma_w a) _ _ _ _); reflexivity. }
  assert (Lab : forall os', List.length os' = List.length os' -> forall g, risk_labels t os' (RTri (risk_frame t l x os') g)).
  { intros os' _ g. destruct Fx as [Xk Xkl Xv Xo Xd Xvd Xcum Xpat Xog Xdg X0 X1 X2 X3].
    constructor; cbn [rt_frame risk_frame kdims vdims odims ddims dlist vdate values ax0 ax1 ax2 ax3]; try reflexivity; auto.
    - fold m. rewrite Xd, D2, D1. cbn [dlist]. assert (Lx : m = List.length xs) by (unfold m; rewrite (wf_d _ (mi_wf _ MI)), D1; reflexivity).
      rewrite <- app_assoc, Lx, firstn_app, firstn_all, Nat.sub_diag. cbn [firstn]. rewrite app_nil_r. f_equal. f_equal.
      rewrite app_assoc, app_nth2; rewrite !app_length; cbn [List.length]; [|lia]. replace (_ - _)%nat with 0%nat by lia. reflexivity.
    - unfold mack_steps. fold m. destruct (Nat.eqb_spec (ax3 (values l)) m); [lia|reflexivity]. }
  eexists u, x, _. split; [exact Eu|]. split; [exact UF|]. split; [exact Ex|]. split.
  { unfold mack_fit. fold l. rewrite Eu. cbn [rbind]. rewrite SG, Ex. cbn [rbind]. rewrite Ef. cbn [rbind]. rewrite Eos. cbn [rbind]. reflexivity. }
  split; [exact Wx|]. split; [exact Fx|]. cbn [mr_parameter mr_process mr_total_parameter].
  split; [apply Lab; reflexivity|]. split; [apply Lab; reflexivity|]. split; [apply Lab; reflexivity|]. cbn [rt_cell].
  intros i c Hi Hc. split; [|split].
  - intros o d. f_equal. f_equal. apply functional_extensionality. intros k. rewrite nzr_of. reflexivity.
  - intros o d. eexists. split; [reflexivity|]. intros k. eexists. split; [reflexivity|]. cbn beta. rewrite process_sq. unfold process_step. rewrite SG. reflexivity.
  - intros o d. eexists. split; [reflexivity|]. intros k Hk v Ev. rewrite (Cos i c k v Hi Hc Hk Ev). unfold total_step. rewrite Ev. reflexivity.
Qed.

Lemma keep_known o d : (o < ax2 (values t))%nat -> (0 < d <= lat o)%nat -> keep_of t o d = 0.
Proof.
  intros Ho [_ H]. destruct IN as [MI PF PJ UL LA EH EA TL MW MA]. destruct (LA o Ho) as [L1 L2]. unfold keep_of. destruct (Nat.ltb_spec d (ax3 (values t))) as [Hd|]; [|lia].
  pose proof (mi_wf _ MI) as W. rewrite nan_triangle_cases by auto. destruct (_ =? 1)%nat; [lra|]. destruct (Z.ltb_spec (vdate t) (month_of t o d)) as [K|]; [|lra].
  exfalso. rewrite <- L2 in K. destruct (pf_d _ _ PF) as (xs & more & D1 & D2). unfold month_of in K. rewrite D1 in K.
  assert (S : StronglySorted Z.lt xs) by (pose proof (wf_dsort _ W) as S; rewrite D1 in S; exact S).
  pose proof (wf_d _ W) as Lx. rewrite D1 in Lx. cbn [dlist] in Lx.
  pose proof (sorted_nth_le xs d (lat o) 0%Z S ltac:(lia)). unfold age_month in K.
  destruct (PJ _ D2) as (Pj & _). assert (Sm : forall k, (k < ax3 (values t))%nat -> (nth k xs 0 < 9999)%Z) by (intros k Hk; apply Pj; apply in_app_iff; left; apply nth_In; lia).
  pose proof (Sm d Hd). pose proof (Sm (lat o) L1). destruct (Z.eqb_spec (nth d xs 0%Z) 9999); [lia|]. destruct (Z.eqb_spec (nth (lat o) xs 0%Z) 9999); [lia|]. lia.
Qed.
Lemma keep_open o d : (o < ax2 (values t))%nat -> (lat o < d <= m)%nat -> keep_of t o d = 1.
Proof.
  intros Ho [H Hm]. destruct IN as [MI PF PJ UL LA EH EA TL MW MA]. destruct (LA o Ho) as [L1 L2]. unfold keep_of. destruct (Nat.ltb_spec d (ax3 (values t))) as [Hd|]; [|reflexivity].
  pose proof (mi_wf _ MI) as W. rewrite nan_triangle_cases by auto.
  destruct EH as (E1 & E2 & _). destruct (LA 0%nat ltac:(lia)) as [L0 _]. destruct (Nat.eqb_spec (Nat.min (ax2 (values t)) (ax3 (values t))) 1); [lia|].
  destruct (Z.ltb_spec (vdate t) (month_of t o d)) as [K|K]; [lra|].
  exfalso. rewrite <- L2 in K. destruct (pf_d _ _ PF) as (xs & more & D1 & D2). unfold month_of in K. rewrite D1 in K.
  assert (S : StronglySorted Z.lt xs) by (pose proof (wf_dsort _ W) as S; rewrite D1 in S; exact S).
  pose proof (wf_d _ W) as Lx. rewrite D1 in Lx. cbn [dlist] in Lx.
  pose proof (sorted_nth_lt xs (lat o) d 0%Z S ltac:(lia)). unfold age_month in K.
  destruct (PJ _ D2) as (Pj & _). assert (Sm : forall k, (k < ax3 (values t))%nat -> (nth k xs 0 < 9999)%Z) by (intros k Hk; apply Pj; apply in_app_iff; left; apply nth_In; lia).
  pose proof (Sm d Hd). pose proof (Sm (lat o) L1). destruct (Z.eqb_spec (nth d xs 0%Z) 9999); [lia|]. destruct (Z.eqb_spec (nth (lat o) xs 0%Z) 9999); [lia|]. lia.
Qed.
Lemma keep_nonneg o d : 0 <= keep_of t o d.
Proof. unfold keep_of. destruct (d <? _)%nat; [destruct (nan_triangle t o d)|]; lra. Qed.

Lemma mack_factor_ok i c d : (i < ax0 (values t))%nat -> (c < ax1 (values t))%nat -> factors_present l i c -> (d < m)%nat ->
  mack_factor t l i c d = Some (step_factor t l i c d).
Proof.
  intros Hi Hc FP Hd. destruct IN as [MI PF PJ UL LA EH EA TL MW MA]. fold l in PF, TL. fold m in TL. unfold mack_factor, step_factor. fold m.
  destruct (Nat.ltb_spec d (m - 1)); destruct (Nat.ltb_spec (Datatypes.S d) m); try lia.
  - rewrite (FP d) at 1 by lia. reflexivity.
  - replace d with (m - 1)%nat by lia.
    destruct (ldf_to_cdf_cell l (pf_wf _ _ PF) (pf_pat _ _ PF) (pf_cum _ _ PF)) as (_ & _ & _ & Cc).
    { left. apply (pf_2 t l PF). }
    unfold cdf_of. rewrite Cc; [reflexivity|]. repeat split; [rewrite (pf_0 t l MI PF)|rewrite (pf_1 t l MI PF)|rewrite (pf_2 t l PF)|]; auto. lia.
Qed.
End Fit.

(** ** Theorems *)
Lemma fit_inv t a lat x r : mack_input t a lat -> mack_fit t a = Ok (x, r) -> exists sigma, ma_sigma a = Some sigma.
Proof.
  intros IN E. unfold mack_fit in E. destruct (cl_ultimate t (ma_ldf a)); [|discriminate]. cbn [rbind] in E. destruct (ma_sigma a) as [s|]; [eauto|discriminate].
Qed.

Lemma mack_accepts t a lat sigma : mack_input t a lat -> ma_sigma a = Some sigma ->
  exists u x r, cl_ultimate t (ma_ldf a) = Ok u /\ full_triangle t (ma_ldf a) u = Ok x /\ mack_fit t a = Ok (x, r) /\
    risk_labels t (odims t) (mr_parameter r) /\ risk_labels t (odims t) (mr_process r) /\ risk_labels t (firstn 1 (odims t)) (mr_total_parameter r).
Proof.
  intros IN SG. destruct (mack_cells t a lat sigma IN SG) as (u & x & r & E1 & _ & E2 & E3 & _ & _ & L1 & L2 & L3 & _). exists u, x, r. auto 10.
Qed.

Lemma parameter_risk_ok t a lat x r : mack_input t a lat -> mack_fit t a = Ok (x, r) ->
  forall i c o, (i < ax0 (values t))%nat -> (c < ax1 (values t))%nat -> (o < ax2 (values t))%nat -> factors_present (ma_ldf a) i c ->
    (forall d, 0 <= risk_at (mr_parameter r) i c o d) /\ (forall d, (d <= lat o)%nat -> risk_at (mr_parameter r) i c o d = 0) /\
    (row_known (ma_se a) i c (ax3 (values t)) -> forall d, (lat o <= d <= ax3 (values t))%nat ->
      risk_at (mr_parameter r) i c o d ^ 2 = carried (step_factor t (ma_ldf a) i c) (parameter_step a x i c o) (lat o) d).
Proof.
  intros IN E i c o Hi Hc Ho FP. destruct (fit_inv _ _ _ _ _ IN E) as [sigma SG].
  destruct (mack_cells t a lat sigma IN SG) as (u & x' & r' & E1 & _ & E2 & E3 & _ & _ & L1 & L2 & L3 & C). rewrite E in E3. injection E3 as <- <-.
  destruct (C i c Hi Hc) as (C1 & _ & _). unfold risk_at. split; [|split].
  - intros d. rewrite C1. cbn [nzr]. apply risk_nonneg. intros. apply keep_nonneg.
  - intros d Hd. rewrite C1. cbn [nzr]. apply (risk_known _ _ _ (lat o)); auto. intros k Hk. apply (keep_known t a lat IN); auto.
  - intros RK d Hd. rewrite C1. cbn [nzr]. apply (risk_carried _ _ _ _ _ (lat o) (ax3 (values t))); auto.
    + intros k Hk. apply (keep_known t a lat IN); auto.
    + intros k Hk. apply (keep_open t a lat IN); auto.
    + intros k Hk. split; [apply (mack_factor_ok t a lat IN); auto; lia|]. destruct (RK k ltac:(lia)) as [v Ev]. exists (parameter_step a x i c o k). split; [|reflexivity].
      unfold parameter_step. rewrite Ev. reflexivity.
Qed.

Lemma process_risk_ok t a lat x r : mack_input t a lat -> mack_fit t a = Ok (x, r) ->
  forall i c o, (i < ax0 (values t))%nat -> (c < ax1 (values t))%nat -> (o < ax2 (values t))%nat -> factors_present (ma_ldf a) i c ->
    (forall d, 0 <= risk_at (mr_process r) i c o d) /\ (forall d, (d <= lat o)%nat -> risk_at (mr_process r) i c o d = 0) /\
    (forall d, (lat o <= d <= ax3 (values t))%nat ->
      risk_at (mr_process r) i c o d ^ 2 = carried (step_factor t (ma_ldf a) i c) (process_step a x i c o) (lat o) d).
Proof.
  intros IN E i c o Hi Hc Ho FP. destruct (fit_inv _ _ _ _ _ IN E) as [sigma SG].
  destruct (mack_cells t a lat sigma IN SG) as (u & x' & r' & E1 & _ & E2 & E3 & _ & _ & L1 & L2 & L3 & C). rewrite E in E3. injection E3 as <- <-.
  destruct (C i c Hi Hc) as (_ & C1 & _). unfold risk_at. split; [|split]; intros d; [|intros Hd|intros Hd]; destruct (C1 o d) as (t1 & -> & T1); cbn [nzr].
  - apply risk_nonneg. intros. apply keep_nonneg.
  - apply (risk_known _ _ _ (lat o)); auto. intros k Hk. apply (keep_known t a lat IN); auto.
  - apply (risk_carried _ _ _ _ _ (lat o) (ax3 (values t))); auto.
    + intros k Hk. apply (keep_known t a lat IN); auto.
    + intros k Hk. apply (keep_open t a lat IN); auto.
    + intros k Hk. split; [apply (mack_factor_ok t a lat IN); auto; lia|]. apply T1.
Qed.

Lemma total_parameter_ok t a lat x r : mack_input t a lat -> mack_fit t a = Ok (x, r) ->
  forall i c, (i < ax0 (values t))%nat -> (c < ax1 (values t))%nat -> factors_present (ma_ldf a) i c -> row_known (ma_se a) i c (ax3 (values t)) ->
    forall d, (d <= ax3 (values t))%nat -> 0 <= risk_at (mr_total_parameter r) i c 0 d /\
      risk_at (mr_total_parameter r) i c 0 d ^ 2 = carried (step_factor t (ma_ldf a) i c) (total_step t a x lat i c) 0 d.
Proof.
  intros IN E i c Hi Hc FP RK d Hd. destruct (fit_inv _ _ _ _ _ IN E) as [sigma SG].
  destruct (mack_cells t a lat sigma IN SG) as (u & x' & r' & E1 & _ & E2 & E3 & _ & _ & L1 & L2 & L3 & C). rewrite E in E3. injection E3 as <- <-.
  destruct (C i c Hi Hc) as (_ & _ & C1). unfold risk_at. destruct (C1 0%nat d) as (t1 & -> & T1). cbn [nzr]. split.
  - apply risk_nonneg. intros. lra.
  - apply (risk_carried _ _ _ _ _ 0 (ax3 (values t))); auto; try lia.
    intros k Hk. split; [apply (mack_factor_ok t a lat IN); auto; lia|]. destruct (RK k ltac:(lia)) as [v Ev]. exists (total_step t a x lat i c k). split; [|reflexivity].
    apply (T1 k ltac:(lia) v Ev).
Qed.

Lemma sqrt_pow2_sum x : 0 <= x -> sqrt x ^ 2 = x.
Proof. apply sqrt_sq. Qed.
Lemma std_err_ok r i c o d : risk_at (mack_std_err r) i c o d = sqrt (risk_at (mr_parameter r) i c o d ^ 2 + risk_at (mr_process r) i c o d ^ 2) /\
  rt_frame (mack_std_err r) = rt_frame (mr_parameter r).
Proof.
  split; [|reflexivity]. unfold risk_at, mack_std_err. cbn [rt_cell]. apply nzr_sqrt_sum. apply Rplus_le_le_0_compat; apply pow2_ge_0.
Qed.
Lemma total_process_ok r i c o d : risk_at (total_process_risk r) i c o d =
  sqrt (rsumn (ax2 (values (rt_frame (mr_process r)))) (fun o => risk_at (mr_process r) i c o d ^ 2)).
Proof.
  unfold risk_at, total_process_risk. cbn [rt_cell]. rewrite nzr_sqrt_sum.
  - f_equal. unfold rnansum. apply rsumn_ext. intros k Hk. destruct (rt_cell (mr_process r) i c k d); cbn; ring.
  - apply rsumn_nonneg. intros k Hk. destruct (rt_cell (mr_process r) i c k d); cbn; [|lra]. pose proof (pow2_ge_0 r0). cbn in *. lra.
Qed.
Lemma total_std_err_ok r i c : nzr (total_mack_std_err r i c) =
  let d := (ax3 (values (rt_frame (mr_process r))) - 1)%nat in
  sqrt (risk_at (total_process_risk r) i c 0 d ^ 2 + risk_at (mr_total_parameter r) i c 0 d ^ 2).
Proof.
  unfold total_mack_std_err. rewrite nzr_sqrt_sum; [reflexivity|]. apply Rplus_le_le_0_compat; apply pow2_ge_0.
Qed.

(** ** Mack's formula *)
Lemma rprod_from_rev a b f : (a < b)%nat -> rprod_from a b f = f a * rprod_from (S a) b f.
Proof.
  intros H. unfold rprod_from. replace (b - a)%nat with (S (b - S a)) by lia. generalize (b - S a)%nat as n. induction n as [|n IH].
  - cbn [rprodn]. rewrite Nat.add_0_r. ring.
  - change (rprodn (S (S n)) (fun j => f (a + j)%nat)) with (rprodn (S n) (fun j => f (a + j)%nat) * f (a + S n)%nat). rewrite IH. cbn [rprodn].
    replace (a + S n)%nat with (S a + n)%nat by lia. ring.
Qed.
Lemma rprod_from_split a b d f : (a <= b <= d)%nat -> rprod_from a d f = rprod_from a b f * rprod_from b d f.
Proof.
  intros [H1 H2]. induction H2 as [|d L IH]; [rewrite rprod_from_end; ring|]. rewrite !rprod_from_S by lia. rewrite IH. ring.
Qed.
Lemma rv_growth l i c a b : rv (growth l i c a b) = rprodn (b - a) (fun k => rv (factor (cel l i c 0 (a + k)))).
Proof.
  unfold growth. generalize (b - a)%nat as n. induction n as [|n IH]; [apply rv_1|].
  change (prodn (S n) (fun k => factor (cel l i c 0 (a + k)))) with (prodn n (fun k => factor (cel l i c 0 (a + k))) * factor (cel l i c 0 (a + n)))%Qc.
  rewrite rv_mult, IH. reflexivity.
Qed.
Lemma step_growth t l i c a b : (a <= b < ax3 (values t))%nat -> rprod_from a b (step_factor t l i c) = rv (growth l i c a b).
Proof.
  intros H. rewrite rv_growth. unfold rprod_from. apply rprodn_ext. intros k Hk. unfold step_factor. destruct (Nat.ltb_spec (S (a + k)) (ax3 (values t))); [reflexivity|lia].
Qed.
Lemma step_ultimate t l i c a : (a < ax3 (values t) <= ax3 (values l))%nat -> rprod_from a (ax3 (values t)) (step_factor t l i c) = rv (to_ultimate l i c a).
Proof.
  intros H. set (m := ax3 (values t)) in *. rewrite (rprod_from_split a (m - 1) m) by lia. rewrite step_growth by (fold m; lia).
  assert (LF : forall g, rprod_from (m - 1) m g = g (m - 1)%nat).
  { intros g. unfold rprod_from. replace (m - (m - 1))%nat with 1%nat by lia. cbn [rprodn]. rewrite Nat.add_0_r. ring. }
  rewrite LF. unfold step_factor. fold m. destruct (Nat.ltb_spec (S (m - 1)) m); [lia|].
  rewrite <- rv_mult. f_equal. change (to_ultimate l i c (m - 1)) with (growth l i c (m - 1) (ax3 (values l))). rewrite <- growth_split by lia. reflexivity.
Qed.

Lemma factor_pos_growth l i c a b : (forall d, (a <= d < b)%nat -> 0 < factor (cel l i c 0 d))%Qc -> (a <= b)%nat -> 0 < rv (growth l i c a b).
Proof.
  intros H Hb. rewrite rv_growth. assert (G : forall n, (n <= b - a)%nat -> 0 < rprodn n (fun k => rv (factor (cel l i c 0 (a + k))))).
  { induction n as [|n IH]; intros Hn; cbn [rprodn]; [lra|]. apply Rmult_lt_0_compat; [apply IH; lia|]. rewrite <- rv_0. apply rv_lt. apply H. lia. }
  apply G. lia.
Qed.

Lemma mack_formula t a lat x r : mack_input t a lat -> mack_fit t a = Ok (x, r) ->
  forall i c o, (i < ax0 (values t))%nat -> (c < ax1 (values t))%nat -> (o < ax2 (values t))%nat -> factors_present (ma_ldf a) i c ->
    row_known (ma_se a) i c (ax3 (values t)) ->
    (0 < amount t i c o (lat o))%Qc -> (forall d, (lat o <= d < ax3 (values (ma_ldf a)))%nat -> 0 < factor (cel (ma_ldf a) i c 0 d))%Qc ->
    to_ultimate (ma_ldf a) i c (lat o) <> 1%Qc ->
    (forall d, (lat o <= d < ax3 (values t))%nat -> average_at a d = Volume /\ weight_at a o d = 1) ->
    let ult := rv (amount t i c o (lat o) * to_ultimate (ma_ldf a) i c (lat o))%Qc in
    let reached d := rv (amount t i c o (lat o) * growth (ma_ldf a) i c (lat o) d)%Qc in
    risk_at (mack_std_err r) i c o (ax3 (values t)) ^ 2 =
      ult ^ 2 * rsum_from (lat o) (ax3 (values t)) (fun k =>
        (nzr (sigma_row (ma_sigma a) i c k) ^ 2 / reached k + nzr (ma_se a i c k) ^ 2) / step_factor t (ma_ldf a) i c k ^ 2).
Proof.
  intros IN E i c o Hi Hc Ho FP RK Hp Hf Ht Hw. cbv zeta. set (l := ma_ldf a) in *. set (m := ax3 (values t)) in *.
  pose proof (mk_tail _ _ _ IN) as TL. fold l m in TL. destruct (mk_la _ _ _ IN o Ho) as [La _]. fold m in La.
  destruct (fit_inv _ _ _ _ _ IN E) as [sigma SG]. destruct (mack_cells t a lat sigma IN SG) as (u & x' & r' & E1 & UF & E2 & E3 & _). rewrite E in E3. injection E3 as <- <-. fold l in E1, E2.
  assert (Xc : forall d, (lat o <= d < m)%nat -> amount x i c o d = (amount t i c o (lat o) * growth l i c (lat o) d)%Qc).
  { destruct IN as [MI PF PJ UL LA EH EA _ _ _]. fold l in PF, PJ, EA.
    destruct (full_triangle_cl t l lat MI PF PJ UL LA EH EA) as (u1 & x1 & F1 & F2 & _ & F3).
    assert (u1 = u) as ->.
    { unfold cl_fit in F1. destruct (validate_X t (Some l)) as [l0|]; [|discriminate]. cbn [rbind] in F1. destruct (cl_ultimate t l0) as [u0|] eqn:E0; [|discriminate].
      cbn [rbind] in F1. injection F1 as -> ->. congruence. }
    rewrite E2 in F2. injection F2 as <-. destruct (F3 i c o Hi Hc Ho FP) as (G1 & _ & G2). intros d Hd.
    destruct (Nat.eq_dec d (lat o)) as [->|N].
    - unfold amount at 1. rewrite (stores_nz _ _ (G1 (lat o) ltac:(lia))). unfold growth. rewrite Nat.sub_diag. cbn [prodn]. ring.
    - unfold amount at 1. apply stores_nz. apply G2; auto. lia. }
  destruct (std_err_ok r i c o m) as [-> _].
  destruct (parameter_risk_ok t a lat x r IN E i c o Hi Hc Ho FP) as (_ & _ & P). rewrite (P RK m) by (fold m; lia).
  destruct (process_risk_ok t a lat x r IN E i c o Hi Hc Ho FP) as (_ & _ & Q). rewrite (Q m) by (fold m; lia). fold l.
  rewrite sqrt_sq by (apply Rplus_le_le_0_compat; apply carried_nonneg).
  unfold carried, rsum_from. rewrite <- rsumn_plus, <- rsumn_scale. apply rsumn_ext. intros k0 Hk0. set (k := (lat o + k0)%nat) in *. assert (Hk : (lat o <= k < m)%nat) by (unfold k; lia). clearbody k.
  unfold parameter_step, process_step. rewrite (Xc k Hk). destruct (Hw k Hk) as [-> ->]. cbn [spread].
  set (C := (amount t i c o (lat o) * growth l i c (lat o) k)%Qc).
  assert (PC : 0 < rv C).
  { unfold C. rewrite rv_mult. apply Rmult_lt_0_compat; [rewrite <- rv_0; apply rv_lt; auto|]. apply factor_pos_growth; [|lia]. intros d Hd. apply Hf. lia. }
  destruct (Rlt_dec 0 (rv C)); [|contradiction].
  assert (U : rv (amount t i c o (lat o) * to_ultimate l i c (lat o))%Qc = rv C * (step_factor t l i c k * rprod_from (S k) m (step_factor t l i c))).
  { rewrite rv_mult. rewrite <- (step_ultimate t l i c (lat o)) by (fold m; lia). fold m. rewrite (rprod_from_split (lat o) k m) by lia. rewrite step_growth by (fold m; lia).
    rewrite (rprod_from_rev k m) by lia. unfold C. rewrite rv_mult. ring. }
  rewrite U. assert (NF : step_factor t l i c k <> 0).
  { unfold step_factor. fold m. destruct (Nat.ltb_spec (S k) m).
    - specialize (Hf k ltac:(lia)). apply rv_lt in Hf. rewrite rv_0 in Hf. lra.
    - change (to_ultimate l i c k) with (growth l i c k (ax3 (values l))). pose proof (factor_pos_growth l i c k (ax3 (values l))) as G. enough (0 < rv (growth l i c k (ax3 (values l)))) by lra. apply G; [|lia]. intros d Hd. apply Hf. lia. }
  set (P' := rprod_from (S k) m (step_factor t l i c)). set (F := step_factor t l i c k) in *. set (s := nzr (sigma_row (ma_sigma a) i c k)). set (e := nzr (ma_se a i c k)).
  transitivity (s ^ 2 * (sqrt (rv C) * sqrt (rv C)) * P' ^ 2 + (rv C * e * P') ^ 2); [ring|]. rewrite sqrt_sqrt by lra. field. split; auto. lra.
Qed.

(** ** More volatile factors, more risk *)
Lemma spread_le avg f s s' : 0 <= s <= s' -> spread avg f s ^ 2 <= spread avg f s' ^ 2.
Proof.
  intros [H1 H2]. assert (G : forall x, (s * x) ^ 2 <= (s' * x) ^ 2). { intros x. rewrite !Rpow_mult_distr. apply Rmult_le_compat_r; [apply pow2_ge_0|]. apply pow_incr. lra. }
  destruct avg; cbn [spread].
  - destruct (Req_EM_T f 0); [lra|]. apply pow_incr. lra.
  - destruct (Rlt_dec 0 f); [apply G|lra].
  - apply G.
Qed.
Lemma mack_full_same t a a' lat x r x' r' : mack_input t a lat -> mack_input t a' lat -> ma_ldf a' = ma_ldf a -> mack_fit t a = Ok (x, r) -> mack_fit t a' = Ok (x', r') -> x' = x.
Proof.
  intros IN IN' L E E'. destruct (fit_inv _ _ _ _ _ IN E) as [s SG]. destruct (fit_inv _ _ _ _ _ IN' E') as [s' SG'].
  destruct (mack_cells t a lat s IN SG) as (u & y & q & E1 & _ & E2 & E3 & _). destruct (mack_cells t a' lat s' IN' SG') as (u' & y' & q' & E1' & _ & E2' & E3' & _).
  rewrite E in E3. injection E3 as <- <-. rewrite E' in E3'. injection E3' as <- <-. rewrite L in *. congruence.
Qed.
Lemma process_monotone t a a' lat x r x' r' : mack_input t a lat -> mack_input t a' lat -> ma_ldf a' = ma_ldf a -> ma_average a' = ma_average a -> ma_w a' = ma_w a ->
  mack_fit t a = Ok (x, r) -> mack_fit t a' = Ok (x', r') ->
  forall i c, (i < ax0 (values t))%nat -> (c < ax1 (values t))%nat -> factors_present (ma_ldf a) i c ->
    (forall k, (k < ax3 (values t))%nat -> 0 <= nzr (sigma_row (ma_sigma a) i c k) <= nzr (sigma_row (ma_sigma a') i c k)) ->
    forall o d, (o < ax2 (values t))%nat -> (d <= ax3 (values t))%nat -> risk_at (mr_process r) i c o d <= risk_at (mr_process r') i c o d.
Proof.
  intros IN IN' L A W E E' i c Hi Hc FP Hs o d Ho Hd. assert (x' = x) as -> by exact (mack_full_same t a a' lat x r x' r' IN IN' L E E').
  destruct (process_risk_ok t a lat x r IN E i c o Hi Hc Ho FP) as (P1 & P2 & P3). rewrite <- L in FP. destruct (process_risk_ok t a' lat x r' IN' E' i c o Hi Hc Ho FP) as (Q1 & Q2 & Q3). rewrite L in *.
  destruct (Nat.le_gt_cases d (lat o)) as [K|K]; [rewrite P2, Q2 by auto; lra|]. apply sq_nonneg_le; auto. rewrite P3, Q3 by lia. apply carried_le. intros k Hk.
  unfold process_step, average_at, weight_at. rewrite A, W. rewrite !Rpow_mult_distr. apply Rmult_le_compat_r; [apply pow2_ge_0|]. apply spread_le. apply Hs. lia.
Qed.
Lemma parameter_monotone t a a' lat x r x' r' : mack_input t a lat -> mack_input t a' lat -> ma_ldf a' = ma_ldf a ->
  mack_fit t a = Ok (x, r) -> mack_fit t a' = Ok (x', r') ->
  forall i c, (i < ax0 (values t))%nat -> (c < ax1 (values t))%nat -> factors_present (ma_ldf a) i c -> row_known (ma_se a) i c (ax3 (values t)) -> row_known (ma_se a') i c (ax3 (values t)) ->
    (forall k, (k < ax3 (values t))%nat -> 0 <= nzr (ma_se a i c k) <= nzr (ma_se a' i c k)) ->
    forall o d, (o < ax2 (values t))%nat -> (d <= ax3 (values t))%nat -> risk_at (mr_parameter r) i c o d <= risk_at (mr_parameter r') i c o d.
Proof.
  intros IN IN' L E E' i c Hi Hc FP RK RK' Hs o d Ho Hd. assert (x' = x) as -> by exact (mack_full_same t a a' lat x r x' r' IN IN' L E E').
  destruct (parameter_risk_ok t a lat x r IN E i c o Hi Hc Ho FP) as (P1 & P2 & P3). rewrite <- L in FP. destruct (parameter_risk_ok t a' lat x r' IN' E' i c o Hi Hc Ho FP) as (Q1 & Q2 & Q3). rewrite L in *.
  destruct (Nat.le_gt_cases d (lat o)) as [K|K]; [rewrite P2, Q2 by auto; lra|]. apply sq_nonneg_le; auto. rewrite P3, Q3 by (auto; lia). apply carried_le. intros k Hk.
  unfold parameter_step. rewrite !Rpow_mult_distr. apply Rmult_le_compat_l; [apply pow2_ge_0|]. apply pow_incr. apply Hs. lia.
Qed.

(** ** No uncertainty in the factors, no risk *)
Lemma spread_0 avg f : spread avg f 0 = 0.
Proof. destruct avg; cbn [spread]; [destruct (Req_EM_T f 0)|destruct (Rlt_dec 0 f)|]; ring. Qed.
Lemma no_risk t a lat x r : mack_input t a lat -> mack_fit t a = Ok (x, r) ->
  forall i c, (i < ax0 (values t))%nat -> (c < ax1 (values t))%nat -> factors_present (ma_ldf a) i c ->
    (forall k, (k < ax3 (values t))%nat -> nzr (sigma_row (ma_sigma a) i c k) = 0 /\ ma_se a i c k = Some 0) ->
    forall o d, (o < ax2 (values t))%nat -> (d <= ax3 (values t))%nat -> risk_at (mack_std_err r) i c o d = 0.
Proof.
  intros IN E i c Hi Hc FP Hs o d Ho Hd. destruct (std_err_ok r i c o d) as [-> _].
  destruct (parameter_risk_ok t a lat x r IN E i c o Hi Hc Ho FP) as (_ & P2 & P3). destruct (process_risk_ok t a lat x r IN E i c o Hi Hc Ho FP) as (_ & Q2 & Q3).
  destruct (Nat.le_gt_cases d (lat o)) as [K|K].
  - rewrite P2, Q2 by auto. rewrite <- sqrt_0 at 3. f_equal. ring.
  - rewrite P3, Q3 by (try lia; intros k Hk; exists 0; apply Hs; auto). rewrite !carried_zero; [rewrite Rplus_0_l; apply sqrt_0| |].
    + intros k Hk. unfold process_step. rewrite (proj1 (Hs k ltac:(lia))), spread_0. ring.
    + intros k Hk. unfold parameter_step. rewrite (proj2 (Hs k ltac:(lia))). cbn [nzr]. ring.
Qed.

(** ** Standard errors of a volume-weighted development *)
Lemma rsqrt_sq v : 0 <= v -> exists s, rsqrt (Some v) = Some s /\ 0 <= s /\ s ^ 2 = v.
Proof. intros H. exists (sqrt v). unfold rsqrt. destruct (Rlt_dec v 0); [lra|]. split; [reflexivity|]. split; [apply sqrt_pos|apply sqrt_sq; auto]. Qed.
Lemma sum_over_nonneg n sel f : (forall o, (o < n)%nat -> sel o = true -> 0 <= f o)%Qc -> (0 <= sum_over n sel f)%Qc.
Proof.
  intros H. rewrite <- (Qcmult_0_l (sum_over n sel f)), <- sum_over_scal. apply sum_over_le. intros o Ho Es. rewrite Qcmult_0_l. auto.
Qed.
Lemma loglinear_known n y k s : y k = Some s -> nzr (loglinear n y k) = s.
Proof.
  intros E. unfold loglinear. rewrite nzr_rn2n. cbn [nzr]. rewrite E. cbn [option_map present nzr].
  destruct (option_map exp _) as [v|]; cbn [rmul nzr]; ring.
Qed.
Lemma mack_fill_known y k s : y k = Some s -> s <> 0 -> nzr (mack_fill y k) = s.
Proof.
  intros E N. unfold mack_fill. rewrite nzr_rn2n. cbn [nzr]. rewrite E. cbn [option_map present nzr]. unfold no_zero. destruct (Req_EM_T s 0); [contradiction|]. ring.
Qed.
Lemma dev_errors p how t r : wf t -> blank_future t -> is_pattern t = false -> (2 <= ax3 (values t))%nat -> oldest_complete t -> fittable p t ->
  dev_fit p t = Ok r -> forall i c d a n f, (i < ax0 (values t))%nat -> (c < ax1 (values t))%nat -> (S d < ax3 (values t))%nat ->
    param_at t (p_average p) d = Some a -> param_at t (p_n_periods p) d = Some n -> cel (f_ldf r) i c 0 d = Some f ->
    (forall o, (o < ax2 (values t))%nat -> selected p t n i c d o = true -> 0 < amount t i c o d)%Qc ->
    (a = Regression -> forall o, (o < ax2 (values t))%nat -> amount t i c o d = 0%Qc -> amount t i c o (S d) = 0%Qc) ->
    (1 < sum_over (ax2 (values t)) (selected p t n i c d) (fun _ => 1))%Qc ->
    exists s e, 0 <= s /\ 0 <= e /\
      s ^ 2 * (rv (sum_over (ax2 (values t)) (selected p t n i c d) (fun _ => 1)%Qc) - 1) = rv (mse_num a t (selected p t n i c d) i c d f) /\
      e ^ 2 * rv (avg_den a (ax2 (values t)) (selected p t n i c d) (fun o => amount t i c o d)) = s ^ 2 /\
      dev_std_err p how t r i c d = Some e /\ (s <> 0 -> dev_sigma p how t r i c d = Some s) /\ (how = LogLinear -> nzr (dev_sigma p how t r i c d) = s).
Proof.
  intros W B Hp Hn Oc F E i c d a n f Hi Hc Hd Ha Hnp Hf Hx Hr Hcount.
  destruct (mse_ok p t r W B Hp Hn Oc F E i c d a n f Hi Hc Hd Ha Hnp Hf Hx Hr) as [M D].
  set (N := sum_over (ax2 (values t)) (selected p t n i c d) (fun _ => 1)%Qc) in *.
  set (q := mse_num a t (selected p t n i c d) i c d f) in *. set (dn := avg_den a (ax2 (values t)) (selected p t n i c d) (fun o => amount t i c o d)) in *.
  assert (P1 : (0 < N - 1)%Qc) by qlra.
  assert (P2 : (0 <= q)%Qc).
  { unfold q, mse_num. apply sum_over_nonneg. intros o Ho Es. set (z := (amount t i c o (S d) - f * amount t i c o d)%Qc).
    unfold Qcdiv. rewrite <- (Qcmult_0_l 0). pose proof (Qcinv_pos _ (avg_pow_pos a _ (Hx o Ho Es))) as PP. set (v := (/ avg_pow a (amount t i c o d))%Qc) in *. clearbody v z.
    apply Qclt_le_weak in PP. assert (Z2 : (0 <= z * z)%Qc) by qnra. clear - PP Z2. rewrite (Qcmult_0_l 0). set (u := (z * z)%Qc) in *. clearbody u. qnra. }
  assert (Ex : exists o, (o < ax2 (values t))%nat /\ selected p t n i c d o = true).
  { assert (G : forall k (g : nat -> bool), (0 < sumn k (fun o => if g o then 1 else 0))%Qc -> exists o, (o < k)%nat /\ g o = true).
    { induction k as [|k IH]; intros g Hg; [discriminate|]. change (0 < sumn k (fun o => if g o then 1 else 0) + (if g k then 1 else 0))%Qc in Hg. destruct (g k) eqn:Eg; [exists k; auto|].
      destruct (IH g) as (o & Ho & Go); [rewrite Qcplus_0_r in Hg; exact Hg|]. exists o. auto. }
    apply G. change (0 < N)%Qc. qlra. }
  assert (P3 : (0 < dn)%Qc).
  { unfold dn. rewrite avg_den_weight. apply sum_over_pos; auto. intros o Ho Es. apply avg_weight_pos. auto. }
  assert (N1 : (N - 1)%Qc <> 0%Qc) by (intros Z; rewrite Z in P1; discriminate). assert (N3 : dn <> 0%Qc) by (intros Z; rewrite Z in P3; discriminate).
  rewrite (n2n_Some (N - 1)%Qc), cdiv_Some in M by auto. rewrite n2n_Some in D by auto.
  assert (R1 : 0 < rv (N - 1)%Qc) by (rewrite <- rv_0; apply rv_lt; auto). assert (R2 : 0 <= rv q) by (rewrite <- rv_0; apply rv_le; auto). assert (R3 : 0 < rv dn) by (rewrite <- rv_0; apply rv_lt; auto).
  assert (Eq : rv (q / (N - 1))%Qc = rv q / rv (N - 1)%Qc) by (unfold Qcdiv, Rdiv; rewrite rv_mult, rv_inv by auto; reflexivity).
  assert (R4 : 0 <= rv (q / (N - 1))%Qc) by (rewrite Eq; apply Rmult_le_pos; auto; left; apply Rinv_0_lt_compat; auto).
  assert (R5 : 0 <= rv (q / (N - 1))%Qc / rv dn) by (apply Rmult_le_pos; auto; left; apply Rinv_0_lt_compat; auto).
  destruct (rsqrt_sq _ R4) as (s & Es & Ps & Qs). destruct (rsqrt_sq _ R5) as (e & Ee & Pe & Qe).
  assert (SR : sigma_raw (f_reg r) i c d = Some s) by (unfold sigma_raw; rewrite M; exact Es).
  assert (SE : se_raw (f_reg r) i c d = Some e).
  { unfold se_raw. rewrite M, D. cbn [r_of option_map rdiv]. destruct (Req_EM_T (rv dn) 0); [lra|]. exact Ee. }
  exists s, e. split; [exact Ps|]. split; [exact Pe|]. split; [|split; [|split; [|split]]].
  - rewrite Qs, Eq, rv_minus, rv_1. rewrite rv_minus, rv_1 in R1. field. lra.
  - rewrite Qe, Qs. field. lra.
  - unfold dev_std_err. rewrite SE. reflexivity.
  - intros NZ. assert (G : nzr (dev_sigma p how t r i c d) = s).
    { unfold dev_sigma. assert (H1 := loglinear_known (ax3 (values t) - 1) (sigma_raw (f_reg r) i c) d s SR). assert (H2 := mack_fill_known (sigma_raw (f_reg r) i c) d s SR NZ).
      destruct (p_n_periods p) as [[|[| |]|]| |]; destruct how; auto; rewrite SR; reflexivity. }
    destruct (dev_sigma p how t r i c d); cbn [nzr] in G; congruence.
  - intros ->. unfold dev_sigma. assert (H1 := loglinear_known (ax3 (values t) - 1) (sigma_raw (f_reg r) i c) d s SR).
    destruct (p_n_periods p) as [[|[| |]|]| |]; auto; rewrite SR; reflexivity.
Qed.

(** ** Totals *)
Lemma mack_refuses t a lat : mack_input t a lat -> ma_sigma a = None -> mack_fit t a = Err ValueError.
Proof.
  intros IN SG. destruct (cl_ultimate_ok t (ma_ldf a) (mk_mi _ _ _ IN) (mk_pf _ _ _ IN)) as (u & Eu & _). unfold mack_fit. rewrite Eu. cbn [rbind]. rewrite SG. reflexivity.
Qed.
Lemma totals_ok t a lat x r : mack_input t a lat -> mack_fit t a = Ok (x, r) -> forall i c,
  (forall o d, risk_at (total_process_risk r) i c o d = sqrt (rsumn (ax2 (values t)) (fun o => risk_at (mr_process r) i c o d ^ 2))) /\
  nzr (total_mack_std_err r i c) = sqrt (risk_at (total_process_risk r) i c 0 (ax3 (values t)) ^ 2 + risk_at (mr_total_parameter r) i c 0 (ax3 (values t)) ^ 2).
Proof.
  intros IN E i c. destruct (fit_inv _ _ _ _ _ IN E) as [sigma SG].
  destruct (mack_accepts t a lat sigma IN SG) as (u & x' & r' & E1 & E2 & E3 & _ & L2 & _). rewrite E in E3. injection E3 as <- <-.
  split.
  - intros o d. rewrite total_process_ok, (rl_2 _ _ _ L2). rewrite <- (wf_o _ (mi_wf _ (mk_mi _ _ _ IN))). reflexivity.
  - rewrite total_std_err_ok, (rl_3 _ _ _ L2). cbv zeta. replace (S (ax3 (values t)) - 1)%nat with (ax3 (values t)) by lia. reflexivity.
Qed.
Lemma risks_monotone t a a' lat x r x' r' : mack_input t a lat -> mack_input t a' lat -> ma_ldf a' = ma_ldf a -> ma_average a' = ma_average a -> ma_w a' = ma_w a ->
  mack_fit t a = Ok (x, r) -> mack_fit t a' = Ok (x', r') ->
  forall i c, (i < ax0 (values t))%nat -> (c < ax1 (values t))%nat -> factors_present (ma_ldf a) i c -> row_known (ma_se a) i c (ax3 (values t)) -> row_known (ma_se a') i c (ax3 (values t)) ->
    (forall k, (k < ax3 (values t))%nat -> 0 <= nzr (sigma_row (ma_sigma a) i c k) <= nzr (sigma_row (ma_sigma a') i c k)) ->
    (forall k, (k < ax3 (values t))%nat -> 0 <= nzr (ma_se a i c k) <= nzr (ma_se a' i c k)) ->
    forall o d, (o < ax2 (values t))%nat -> (d <= ax3 (values t))%nat ->
      risk_at (mr_process r) i c o d <= risk_at (mr_process r') i c o d /\ risk_at (mr_parameter r) i c o d <= risk_at (mr_parameter r') i c o d /\
      risk_at (mack_std_err r) i c o d <= risk_at (mack_std_err r') i c o d.
Proof.
  intros IN IN' L A W E E' i c Hi Hc FP RK RK' Hs He o d Ho Hd.
  pose proof (process_monotone t a a' lat x r x' r' IN IN' L A W E E' i c Hi Hc FP Hs o d Ho Hd) as M1.
  pose proof (parameter_monotone t a a' lat x r x' r' IN IN' L E E' i c Hi Hc FP RK RK' He o d Ho Hd) as M2.
  split; [exact M1|]. split; [exact M2|]. rewrite (proj1 (std_err_ok r i c o d)), (proj1 (std_err_ok r' i c o d)).
  destruct (process_risk_ok t a lat x r IN E i c o Hi Hc Ho FP) as (P1 & _). destruct (parameter_risk_ok t a lat x r IN E i c o Hi Hc Ho FP) as (Q1 & _).
  apply sqrt_le_1_alt. apply Rplus_le_compat; apply pow_incr; split; auto.
Qed.

Lemma sq_lt x z : 0 <= x -> x < z -> x ^ 2 < z ^ 2.
Proof. intros H1 H2. nra. Qed.
Lemma cauchy n u v : rsumn n (fun k => u k * v k) ^ 2 <= rsumn n (fun k => u k ^ 2) * rsumn n (fun k => v k ^ 2).
Proof.
  induction n as [|n IH]; cbn [rsumn]; [lra|].
  assert (PA : 0 <= rsumn n (fun k => u k ^ 2)) by (apply rsumn_nonneg; intros; apply pow2_ge_0). assert (PB : 0 <= rsumn n (fun k => v k ^ 2)) by (apply rsumn_nonneg; intros; apply pow2_ge_0).
  set (A := rsumn n (fun k => u k ^ 2)) in *. set (B := rsumn n (fun k => v k ^ 2)) in *. set (P := rsumn n (fun k => u k * v k)) in *. set (x := u n). set (z := v n). clearbody A B P x z.
  assert (K : 2 * P * (x * z) <= A * z ^ 2 + B * x ^ 2).
  { apply Rnot_lt_le. intros N. assert (Q : 0 <= A * z ^ 2 + B * x ^ 2) by (apply Rplus_le_le_0_compat; apply Rmult_le_pos; auto; apply pow2_ge_0).
    assert (H1 : (A * z ^ 2 + B * x ^ 2) ^ 2 < (2 * P * (x * z)) ^ 2) by (apply sq_lt; auto).
    assert (H2 : 4 * (A * B) * (x ^ 2 * z ^ 2) <= (A * z ^ 2 + B * x ^ 2) ^ 2) by (pose proof (pow2_ge_0 (A * z ^ 2 - B * x ^ 2)); nra).
    assert (H3 : 4 * P ^ 2 * (x ^ 2 * z ^ 2) <= 4 * (A * B) * (x ^ 2 * z ^ 2)).
    { apply Rmult_le_compat_r; [apply Rmult_le_pos; apply pow2_ge_0|]. lra. }
    replace ((2 * P * (x * z)) ^ 2) with (4 * P ^ 2 * (x ^ 2 * z ^ 2)) in H1 by ring. lra. }
  nra.
Qed.
Lemma minkowski n u v : sqrt (rsumn n (fun k => (u k + v k) ^ 2)) <= sqrt (rsumn n (fun k => u k ^ 2)) + sqrt (rsumn n (fun k => v k ^ 2)).
Proof.
  assert (PA : 0 <= rsumn n (fun k => u k ^ 2)) by (apply rsumn_nonneg; intros; apply pow2_ge_0). assert (PB : 0 <= rsumn n (fun k => v k ^ 2)) by (apply rsumn_nonneg; intros; apply pow2_ge_0).
  pose proof (cauchy n u v) as C.
  apply sq_nonneg_le; [apply sqrt_pos|apply Rplus_le_le_0_compat; apply sqrt_pos|]. rewrite sqrt_sq by (apply rsumn_nonneg; intros; apply pow2_ge_0).
  assert (Ex : rsumn n (fun k => (u k + v k) ^ 2) = rsumn n (fun k => u k ^ 2) + 2 * rsumn n (fun k => u k * v k) + rsumn n (fun k => v k ^ 2)).
  { rewrite <- rsumn_scale, <- !rsumn_plus. apply rsumn_ext. intros. ring. }
  rewrite Ex. set (A := rsumn n (fun k => u k ^ 2)) in *. set (B := rsumn n (fun k => v k ^ 2)) in *. set (P := rsumn n (fun k => u k * v k)) in *. clearbody A B P.
  replace ((sqrt A + sqrt B) ^ 2) with (sqrt A ^ 2 + 2 * (sqrt A * sqrt B) + sqrt B ^ 2) by ring. rewrite !sqrt_sq by auto.
  assert (P <= sqrt A * sqrt B); [|lra]. rewrite <- sqrt_mult by auto.
  apply Rle_trans with (Rabs P); [apply RRle_abs|]. rewrite <- sqrt_Rsqr_abs. apply sqrt_le_1_alt. rewrite Rsqr_pow2. exact C.
Qed.
Lemma minkowski_sum n m (v : nat -> nat -> R) : sqrt (rsumn n (fun k => rsumn m (fun o => v o k) ^ 2)) <= rsumn m (fun o => sqrt (rsumn n (fun k => v o k ^ 2))).
Proof.
  induction m as [|m IH].
  - cbn [rsumn]. rewrite (rsumn_zero n); [rewrite sqrt_0; lra|]. intros. ring.
  - cbn [rsumn]. eapply Rle_trans; [apply (minkowski n (fun k => rsumn m (fun o => v o k)) (v m))|]. lra.
Qed.
Lemma sum_sq_le m v : (forall o p, (o < m)%nat -> (p < m)%nat -> 0 <= v o * v p) -> rsumn m (fun o => v o ^ 2) <= rsumn m v ^ 2.
Proof.
  induction m as [|m IH]; intros H; cbn [rsumn]; [lra|]. assert (I : rsumn m (fun o => v o ^ 2) <= rsumn m v ^ 2) by (apply IH; auto).
  assert (0 <= rsumn m v * v m). { rewrite <- rsumn_scale_r. apply rsumn_nonneg. intros. apply H; lia. }
  nra.
Qed.
Lemma total_bounds t a lat x r : mack_input t a lat -> mack_fit t a = Ok (x, r) ->
  forall i c, (i < ax0 (values t))%nat -> (c < ax1 (values t))%nat -> factors_present (ma_ldf a) i c -> row_known (ma_se a) i c (ax3 (values t)) ->
    (forall o d, (o < ax2 (values t))%nat -> (lat o <= d < ax3 (values t))%nat -> 0 <= amount x i c o d)%Qc ->
    let total := risk_at (mr_total_parameter r) i c 0 (ax3 (values t)) in
    rsumn (ax2 (values t)) (fun o => risk_at (mr_parameter r) i c o (ax3 (values t)) ^ 2) <= total ^ 2 /\
    total <= rsumn (ax2 (values t)) (fun o => risk_at (mr_parameter r) i c o (ax3 (values t))).
Proof.
  intros IN E i c Hi Hc FP RK Hx. cbv zeta. set (m := ax3 (values t)) in *. set (n := ax2 (values t)) in *. set (f := step_factor t (ma_ldf a) i c).
  destruct (total_parameter_ok t a lat x r IN E i c Hi Hc FP RK m ltac:(fold m; lia)) as [T0 T2]. fold f in T2.
  set (v o k := (if (lat o <=? k)%nat then parameter_step a x i c o k else 0) * rprod_from (S k) m f).
  assert (Pr : forall o, (o < n)%nat -> risk_at (mr_parameter r) i c o m ^ 2 = rsumn m (fun k => v o k ^ 2)).
  { intros o Ho. destruct (parameter_risk_ok t a lat x r IN E i c o Hi Hc Ho FP) as (_ & _ & P). destruct (mk_la _ _ _ IN o Ho) as [La _]. fold m in La, P. rewrite P by (auto; lia). fold f.
    transitivity (carried f (fun k => if (lat o <=? k)%nat then parameter_step a x i c o k else 0) 0 m).
    - rewrite (carried_skip f _ 0 (lat o) m); [|lia|].
      + apply carried_ext. intros k Hk. destruct (Nat.leb_spec (lat o) k); [auto|lia].
      + intros k Hk. destruct (Nat.leb_spec (lat o) k); [lia|reflexivity].
    - unfold carried, rsum_from. rewrite Nat.sub_0_r. apply rsumn_ext. intros k Hk. reflexivity. }
  assert (Tv : risk_at (mr_total_parameter r) i c 0 m ^ 2 = rsumn m (fun k => rsumn n (fun o => v o k) ^ 2)).
  { rewrite T2. unfold carried, rsum_from. rewrite Nat.sub_0_r. apply rsumn_ext. intros k Hk. cbn [Nat.add]. f_equal. unfold total_step, v. fold n. rewrite rsumn_scale_r, <- rsumn_scale_r. f_equal.
    apply rsumn_ext. intros o Ho. unfold parameter_step. destruct (lat o <=? k)%nat; ring. }
  assert (Sw : forall g : nat -> nat -> R, rsumn n (fun o => rsumn m (fun k => g o k)) = rsumn m (fun k => rsumn n (fun o => g o k))).
  { intros g. generalize n as n'. induction n' as [|n' IH]; cbn [rsumn]; [symmetry; apply rsumn_zero; auto|]. rewrite IH, <- rsumn_plus. reflexivity. }
  split.
  - rewrite (rsumn_ext n _ _ Pr), Tv, Sw. apply rsumn_le. intros k Hk. apply sum_sq_le. intros o p Ho Hp. unfold v.
    destruct (Nat.leb_spec (lat o) k) as [K1|K1]; [|apply Req_le; ring]. destruct (Nat.leb_spec (lat p) k) as [K2|K2]; [|apply Req_le; ring].
    unfold parameter_step. assert (0 <= rv (amount x i c o k)) by (rewrite <- rv_0; apply rv_le; apply Hx; auto; lia). assert (0 <= rv (amount x i c p k)) by (rewrite <- rv_0; apply rv_le; apply Hx; auto; lia).
    replace (rv (amount x i c o k) * nzr (ma_se a i c k) * rprod_from (S k) m f * (rv (amount x i c p k) * nzr (ma_se a i c k) * rprod_from (S k) m f))
      with (rv (amount x i c o k) * rv (amount x i c p k) * (nzr (ma_se a i c k) * rprod_from (S k) m f) ^ 2) by ring.
    apply Rmult_le_pos; [apply Rmult_le_pos; auto|apply pow2_ge_0].
  - assert (Rt : forall z q, 0 <= z -> z ^ 2 = q -> z = sqrt q) by (intros z q Hz <-; symmetry; apply sqrt_pow2; auto).
    rewrite (Rt _ _ T0 Tv). eapply Rle_trans; [apply minkowski_sum|]. apply Req_le. apply rsumn_ext. intros o Ho. symmetry. apply Rt; [|apply Pr; auto].
    apply (parameter_risk_ok t a lat x r IN E i c o Hi Hc Ho FP).
Qed.

(** ** A tail without growing factors *)
Lemma rsumn_0 n : rsumn n (fun _ => 0) = 0.
Proof. apply rsumn_zero. auto. Qed.
Lemma ols_empty n w y : (forall k, (k < n)%nat -> y k = None) -> snd (ols n w y) = None.
Proof.
  intros H. unfold ols. cbn [snd].
  set (h := fun k => if Req_EM_T (w k) 0 then None else y k).
  assert (Hh : forall k, (k < n)%nat -> h k = None) by (intros k Hk; unfold h; destruct (Req_EM_T (w k) 0); auto).
  assert (M : rnanmean n h = None).
  { unfold rnanmean, rnansum, rcount. rewrite (rsumn_ext n (fun k => match h k with Some _ => 1 | None => 0 end) (fun _ => 0)) by (intros k Hk; rewrite Hh by auto; reflexivity).
    rewrite rsumn_0. cbn [rdiv]. destruct (Req_EM_T 0 0); [reflexivity|lra]. }
  rewrite M. reflexivity.
Qed.
Lemma tail_time_none l0 l k i c : (forall d q, (d < ax3 (values l0))%nat -> cel l0 i c 0 d = Some q -> (q <= 1)%Qc) -> tail_time l0 l k i c = None.
Proof.
  intros H. unfold tail_time.
  rewrite ols_empty.
  - set (p := rlog _). set (q := fst _). destruct p, q; reflexivity.
  - intros d Hd. specialize (H d). destruct (cel l0 i c 0 d) as [q|]; cbn [r_of option_map]; [|reflexivity].
    destruct (Rle_dec (rv q) 1) as [|N]; [reflexivity|]. destruct N. rewrite <- rv_1. apply rv_le. auto.
Qed.
Lemma tail_std_err_none t l0 l years s i c : (forall d q, (d < ax3 (values l0))%nat -> cel l0 i c 0 d = Some q -> (q <= 1)%Qc) ->
  tail_std_err t l0 l years s i c (ax3 (values t) - 1)%nat = None.
Proof.
  intros H. unfold tail_std_err, tail_stat. rewrite Nat.ltb_irrefl. rewrite tail_time_none by auto.
  destruct (no_tail _ _); unfold line; cbn [rmul radd option_map]; reflexivity.
Qed.
Lemma tail_std_err_kept t l0 l years s i c d : (d < ax3 (values t) - 1)%nat -> tail_std_err t l0 l years s i c d = s i c d.
Proof.
  intros H. unfold tail_std_err, tail_stat, tail_row. apply Nat.ltb_lt in H. rewrite H. reflexivity.
Qed.
Lemma mack_weights_refused t a lat sigma : method_input t -> pattern_for t (ma_ldf a) -> projectable t (ma_ldf a) -> uniq_labels t -> latest_ages t lat -> enough_history t lat -> even_ages t (ma_ldf a) ->
  ma_sigma a = Some sigma -> ax0 (ma_w a) <> 1%nat \/ ax1 (ma_w a) <> 1%nat -> mack_fit t a = Err ValueError.
Proof.
  intros MI PF PJ UL LA EH EA SG Hw. destruct (cl_ultimate_ok t (ma_ldf a) MI PF) as (u & Eu & UF & _).
  destruct (full_triangle_ok t (ma_ldf a) u lat ltac:(constructor; auto)) as (x & Ex & _).
  unfold mack_fit. rewrite Eu. cbn [rbind]. rewrite SG, Ex. cbn [rbind]. unfold full_std_err.
  destruct (Nat.eqb_spec (ax0 (ma_w a)) 1); destruct (Nat.eqb_spec (ax1 (ma_w a)) 1); cbn [andb rbind]; try reflexivity. intuition congruence.
Qed.
