(** Weights of the ratios of outstanding amounts. *)
From Coq Require Import Lia.
From Verif Require Import P_Corr5.
From Verif Require Export P_Out2.
Local Open Scope nat_scope.

Section Out.
Variables (t : tri) (n h : nat) (o0 a0 : Z).
Hypotheses (W : wf t) (B : blank_future t) (Q : square t n o0 a0 h) (Hn : 3 <= n) (H0 : 1 <= ax0 (values t)).
Hypotheses (H1 : 1 <= ax1 (values t)) (Fp : is_pattern t = false) (Gd : grain_months (dgrain t) = Z.of_nat h) (Go : grain_months (ograin t) = Z.of_nat h).

Definition total (o d : nat) : Qc := sumn (ax1 (values t)) (fun c => sumn (ax0 (values t)) (fun i => amount t i c o d)).
Hypothesis (T : forall o d, o + d < n -> total o d <> 0%Qc).
Definition in_last (N : Z) (o d : nat) : bool := (N <? 1)%Z || (Z.of_nat n - 1 <=? N)%Z || (Z.of_nat (n - 1 - (o + d)) <=? N)%Z.

Definition summed : tri := agg_axis ASum (agg_axis ASum t AxIndex) AxColumn.
Lemma red_sum : reducing ASum.
Proof. split; discriminate. Qed.
Lemma summed_total o d : amount summed 0 0 o d = total o d.
Proof using.
  unfold summed. rewrite agg_sum_amount. change (axis_length (agg_axis ASum t AxIndex) AxColumn) with (ax1 (values (agg_axis ASum t AxIndex))).
  rewrite (af_1 _ _ _ (agg_frame_ok ASum t AxIndex)). unfold total. apply sumn_ext. intros c Hc. change (nz (along _ AxColumn 0 0 o d c)) with (amount (agg_axis ASum t AxIndex) 0 c o d).
  rewrite agg_sum_amount. reflexivity.
Qed.
Lemma summed_shape : ax0 (values summed) = 1 /\ ax1 (values summed) = 1 /\ ax2 (values summed) = n /\ ax3 (values summed) = n.
Proof using Q.
  pose proof Q as (_ & E2 & E3). unfold summed. pose proof (agg_frame_ok ASum t AxIndex) as F. pose proof (agg_frame_ok ASum (agg_axis ASum t AxIndex) AxColumn) as G.
  rewrite (af_0 _ _ _ G), (af_1 _ _ _ G), (af_2 _ _ _ G), (af_3 _ _ _ G), (af_0 _ _ _ F), (af_2 _ _ _ F), (af_3 _ _ _ F). auto.
Qed.
Lemma summed_labels : odims summed = odims t /\ ddims summed = ddims t /\ vdate summed = vdate t /\ is_pattern summed = false /\ ograin summed = ograin t /\ dgrain summed = dgrain t /\
  List.length (kdims summed) = 1 /\ List.length (vdims summed) = 1.
Proof using All.
  unfold summed. pose proof (agg_frame_ok ASum t AxIndex) as F. pose proof (agg_frame_ok ASum (agg_axis ASum t AxIndex) AxColumn) as G.
  pose proof (wf_k _ W) as Wk. pose proof (wf_v _ W) as Wv.
  rewrite (af_o _ _ _ G), (af_d _ _ _ G), (af_vd _ _ _ G), (af_pat _ _ _ G), (af_og _ _ _ G), (af_dg _ _ _ G), (af_k _ _ _ G), (af_v _ _ _ G).
  rewrite (af_o _ _ _ F), (af_d _ _ _ F), (af_vd _ _ _ F), (af_pat _ _ _ F), (af_og _ _ _ F), (af_dg _ _ _ F), (af_k _ _ _ F), (af_v _ _ _ F).
  do 6 (split; [auto|]). destruct (Nat.ltb_spec 1 (List.length (kdims t))), (Nat.ltb_spec 1 (List.length (vdims t))); cbn; split; auto; lia.
Qed.
Lemma summed_wf : wf summed.
Proof using All.
  destruct summed_shape as (S0 & S1 & S2 & S3). destruct summed_labels as (L1 & L2 & L3 & _ & _ & _ & L7 & L8). pose proof Q as (_ & E2 & E3).
  pose proof (wf_dev _ W) as Wd. constructor; rewrite ?S0, ?S1, ?S2, ?S3, ?L1, ?L2, ?L3; auto; try lia; try apply W.
  - rewrite <- (wf_o _ W). auto.
  - rewrite <- (wf_d _ W). auto.
Qed.
Lemma summed_square : square summed n o0 a0 h.
Proof using All.
  destruct summed_shape as (S0 & S1 & S2 & S3). destruct summed_labels as (L1 & L2 & L3 & _). pose proof Q as (R & E2 & E3).
  split; [|auto]. unfold regular in *. rewrite L1, L2, L3, S2, S3. rewrite E2, E3 in R. exact R.
Qed.

Lemma win_eq N o d : o + d + 1 < n -> in_window summed N o d = in_last N o d.
Proof using All.
  intros Hod. destruct summed_shape as (S0 & S1 & S2 & S3). destruct summed_labels as (L1 & L2 & L3 & _ & L5 & _).
  unfold in_window, in_last. rewrite S2, (square_month _ _ _ _ _ _ _ summed_square) by lia. rewrite L3, (square_vdate _ _ _ _ _ Q), L5, Go. f_equal.
  assert (1 <= h) by apply Q. apply Bool.eq_iff_eq_true. rewrite !Z.leb_le. replace (Z.of_nat (n - 1 - (o + d))) with (Z.of_nat n - 1 - Z.of_nat (o + d))%Z by lia. replace (Z.of_nat (n - 1)) with (Z.of_nat n - 1)%Z by lia.
  split; intros; nia.
Qed.
Lemma weights_ok N : exists w, os_weights N t = Ok w /\ dims w 1 1 n (n - 1) /\
  forall o d, o + d + 1 < n -> if in_last N o d then av w 0 0 o d = Some 1%Qc else av w 0 0 o d = None \/ av w 0 0 o d = Some 0%Qc.
Proof using All.
  destruct summed_shape as (S0 & S1 & S2 & S3). destruct summed_labels as (L1 & L2 & L3 & L4 & L5 & L6 & L7 & L8). pose proof Q as (R & E2 & E3).
  pose proof red_sum as RS.
  assert (F : fittable (os_params N) summed).
  { constructor; try (intros; discriminate); try exact I; try reflexivity; try (intros d Hd; discriminate).
    - intros d k Hd _. right. exists o0, a0, h, 1, 0. split; [apply summed_square|]. split; [lia|]. rewrite L5, L6, Gd, Go. split; [auto|f_equal; lia].
    - intros [E|E]; cbn in E; congruence. }
  assert (Bs : blank_future summed). { unfold summed. apply agg_blank; auto; [discriminate|]. apply agg_blank; auto. discriminate. }
  assert (Oc : oldest_complete summed).
  { unfold oldest_complete. rewrite S3, (square_month _ _ _ _ _ _ _ summed_square) by lia. rewrite L3, (square_vdate _ _ _ _ _ Q). cbn. lia. }
  destruct (dev_fit_ok (os_params N) summed summed_wf Bs L4 ltac:(lia) Oc F) as (r & E & _ & U).
  destruct (dev_fit_inv (os_params N) summed r summed_wf ltac:(lia) (fp_avg _ _ F) (fp_np _ _ F) (fp_fit _ _ F) (fp_fill _ _ F) E) as (lr & w1 & w2 & FF).
  exists (f_w r). split.
  - unfold os_weights. rewrite aggregate_no_number by (auto; cbn; lia). cbn [rbind agg_again].
    rewrite aggregate_no_number; [cbn [rbind agg_tri]|auto|]. 2:{ rewrite (af_2 _ _ _ (agg_frame_ok ASum t AxIndex)). lia. }
    change (agg_axis ASum (agg_axis ASum t AxIndex) AxColumn) with summed. rewrite E. reflexivity.
  - pose proof (ff_d _ _ _ _ _ _ FF) as D. rewrite S0, S1, S2, S3 in D. split; auto.
    intros o d Hod. specialize (U 0 0 o d N ltac:(unfold in_range; lia) ltac:(lia) eq_refl).
    pose proof (ff_01 _ _ _ _ _ _ FF 0 0 o d ltac:(unfold in_range; lia) ltac:(lia)) as K.
    assert (HR : has_ratio summed 0 0 d o = true). { unfold has_ratio. rewrite !summed_total, !Qc_eqb_ne by (apply T; lia). reflexivity. }
    unfold selected in U. rewrite inactive_high_low in U by reflexivity. unfold listed, val_listed, survives_above_below in U. cbn [os_params p_drop p_drop_val p_high p_low limits_given p_above p_below negb orb] in U.
    unfold used in U. unfold has_ratio in HR. apply andb_true_iff in HR. destruct HR as [HR1 HR2]. rewrite HR1, HR2, !andb_true_r in U.
    rewrite (win_eq N o d Hod) in U.
    assert (U' : pos_weight (av (f_w r) 0 0 o d) = in_last N o d).
    { rewrite U. unfold has_ratio. rewrite HR1, HR2. cbn. rewrite ?andb_true_r. reflexivity. }
    destruct (in_last N o d), K as [K|[K|K]]; rewrite K in *; auto; discriminate.
Qed.
End Out.
