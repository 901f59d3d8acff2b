(** Consequences of the closed form of a fit: C26-C30 and n_periods. *)
From Coq Require Import Lia Field Permutation.
From Verif Require Export DevFit.
Local Open Scope Z_scope.

(** ** Averages *)
Lemma sum_over_ext n sel f g : (forall o, (o < n)%nat -> sel o = true -> f o = g o) -> sum_over n sel f = sum_over n sel g.
Proof. intros H. apply sumn_ext. intros o Ho. destruct (sel o) eqn:E; auto. Qed.
Lemma sum_over_scal n sel k f : sum_over n sel (fun o => k * f o)%Qc = (k * sum_over n sel f)%Qc.
Proof. unfold sum_over. rewrite <- sumn_scal. apply sumn_ext. intros o Ho. destruct (sel o); ring. Qed.
Lemma sum_over_le n sel f g : (forall o, (o < n)%nat -> sel o = true -> f o <= g o)%Qc -> (sum_over n sel f <= sum_over n sel g)%Qc.
Proof. intros H. apply sumn_le. intros o Ho. destruct (sel o) eqn:E; [auto|apply Qcle_refl]. Qed.
Lemma sum_over_pos n sel f : (forall o, (o < n)%nat -> sel o = true -> 0 < f o)%Qc -> (exists o, (o < n)%nat /\ sel o = true) -> (0 < sum_over n sel f)%Qc.
Proof.
  intros H (o & Ho & Es). unfold sum_over. apply (sumn_pos n _ o Ho).
  - rewrite Es. auto.
  - intros k Hk. destruct (sel k) eqn:E; [apply Qclt_le_weak; auto|apply Qcle_refl].
Qed.
Lemma Qcmult_lt_0_compat a b : (0 < a -> 0 < b -> 0 < a * b)%Qc.
Proof. intros. qnra. Qed.
Lemma Qcinv_pos x : (0 < x -> 0 < / x)%Qc.
Proof.
  intros H. destruct (Qclt_le_dec 0 (/ x)) as [|G]; auto. exfalso.
  assert (N : x <> 0%Qc) by (intros ->; discriminate).
  assert (E : (x * / x = 1)%Qc) by (apply Qcmult_inv_r; auto).
  assert (x * / x <= 0)%Qc by (replace 0%Qc with (x * 0)%Qc by ring; rewrite !(Qcmult_comm x); apply Qcmult_le_compat_r; [auto|apply Qclt_le_weak; auto]).
  rewrite E in H0. apply H0. reflexivity.
Qed.
Lemma Qcle_div_pos lo N D : (0 < D -> lo * D <= N -> lo <= N / D)%Qc.
Proof.
  intros HD H. apply (Qcmult_lt_0_le_reg_r _ _ D HD). replace (N / D * D)%Qc with N by (field; intros ->; discriminate). auto.
Qed.
Lemma Qcdiv_le_pos hi N D : (0 < D -> N <= hi * D -> N / D <= hi)%Qc.
Proof.
  intros HD H. apply (Qcmult_lt_0_le_reg_r _ _ D HD). replace (N / D * D)%Qc with N by (field; intros ->; discriminate). auto.
Qed.
Lemma Qcmult_le_mono_l a b c : (0 <= a -> b <= c -> a * b <= a * c)%Qc.
Proof. intros. rewrite !(Qcmult_comm a). apply Qcmult_le_compat_r; auto. Qed.

Definition avg_weight (a : average) (x : Qc) : Qc := match a with Volume => x | Simple => 1%Qc | Regression => (x * x)%Qc end.
Lemma avg_den_weight a n sel x : avg_den a n sel x = sum_over n sel (fun o => avg_weight a (x o)).
Proof. destruct a; reflexivity. Qed.
Lemma avg_num_weight a n sel x y : (forall o, (o < n)%nat -> sel o = true -> x o <> 0%Qc) ->
  avg_num a n sel x y = sum_over n sel (fun o => avg_weight a (x o) * (y o / x o))%Qc.
Proof.
  intros H. destruct a; cbn [avg_num avg_weight]; apply sum_over_ext; intros o Ho Es; specialize (H o Ho Es); field; auto.
Qed.
Lemma avg_weight_pos a x : (0 < x)%Qc -> (0 < avg_weight a x)%Qc.
Proof. intros H. destruct a; cbn; [apply Qcmult_lt_0_compat; auto|auto|reflexivity]. Qed.

Lemma wavg_between a n sel x y lo hi : (exists o, (o < n)%nat /\ sel o = true) ->
  (forall o, (o < n)%nat -> sel o = true -> 0 < x o /\ 0 < y o /\ lo <= y o / x o /\ y o / x o <= hi)%Qc ->
  exists f, wavg a n sel x y = Some f /\ (lo <= f)%Qc /\ (f <= hi)%Qc.
Proof.
  intros He H.
  assert (Hx : forall o, (o < n)%nat -> sel o = true -> x o <> 0%Qc).
  { intros o Ho Es E. destruct (H o Ho Es) as [A _]. rewrite E in A. discriminate A. }
  assert (PD : (0 < avg_den a n sel x)%Qc).
  { rewrite avg_den_weight. apply sum_over_pos; auto. intros o Ho Es. apply avg_weight_pos. apply H; auto. }
  assert (PN : (0 < avg_num a n sel x y)%Qc).
  { rewrite avg_num_weight by auto. apply sum_over_pos; auto. intros o Ho Es. destruct (H o Ho Es) as (A & B & _).
    apply Qcmult_lt_0_compat; [apply avg_weight_pos; auto|]. unfold Qcdiv. apply Qcmult_lt_0_compat; auto. apply Qcinv_pos; auto. }
  unfold wavg. rewrite !Qc_eqb_ne by (intros E; rewrite E in PD || rewrite E in PN; discriminate).
  eexists. split; [reflexivity|]. split.
  - apply Qcle_div_pos; [auto|]. rewrite avg_num_weight, avg_den_weight by auto. rewrite <- sum_over_scal. apply sum_over_le.
    intros o Ho Es. destruct (H o Ho Es) as (A & B & C & D). rewrite (Qcmult_comm lo). apply Qcmult_le_mono_l; auto. apply Qclt_le_weak, avg_weight_pos; auto.
  - apply Qcdiv_le_pos; [auto|]. rewrite avg_num_weight, avg_den_weight by auto. rewrite <- sum_over_scal. apply sum_over_le.
    intros o Ho Es. destruct (H o Ho Es) as (A & B & C & D). rewrite (Qcmult_comm hi). apply Qcmult_le_mono_l; auto. apply Qclt_le_weak, avg_weight_pos; auto.
Qed.

Lemma wavg_equal a n sel x y f : (exists o, (o < n)%nat /\ sel o = true) ->
  (forall o, (o < n)%nat -> sel o = true -> 0 < x o /\ 0 < y o /\ y o / x o = f)%Qc -> wavg a n sel x y = Some f.
Proof.
  intros He H. destruct (wavg_between a n sel x y f f He) as (g & -> & A & B).
  - intros o Ho Es. destruct (H o Ho Es) as (A & B & C). rewrite C. repeat split; auto; apply Qcle_refl.
  - f_equal. apply Qcle_antisym; auto.
Qed.

(** ** Frames *)
Lemma param_at_frame {A} t t' (v : per_age A) d : same_frame t t' -> param_at t' v d = param_at t v d.
Proof. intros S. destruct v; cbn [param_at]; auto. rewrite (sf_d _ _ S). reflexivity. Qed.
Lemma in_window_frame t t' n o d : same_frame t t' -> in_window t' n o d = in_window t n o d.
Proof. intros S. unfold in_window. rewrite (sf_2 _ _ S), (sf_vd _ _ S), (sf_og _ _ S), (month_same_frame t t' o d S). reflexivity. Qed.
Lemma listed_frame p t t' o d : same_frame t t' -> listed p t' o d = listed p t o d.
Proof. intros S. unfold listed. rewrite (sf_o _ _ S), (sf_d _ _ S). reflexivity. Qed.
Lemma val_listed_frame p t t' o d : same_frame t t' -> val_listed p t' o d = val_listed p t o d.
Proof.
  intros S. unfold val_listed. destruct (p_drop_val p) as [vs|]; auto. rewrite (sf_og _ _ S), (month_same_frame t t' o d S). reflexivity.
Qed.
Lemma regular_frame t t' o0 a0 h m dl : same_frame t t' -> regular t o0 a0 h m dl -> regular t' o0 a0 h m dl.
Proof. intros S. unfold regular. rewrite (sf_o _ _ S), (sf_d _ _ S), (sf_2 _ _ S), (sf_3 _ _ S), (sf_vd _ _ S). auto. Qed.
Lemma regular_grains_frame t t' : same_frame t t' -> regular_grains t -> regular_grains t'.
Proof.
  intros S (o0 & a0 & h & m & dl & R & H1 & H2 & H3). exists o0, a0, h, m, dl. split; [apply (regular_frame t t'); auto|].
  rewrite (sf_dg _ _ S), (sf_og _ _ S). auto.
Qed.
Lemma fittable_frame p t t' : same_frame t t' ->
  ((p_high p = None /\ p_low p = None) \/
   (forall i c o d, in_range t i c o d -> (S d < ax3 (values t))%nat -> has_ratio t' i c d o = has_ratio t i c d o)) ->
  (p_drop_val p = None \/ (forall i c o d, in_range t i c o d -> amount t i c o d <> 0%Qc -> amount t' i c o d <> 0%Qc)) ->
  fittable p t -> fittable p t'.
Proof.
  intros S H HV F. constructor.
  - intros d Hd. rewrite (param_at_frame t t') by auto. apply (fp_avg _ _ F). rewrite <- (sf_3 _ _ S). auto.
  - intros d Hd. rewrite (param_at_frame t t') by auto. apply (fp_np _ _ F). rewrite <- (sf_3 _ _ S). auto.
  - pose proof (fp_fit _ _ F) as G. unfold fits_ages in *. rewrite (sf_3 _ _ S). auto.
  - intros d n Hd Hn. rewrite (param_at_frame t t') in Hn by auto. rewrite (sf_3 _ _ S) in Hd. destruct (fp_win _ _ F d n Hd Hn) as [G|G].
    + left. unfold unrestricted in *. rewrite (sf_2 _ _ S). auto.
    + right. apply (regular_grains_frame t t'); auto.
  - intros items o a. rewrite (sf_o _ _ S), (sf_d _ _ S). apply (fp_drop _ _ F).
  - intros v Hv. pose proof (fp_high _ _ F v Hv) as G. unfold not_by_age in *. rewrite (sf_3 _ _ S). auto.
  - intros v Hv. pose proof (fp_low _ _ F v Hv) as G. unfold not_by_age in *. rewrite (sf_3 _ _ S). auto.
  - pose proof (fp_above _ _ F) as G. unfold not_by_age in *. rewrite (sf_3 _ _ S). auto.
  - pose proof (fp_below _ _ F) as G. unfold not_by_age in *. rewrite (sf_3 _ _ S). auto.
  - intros Ha. destruct H as [[H1 H2]|H]; [destruct Ha; congruence|]. destruct (fp_hl _ _ F Ha) as (n & E & P & C). exists n. split; [auto|]. split; [auto|].
    rewrite (sf_0 _ _ S), (sf_1 _ _ S), (sf_2 _ _ S), (sf_3 _ _ S). intros i c d Hi Hc Hd. specialize (C i c d Hi Hc Hd).
    rewrite how_many_count in *. rewrite (count_ext _ _ (fun o => has_ratio t i c d o && in_window t n o d)); auto.
    intros o Ho. rewrite (in_window_frame t t') by auto. rewrite H; auto. unfold in_range. repeat split; auto; lia.
  - intros vs Ev. destruct HV as [HV|HV]; [congruence|]. destruct (fp_val _ _ F vs Ev) as (V1 & V2 & (o0 & a0 & h & V3) & V4 & V5 & V6 & V7).
    unfold valuations_droppable. rewrite (sf_og _ _ S), (sf_0 _ _ S), (sf_1 _ _ S), (sf_2 _ _ S), (sf_3 _ _ S). repeat split; auto.
    + exists o0, a0, h. apply (regular_frame t t'); auto.
    + intros v Hv. destruct (V4 v Hv) as (k & A & B). exists k. rewrite (month_same_frame t t' _ _ S). auto.
    + intros v o d Hv Ho Hd Em. rewrite (month_same_frame t t' _ _ S) in Em. apply HV; [unfold in_range; auto|]. apply (V7 v); auto.
  - apply (fp_fill _ _ F).
Qed.
Lemma oldest_frame t t' : same_frame t t' -> oldest_complete t -> oldest_complete t'.
Proof. intros S. unfold oldest_complete. rewrite (sf_3 _ _ S), (sf_vd _ _ S), (month_same_frame t t' _ _ S). auto. Qed.

(** ** Ratios that are not used do not matter *)
Theorem unused_irrelevant p t t' : wf t -> blank_future t -> is_pattern t = false -> (2 <= ax3 (values t))%nat -> oldest_complete t -> fittable p t ->
  p_high p = None -> p_low p = None -> limits_given p = false -> p_drop_val p = None ->
  same_frame t t' -> blank_future t' -> is_pattern t' = false ->
  exists r r', dev_fit p t = Ok r /\ dev_fit p t' = Ok r' /\
    forall i c d n, (i < ax0 (values t))%nat -> (c < ax1 (values t))%nat -> (S d < ax3 (values t))%nat -> param_at t (p_n_periods p) d = Some n ->
      (forall o, (o < ax2 (values t))%nat -> listed p t o d = true \/ in_window t n o d = false \/
         (amount t' i c o d = amount t i c o d /\ amount t' i c o (S d) = amount t i c o (S d))) ->
      cel (f_ldf r') i c 0 d = cel (f_ldf r) i c 0 d.
Proof.
  intros W B Hp Hn Oc F Hh Hl Hg Hdv S B' Hp'.
  assert (W' : wf t') by (apply (wf_same_frame t t'); auto).
  assert (F' : fittable p t') by (apply (fittable_frame p t t'); auto).
  destruct (dev_fit_ok p t W B Hp Hn Oc F) as (r & Er & FR & _).
  destruct (dev_fit_ok p t' W' B' Hp') as (r' & Er' & FR' & _); auto; [rewrite (sf_3 _ _ S); auto|apply (oldest_frame t t'); auto|].
  exists r, r'. split; [auto|]. split; [auto|]. intros i c d n Hi Hc Hd En Ho.
  destruct (param_at t (p_average p) d) as [a|] eqn:Ea; [|exfalso; apply (fp_avg _ _ F d Hd Ea)].
  rewrite (fr_cell _ _ _ FR i c d a n) by auto.
  rewrite (fr_cell _ _ _ FR' i c d a n) by (rewrite ?(sf_0 _ _ S), ?(sf_1 _ _ S), ?(sf_3 _ _ S), ?(param_at_frame t t') by auto; auto).
  rewrite (sf_2 _ _ S).
  assert (SEL : forall o, (o < ax2 (values t))%nat -> selected p t' n i c d o = selected p t n i c d o /\
     (selected p t n i c d o = true -> amount t' i c o d = amount t i c o d /\ amount t' i c o (Datatypes.S d) = amount t i c o (Datatypes.S d))).
  { intros o Hoo. unfold selected. assert (Na : n_active p = false) by (unfold n_active; rewrite Hh, Hl; reflexivity).
    rewrite !inactive_high_low by auto. unfold survives_above_below. rewrite Hg. cbn [negb orb]. rewrite !andb_true_r.
    rewrite (in_window_frame t t'), (listed_frame p t t'), (val_listed_frame p t t') by auto. unfold val_listed. rewrite Hdv. cbn [negb]. rewrite !andb_true_r.
    destruct (Ho o Hoo) as [G|[G|[G1 G2]]].
    - rewrite G. cbn [negb]. rewrite !andb_false_r. split; [auto|discriminate].
    - rewrite G. rewrite !andb_false_r. split; [auto|discriminate].
    - unfold has_ratio. rewrite G1, G2. auto. }
  assert (SE : forall g g', (forall o, (o < ax2 (values t))%nat -> selected p t n i c d o = true -> g' o = g o) ->
    sum_over (ax2 (values t)) (selected p t' n i c d) g' = sum_over (ax2 (values t)) (selected p t n i c d) g).
  { intros g g' Hgg. apply sumn_ext. intros o Hoo. destruct (SEL o Hoo) as [-> _]. destruct (selected p t n i c d o) eqn:Es; auto. }
  unfold wavg.
  assert (EN : avg_num a (ax2 (values t)) (selected p t' n i c d) (fun o => amount t' i c o d) (fun o => amount t' i c o (Datatypes.S d)) =
               avg_num a (ax2 (values t)) (selected p t n i c d) (fun o => amount t i c o d) (fun o => amount t i c o (Datatypes.S d))).
  { destruct a; cbn [avg_num]; apply SE; intros o Hoo Es; destruct (proj2 (SEL o Hoo) Es) as [E1 E2]; rewrite ?E1, ?E2; auto. }
  assert (ED : avg_den a (ax2 (values t)) (selected p t' n i c d) (fun o => amount t' i c o d) =
               avg_den a (ax2 (values t)) (selected p t n i c d) (fun o => amount t i c o d)).
  { destruct a; cbn [avg_den]; apply SE; intros o Hoo Es; destruct (proj2 (SEL o Hoo) Es) as [E1 E2]; rewrite ?E1, ?E2; auto. }
  rewrite EN, ED. reflexivity.
Qed.

(** ** Scaling *)
Section Scale.
  Variables (k : nat -> nat -> Qc) (p : dev_params) (t t' : tri).
  Hypotheses (S : same_frame t t') (K : forall i c, (0 < k i c)%Qc).
  Hypothesis (V : forall i c o d, in_range t i c o d -> cel t' i c o d = option_map (fun x => k i c * x)%Qc (cel t i c o d)).

  Lemma scale_amount i c o d : in_range t i c o d -> amount t' i c o d = (k i c * amount t i c o d)%Qc.
  Proof. intros R. unfold amount. rewrite V by auto. destruct (cel t i c o d); cbn [option_map nz]; ring. Qed.
  Lemma scale_ne i c : k i c <> 0%Qc.
  Proof. intros E. specialize (K i c). rewrite E in K. discriminate. Qed.
  Lemma scale_zero i c x : Qc_eqb (k i c * x)%Qc 0%Qc = Qc_eqb x 0%Qc.
  Proof.
    destruct (Qc_eqb_spec x 0%Qc) as [->|N]; [rewrite Qcmult_0_r; reflexivity|]. apply Qc_eqb_ne. intros E. apply Qcmult_integral in E.
    destruct E as [E|E]; [apply (scale_ne i c E)|auto].
  Qed.
  Lemma scale_ltb i c x y : Qc_ltb (k i c * x)%Qc (k i c * y)%Qc = Qc_ltb x y.
  Proof.
    pose proof (K i c) as Kp. destruct (Qc_ltb_spec x y) as [L|L]; destruct (Qc_ltb_spec (k i c * x)%Qc (k i c * y)%Qc) as [M|M]; auto; exfalso.
    - apply M. rewrite !(Qcmult_comm (k i c)). apply Qcmult_lt_compat_r; auto.
    - apply Qcnot_lt_le in L. apply (Qcmult_le_mono_l (k i c)) in L; [|apply Qclt_le_weak; auto]. apply (Qclt_not_le _ _ M L).
  Qed.
  Lemma scale_eqb i c x y : Qc_eqb (k i c * x)%Qc (k i c * y)%Qc = Qc_eqb x y.
  Proof.
    destruct (Qc_eqb_spec x y) as [->|N]; [destruct (Qc_eqb_spec (k i c * y)%Qc (k i c * y)%Qc); congruence|].
    destruct (Qc_eqb_spec (k i c * x)%Qc (k i c * y)%Qc) as [M|M]; auto. exfalso. apply N. apply (f_equal (fun z => (/ k i c * z)%Qc)) in M. rewrite !Qcmult_assoc in M. rewrite (Qcmult_comm (/ k i c)), Qcmult_inv_r in M by apply scale_ne.
    rewrite !Qcmult_1_l in M. auto.
  Qed.
  Lemma scale_has i c o d : in_range t i c o d -> (Datatypes.S d < ax3 (values t))%nat -> has_ratio t' i c d o = has_ratio t i c d o.
  Proof.
    intros (R0 & R1 & R2 & R3) Hd. unfold has_ratio. rewrite !scale_amount by (unfold in_range; auto). rewrite !scale_zero. reflexivity.
  Qed.
  Lemma scale_ratio i c o d : in_range t i c o d -> (Datatypes.S d < ax3 (values t))%nat -> ratio t' i c d o = ratio t i c d o.
  Proof.
    intros (R0 & R1 & R2 & R3) Hd. unfold ratio. rewrite !scale_amount by (unfold in_range; auto).
    destruct (Qc_eqb_spec (amount t i c o d) 0%Qc) as [E|E].
    - rewrite E. unfold Qcdiv. rewrite Qcmult_0_r. change (/ 0)%Qc with 0%Qc. ring.
    - field. split; auto. apply scale_ne.
  Qed.
  Lemma scale_lower i c d o1 o2 : in_range t i c o1 d -> in_range t i c o2 d -> (Datatypes.S d < ax3 (values t))%nat -> lower t' i c d o1 o2 = lower t i c d o1 o2.
  Proof. intros R1 R2 Hd. unfold lower. rewrite !scale_ratio, !scale_amount, scale_ltb, scale_eqb by auto. reflexivity. Qed.
  Lemma scale_selected n i c d o : in_range t i c o d -> (Datatypes.S d < ax3 (values t))%nat -> selected p t' n i c d o = selected p t n i c d o.
  Proof.
    intros R Hd. pose proof R as (R0 & R1 & R2 & R3). assert (RG : forall q, (q < ax2 (values t))%nat -> in_range t i c q d) by (intros; unfold in_range; auto).
    unfold selected. rewrite scale_has, (in_window_frame t t'), (listed_frame p t t'), (val_listed_frame p t t') by auto. f_equal; [f_equal|].
    - unfold survives_high_low. rewrite (sf_2 _ _ S), !how_many_count.
      rewrite (count_ext _ (fun q => has_ratio t' i c d q && in_window t' n q d) (fun q => has_ratio t i c d q && in_window t n q d))
        by (intros q Hq; rewrite scale_has, (in_window_frame t t') by auto; reflexivity).
      rewrite (count_ext _ (fun q => has_ratio t' i c d q && in_window t' n q d && lower t' i c d q o) (fun q => has_ratio t i c d q && in_window t n q d && lower t i c d q o))
        by (intros q Hq; rewrite scale_has, scale_lower, (in_window_frame t t') by auto; reflexivity).
      rewrite (count_ext _ (fun q => has_ratio t' i c d q && in_window t' n q d && lower t' i c d o q) (fun q => has_ratio t i c d q && in_window t n q d && lower t i c d o q))
        by (intros q Hq; rewrite scale_has, scale_lower, (in_window_frame t t') by auto; reflexivity).
      reflexivity.
    - unfold survives_above_below. rewrite (sf_2 _ _ S), !how_many_count. unfold within_limits. rewrite scale_ratio by auto.
      rewrite (count_ext _ _ (fun q => has_ratio t i c d q && within_limits p t i c d q)); [reflexivity|].
      intros q Hq. unfold within_limits. rewrite scale_has, scale_ratio by auto. reflexivity.
  Qed.

  Lemma scale_fittable : wf t -> fittable p t -> fittable p t'.
  Proof. intros W F. apply (fittable_frame p t t'); [auto|right; intros; apply scale_has; auto| |auto]; right; intros i c o d R NZ; rewrite scale_amount by auto; intros E; apply Qcmult_integral in E; destruct E as [E|E]; [apply (scale_ne i c E)|auto]. Qed.
  Theorem scale_fit : wf t -> blank_future t -> is_pattern t = false -> is_pattern t' = false -> (2 <= ax3 (values t))%nat -> oldest_complete t -> fittable p t ->
    exists r r', dev_fit p t = Ok r /\ dev_fit p t' = Ok r' /\ same_frame (f_ldf r) (f_ldf r') /\
      forall i c d, (i < ax0 (values t))%nat -> (c < ax1 (values t))%nat -> (Datatypes.S d < ax3 (values t))%nat -> cel (f_ldf r') i c 0 d = cel (f_ldf r) i c 0 d.
  Proof.
    intros W B Hp Hp' Hn Oc F.
    assert (W' : wf t') by (apply (wf_same_frame t t'); auto).
    assert (B' : blank_future t').
    { intros i c o d R Fu. destruct R as (R0 & R1 & R2 & R3). rewrite (sf_0 _ _ S), (sf_1 _ _ S), (sf_2 _ _ S), (sf_3 _ _ S) in *.
      rewrite V by (unfold in_range; auto). rewrite (B i c o d); [reflexivity|unfold in_range; auto|]. unfold future in *. rewrite <- (sf_vd _ _ S), <- (month_same_frame t t' o d S). auto. }
    assert (F' : fittable p t') by (apply scale_fittable; auto).
    destruct (dev_fit_ok p t W B Hp Hn Oc F) as (r & Er & FR & _).
    destruct (dev_fit_ok p t' W' B' Hp') as (r' & Er' & FR' & _); auto; [rewrite (sf_3 _ _ S); auto|apply (oldest_frame t t'); auto|].
    exists r, r'. split; [auto|]. split; [auto|]. split.
    { constructor; try (rewrite ?(fr_k _ _ _ FR), ?(fr_k _ _ _ FR'), ?(fr_kl _ _ _ FR), ?(fr_kl _ _ _ FR'), ?(fr_v _ _ _ FR), ?(fr_v _ _ _ FR'),
       ?(fr_o _ _ _ FR), ?(fr_o _ _ _ FR'), ?(fr_d _ _ _ FR), ?(fr_d _ _ _ FR'), ?(fr_vd _ _ _ FR), ?(fr_vd _ _ _ FR'), ?(fr_og _ _ _ FR), ?(fr_og _ _ _ FR'),
       ?(fr_dg _ _ _ FR), ?(fr_dg _ _ _ FR'), ?(fr_0 _ _ _ FR), ?(fr_0 _ _ _ FR'), ?(fr_1 _ _ _ FR), ?(fr_1 _ _ _ FR'), ?(fr_2 _ _ _ FR), ?(fr_2 _ _ _ FR'), ?(fr_3 _ _ _ FR), ?(fr_3 _ _ _ FR'),
       ?(sf_k _ _ S), ?(sf_kl _ _ S), ?(sf_v _ _ S), ?(sf_o _ _ S), ?(sf_d _ _ S), ?(sf_og _ _ S), ?(sf_dg _ _ S), ?(sf_0 _ _ S), ?(sf_1 _ _ S), ?(sf_3 _ _ S); reflexivity). }
    intros i c d Hi Hc Hd.
    destruct (param_at t (p_average p) d) as [a|] eqn:Ea; [|exfalso; apply (fp_avg _ _ F d Hd Ea)].
    destruct (param_at t (p_n_periods p) d) as [n|] eqn:En; [|exfalso; apply (fp_np _ _ F d Hd En)].
    rewrite (fr_cell _ _ _ FR i c d a n) by auto.
    rewrite (fr_cell _ _ _ FR' i c d a n) by (rewrite ?(sf_0 _ _ S), ?(sf_1 _ _ S), ?(sf_3 _ _ S), ?(param_at_frame t t') by auto; auto).
    rewrite (sf_2 _ _ S).
    set (s := match a with Volume => k i c | Simple => 1%Qc | Regression => (k i c * k i c)%Qc end).
    assert (Hs : s <> 0%Qc).
    { unfold s. destruct a; [intros E; apply Qcmult_integral in E; destruct E as [E|E]; apply (scale_ne i c E)|apply scale_ne|discriminate]. }
    assert (SE : forall g g', (forall o, (o < ax2 (values t))%nat -> selected p t n i c d o = true -> g' o = (s * g o)%Qc) ->
      sum_over (ax2 (values t)) (selected p t' n i c d) g' = (s * sum_over (ax2 (values t)) (selected p t n i c d) g)%Qc).
    { intros g g' Hgg. rewrite <- sum_over_scal. apply sumn_ext. intros o Ho. rewrite scale_selected by (unfold in_range; repeat split; auto; lia).
      destruct (selected p t n i c d o) eqn:Es; auto. }
    assert (HX : forall o, (o < ax2 (values t))%nat -> selected p t n i c d o = true -> amount t i c o d <> 0%Qc).
    { intros o Ho Es. unfold selected in Es. do 4 (apply andb_true_iff in Es; destruct Es as [Es _]). apply andb_true_iff in Es. destruct Es as [Es _].
      apply has_ratio_cell in Es. tauto. }
    assert (RG : forall o, (o < ax2 (values t))%nat -> in_range t i c o d /\ in_range t i c o (Datatypes.S d)) by (intros; unfold in_range; repeat split; auto; lia).
    assert (EN : avg_num a (ax2 (values t)) (selected p t' n i c d) (fun o => amount t' i c o d) (fun o => amount t' i c o (Datatypes.S d)) =
               (s * avg_num a (ax2 (values t)) (selected p t n i c d) (fun o => amount t i c o d) (fun o => amount t i c o (Datatypes.S d)))%Qc).
    { destruct a; cbn [avg_num]; apply SE; intros o Ho Es; destruct (RG o Ho); rewrite !scale_amount by auto; unfold s; [ring|ring|].
      field. split; [apply HX; auto|apply scale_ne]. }
    assert (ED : avg_den a (ax2 (values t)) (selected p t' n i c d) (fun o => amount t' i c o d) =
               (s * avg_den a (ax2 (values t)) (selected p t n i c d) (fun o => amount t i c o d))%Qc).
    { destruct a; cbn [avg_den]; apply SE; intros o Ho Es; destruct (RG o Ho); rewrite ?scale_amount by auto; unfold s; ring. }
    unfold wavg. rewrite EN, ED.
    assert (Z0 : forall q, Qc_eqb (s * q)%Qc 0%Qc = Qc_eqb q 0%Qc).
    { intros q. destruct (Qc_eqb_spec q 0%Qc) as [->|N]; [rewrite Qcmult_0_r; reflexivity|]. apply Qc_eqb_ne. intros E. apply Qcmult_integral in E. tauto. }
    rewrite !Z0. destruct (Qc_eqb_spec (avg_num a (ax2 (values t)) (selected p t n i c d) (fun o => amount t i c o d) (fun o => amount t i c o (Datatypes.S d))) 0%Qc); [reflexivity|].
    destruct (Qc_eqb_spec (avg_den a (ax2 (values t)) (selected p t n i c d) (fun o => amount t i c o d)) 0%Qc); [reflexivity|].
    f_equal. field. auto.
  Qed.
End Scale.

(** ** drop_high / drop_low: how many and which ratios are dropped *)
Definition ranked (E : nat -> bool) (low : nat -> nat -> bool) (n o : nat) : nat := count_true n (fun q => E q && low q o).

Lemma count_lt n f g o : (o < n)%nat -> (forall q, (q < n)%nat -> f q = true -> g q = true) -> f o = false -> g o = true -> (count_true n f < count_true n g)%nat.
Proof.
  revert o. induction n as [|n IH]; intros o Ho H Fo Go; [lia|]. rewrite !count_S.
  assert (LE : forall m, (m <= n)%nat -> (count_true m f <= count_true m g)%nat).
  { induction m as [|m I]; intros Hm; [reflexivity|]. rewrite !count_S. specialize (I ltac:(lia)). pose proof (H m ltac:(lia)). destruct (f m); [rewrite H0 by auto|]; lia. }
  specialize (LE n (le_n n)). destruct (Nat.eq_dec o n) as [->|N].
  - rewrite Fo, Go. lia.
  - assert (o < n)%nat by lia. specialize (IH o H0 ltac:(intros; apply H; auto; lia) Fo Go). pose proof (H n ltac:(lia)) as Hn. destruct (f n); [rewrite Hn by auto|]; lia.
Qed.

Lemma lower_trans t i c d p q r : lower t i c d p q = true -> lower t i c d q r = true -> lower t i c d p r = true.
Proof.
  unfold lower. set (rp := ratio t i c d p). set (rq := ratio t i c d q). set (rr := ratio t i c d r).
  set (xp := amount t i c p d). set (xq := amount t i c q d). set (xr := amount t i c r d). clearbody rp rq rr xp xq xr.
  rewrite !orb_true_iff, !andb_true_iff, !orb_true_iff, !andb_true_iff.
  repeat match goal with |- context [Qc_ltb ?a ?b = true] => rewrite <- (reflect_iff _ _ (Qc_ltb_spec a b)) end.
  repeat match goal with |- context [Qc_eqb ?a ?b = true] => rewrite <- (reflect_iff _ _ (Qc_eqb_spec a b)) end.
  rewrite !Nat.ltb_lt. intros H1 H2.
  destruct H1 as [A|[-> [A|[-> A]]]], H2 as [B|[<- [B|[<- B]]]]; auto; try (left; eapply Qclt_trans; eassumption).
  - right. split; auto. left. eapply Qclt_trans; eauto.
  - right. split; auto. right. split; auto. lia.
Qed.

Lemma ranked_lt t E i c d n o o' : (o < n)%nat -> E o = true -> lower t i c d o o' = true ->
  (ranked E (lower t i c d) n o < ranked E (lower t i c d) n o')%nat.
Proof.
  intros Ho Eo L. apply (count_lt n _ _ o Ho).
  - intros q Hq H. apply andb_true_iff in H. destruct H as [-> H]. cbn [andb]. eapply lower_trans; eauto.
  - rewrite lower_irrefl, andb_false_r. reflexivity.
  - rewrite Eo, L. reflexivity.
Qed.

Lemma filter_map_len {A B} (f : B -> bool) (g : A -> B) l : List.length (filter f (map g l)) = List.length (filter (fun x => f (g x)) l).
Proof. induction l as [|x l IH]; [reflexivity|]. cbn [map filter]. destruct (f (g x)); cbn [List.length]; rewrite IH; reflexivity. Qed.
Lemma filter_filter {A} (f g : A -> bool) l : filter f (filter g l) = filter (fun x => g x && f x) l.
Proof. induction l as [|x l IH]; [reflexivity|]. cbn [filter]. destruct (g x); cbn [filter andb]; rewrite IH; reflexivity. Qed.
Lemma Permutation_filter_len {A} (f : A -> bool) l l' : Permutation l l' -> List.length (filter f l) = List.length (filter f l').
Proof. induction 1; cbn [filter]; auto; repeat match goal with |- context [if ?b then _ else _] => destruct b end; cbn [List.length]; congruence. Qed.
Lemma count_interval n l h : (l + h <= n)%nat -> List.length (filter (fun k => (l <=? k)%nat && (k <? n - h)%nat) (seq 0 n)) = (n - h - l)%nat.
Proof.
  intros H. change (count_true n (fun k => (l <=? k)%nat && (k <? n - h)%nat) = (n - h - l)%nat).
  enough (G : forall m, (m <= n)%nat -> count_true m (fun k => (l <=? k)%nat && (k <? n - h)%nat) = (Nat.min m (n - h) - l)%nat).
  { rewrite G by lia. lia. }
  induction m as [|m IH]; intros Hm; [reflexivity|]. rewrite count_S, IH by lia.
  destruct (Nat.leb_spec l m), (Nat.ltb_spec m (n - h)); cbn [andb]; lia.
Qed.

Theorem survivors_count p t E i c d : 
  let n := ax2 (values t) in let h := count_at (p_high p) d in let l := count_at (p_low p) d in
  0 <= h -> 0 <= l -> p_preserve p <= how_many n E - h - l -> 0 <= how_many n E - h - l ->
  how_many n (fun o => E o && survives_high_low p t E i c d o) = how_many n E - h - l.
Proof.
  intros n h l Hh Hl Hp Hc. 
  set (el := filter E (seq 0 n)). set (N := List.length el).
  assert (EN : how_many n E = Z.of_nat N) by reflexivity.
  set (rk := ranked E (lower t i c d) n).
  assert (In_el : forall o, In o el -> (o < n)%nat /\ E o = true).
  { intros o Ho. apply filter_In in Ho. destruct Ho as [Ho Eo]. apply in_seq in Ho. split; [lia|auto]. }
  assert (AB : forall o, In o el -> (N = rk o + 1 + count_true n (fun q => E q && lower t i c d o q))%nat).
  { intros o Ho. destruct (In_el o Ho) as [Lo Eo]. apply (above_below t E i c d o n Lo Eo). }
  assert (PM : Permutation (map rk el) (seq 0 N)).
  { apply NoDup_Permutation_bis.
    - assert (ND : NoDup el) by (apply NoDup_filter, seq_NoDup). revert In_el ND. clear. generalize el. intros l. induction l as [|x l IH]; intros Hin ND; [constructor|].
      inversion ND; subst. cbn [map]. constructor; [|apply IH; [intros; apply Hin; right; auto|auto]].
      intros Hx. apply in_map_iff in Hx. destruct Hx as (y & Ey & Hy). destruct (Hin x (or_introl eq_refl)) as [Lx Ex]. destruct (Hin y (or_intror Hy)) as [Ly Ey'].
      assert (x <> y) by congruence. destruct (lower t i c d x y) eqn:L.
      + pose proof (ranked_lt t E i c d n x y Lx Ex L). unfold rk in Ey. lia.
      + rewrite (lower_tri t i c d x y), negb_false_iff in L by auto. pose proof (ranked_lt t E i c d n y x Ly Ey' L). unfold rk in Ey. lia.
    - rewrite seq_length, map_length. reflexivity.
    - intros k Hk. apply in_map_iff in Hk. destruct Hk as (o & <- & Ho). apply in_seq. specialize (AB o Ho). lia. }
  unfold how_many. transitivity (Z.of_nat (List.length (filter (fun k => (Z.to_nat l <=? k)%nat && (k <? N - Z.to_nat h)%nat) (map rk el)))).
  - f_equal. rewrite filter_map_len. rewrite <- filter_filter. fold el. f_equal. apply filter_ext_in. intros o Ho. specialize (AB o Ho).
    unfold survives_high_low. fold n h l. rewrite EN. destruct (Z.ltb_spec (Z.of_nat N - h - l) (p_preserve p)).
    + lia.
    + cbn [orb]. rewrite !how_many_count. fold (ranked E (lower t i c d) n o). fold (rk o).
      destruct (Nat.leb_spec (Z.to_nat l) (rk o)), (Nat.ltb_spec (rk o) (N - Z.to_nat h)), (Z.leb_spec l (Z.of_nat (rk o))),
        (Z.leb_spec h (Z.of_nat (count_true n (fun q => E q && lower t i c d o q)))); try reflexivity; lia.
  - rewrite (Permutation_filter_len _ _ _ PM), count_interval by lia. fold el. fold N. lia.
Qed.

(** A dropped ratio lies below all kept ones or above all kept ones. *)
Theorem dropped_extreme p t E i c d o : (o < ax2 (values t))%nat -> E o = true -> survives_high_low p t E i c d o = false ->
  (forall o', (o' < ax2 (values t))%nat -> E o' = true -> survives_high_low p t E i c d o' = true -> (ratio t i c d o <= ratio t i c d o')%Qc) \/
  (forall o', (o' < ax2 (values t))%nat -> E o' = true -> survives_high_low p t E i c d o' = true -> (ratio t i c d o' <= ratio t i c d o)%Qc).
Proof.
  intros Ho Eo Hs. unfold survives_high_low in *.
  destruct (_ <? p_preserve p); [discriminate|]. cbn [orb] in *. rewrite !how_many_count in *.
  assert (LR : forall a b, lower t i c d a b = false -> (ratio t i c d b <= ratio t i c d a)%Qc).
  { intros a b H. unfold lower in H. apply orb_false_iff in H. destruct H as [H _]. destruct (Qc_ltb_spec (ratio t i c d a) (ratio t i c d b)); [discriminate|]. apply Qcnot_lt_le. auto. }
  apply andb_false_iff in Hs. destruct Hs as [Hs|Hs]; apply Z.leb_gt in Hs.
  - left. intros o' Ho' Eo' H. apply andb_true_iff in H. destruct H as [H _]. apply Z.leb_le in H. rewrite !how_many_count in *. apply LR.
    destruct (lower t i c d o' o) eqn:L; auto. pose proof (ranked_lt t E i c d _ o' o Ho' Eo' L). unfold ranked in *. lia.
  - right. intros o' Ho' Eo' H. apply andb_true_iff in H. destruct H as [_ H]. apply Z.leb_le in H. rewrite !how_many_count in *. apply LR.
    destruct (lower t i c d o o') eqn:L; auto. pose proof (ranked_lt t E i c d _ o o' Ho Eo L). unfold ranked in *.
    pose proof (above_below t E i c d o _ Ho Eo). pose proof (above_below t E i c d o' _ Ho' Eo'). lia.
Qed.

(** ** n_periods = n keeps the n latest ratios of each age *)
Theorem window_latest t n o d : wf t -> regular_grains t -> 1 <= n < Z.of_nat (ax2 (values t)) - 1 ->
  (o < ax2 (values t))%nat -> (S d < ax3 (values t))%nat -> month_of t o (S d) <= vdate t ->
  in_window t n o d = (how_many (ax2 (values t)) (fun q => (o <? q)%nat && (month_of t q (S d) <=? vdate t)) <? n).
Proof.
  intros W (o0 & a0 & h & m & dl & R & Hdl & Gd & Go) Hn Ho Hd Hv. unfold in_window.
  destruct (Z.ltb_spec n 1); [lia|]. destruct (Z.leb_spec (Z.of_nat (ax2 (values t)) - 1) n); [lia|]. cbn [orb].
  pose proof R as (Hh & Hm & _ & _ & _ & Ev & Hlast).
  set (K := (dl + m * (ax2 (values t) - 1))%nat) in *.
  assert (MV : forall q e, (q < ax2 (values t))%nat -> (e < ax3 (values t))%nat -> vdate t - month_of t q e = Z.of_nat h * (Z.of_nat K - Z.of_nat (m * q + e))).
  { intros q e Hq He. rewrite (regular_month t _ _ _ _ _ q e R) by auto. rewrite Ev. unfold K. nia. }
  assert (LE : forall q e, (q < ax2 (values t))%nat -> (e < ax3 (values t))%nat -> (month_of t q e <=? vdate t) = (m * q + e <=? K)%nat).
  { intros q e Hq He. specialize (MV q e Hq He). destruct (Z.leb_spec (month_of t q e) (vdate t)), (Nat.leb_spec (m * q + e) K); auto; exfalso; nia. }
  rewrite how_many_count.
  rewrite (count_ext _ _ (fun q => (o <? q)%nat && (q <? S ((K - S d) / m))%nat)).
  2:{ intros q Hq. f_equal. rewrite LE by auto. 
      destruct (Nat.leb_spec (m * q + S d) K), (Nat.ltb_spec q (S ((K - S d) / m))); auto; exfalso.
      - assert (q <= (K - S d) / m)%nat by (apply Nat.div_le_lower_bound; lia). lia.
      - assert (G : (q <= (K - S d) / m)%nat) by lia. assert (m * ((K - S d) / m) <= K - S d)%nat by (apply Nat.mul_div_le; lia).
        apply Z.leb_le in Hv. rewrite LE in Hv by (auto; lia). apply Nat.leb_le in Hv. nia. }
  apply Z.leb_le in Hv. rewrite LE in Hv by (auto; lia). apply Nat.leb_le in Hv.
  assert (J : ((K - S d) / m < ax2 (values t))%nat).
  { apply Nat.div_lt_upper_bound; [lia|]. unfold K. nia. }
  assert (OJ : (o <= (K - S d) / m)%nat) by (apply Nat.div_le_lower_bound; lia).
  set (j := ((K - S d) / m)%nat) in *.
  assert (CT : forall s, count_true s (fun q => (o <? q)%nat && (q <? S j)%nat) = (Nat.min s (S j) - S o)%nat).
  { induction s as [|s IH]; [reflexivity|]. rewrite count_S, IH. destruct (Nat.ltb_spec o s), (Nat.ltb_spec s (S j)); cbn [andb]; lia. }
  rewrite CT. specialize (MV o d Ho ltac:(lia)). rewrite Go.
  assert (DM : (K - S d = m * j + (K - S d) mod m)%nat) by (apply Nat.div_mod; lia).
  assert (MB : ((K - S d) mod m < m)%nat) by (apply Nat.mod_upper_bound; lia).
  destruct (Z.leb_spec (vdate t - n * Z.of_nat (h * m)) (month_of t o d)), (Z.ltb_spec (Z.of_nat (Nat.min (ax2 (values t)) (S j) - S o)) n); auto; exfalso.
  - assert (Z.of_nat h * (Z.of_nat K - Z.of_nat (m * o + d)) <= Z.of_nat h * (n * Z.of_nat m)) by nia.
    assert (Z.of_nat K - Z.of_nat (m * o + d) <= n * Z.of_nat m) by nia. nia.
  - assert (Z.of_nat h * (n * Z.of_nat m) < Z.of_nat h * (Z.of_nat K - Z.of_nat (m * o + d))) by nia.
    assert (n * Z.of_nat m < Z.of_nat K - Z.of_nat (m * o + d)) by nia. nia.
Qed.

(** ** Residual variance *)
Theorem mse_ok p t r : wf t -> blank_future t -> is_pattern t = false -> (2 <= ax3 (values t))%nat -> oldest_complete t -> fittable p t ->
  dev_fit p t = Ok r -> forall i c d a n f, (i < ax0 (values t))%nat -> (c < ax1 (values t))%nat -> (S d < ax3 (values t))%nat ->
    param_at t (p_average p) d = Some a -> param_at t (p_n_periods p) d = Some n -> cel (f_ldf r) i c 0 d = Some f ->
    (forall o, (o < ax2 (values t))%nat -> selected p t n i c d o = true -> 0 < amount t i c o d)%Qc ->
    (a = Regression -> forall o, (o < ax2 (values t))%nat -> amount t i c o d = 0%Qc -> amount t i c o (S d) = 0%Qc) ->
    av (wls_mse (f_reg r)) i c 0 d = cdiv (Some (mse_num a t (selected p t n i c d) i c d f))
       (n2n (Some (sum_over (ax2 (values t)) (selected p t n i c d) (fun _ => 1) - 1)%Qc)) /\
    av (wls_d (f_reg r)) i c 0 d = n2n (Some (avg_den a (ax2 (values t)) (selected p t n i c d) (fun o => amount t i c o d))).
Proof.
  intros W B Hp Hn Oc F E i c d a n f Hi Hc Hd Ha Hnp Hf Hx Hr.
  destruct (dev_fit_ok p t W B Hp Hn Oc F) as (r0 & E0 & FR & U). rewrite E in E0. injection E0 as <-.
  destruct (dev_fit_inv p t r W Hn (fp_avg _ _ F) (fp_np _ _ F) (fp_fit _ _ F) (fp_fill _ _ F) E) as (lr & w1 & w2 & FF).
  assert (US : forall o, (o < ax2 (values t))%nat -> used t (f_w r) i c d o = selected p t n i c d o).
  { intros o Ho. apply U; auto. repeat split; auto; lia. }
  assert (SO : forall g, sum_over (ax2 (values t)) (used t (f_w r) i c d) g = sum_over (ax2 (values t)) (selected p t n i c d) g).
  { intros g. apply sumn_ext. intros o Ho. rewrite US by auto. reflexivity. }
  assert (Hs : av (wls_slope (f_reg r)) i c 0 d = Some f).
  { rewrite <- Hf, (fr_cell _ _ _ FR i c d a n) by auto. rewrite (ff_sv _ _ _ _ _ _ FF i c d a) by auto.
    unfold wavg. destruct a; cbn [avg_num avg_den]; rewrite !SO; reflexivity. }
  split.
  - rewrite (ff_mse _ _ _ _ _ _ FF i c d a f) by (auto; intros; apply Hx; auto; rewrite <- US; auto). rewrite !SO. reflexivity.
  - rewrite (ff_dd _ _ _ _ _ _ FF i c d a) by auto. destruct a; cbn [avg_den]; rewrite SO; reflexivity.
Qed.

Theorem equal_ratios_fit p t : wf t -> blank_future t -> is_pattern t = false -> (2 <= ax3 (values t))%nat -> oldest_complete t -> fittable p t ->
  exists r, dev_fit p t = Ok r /\ forall i c d a n f, (i < ax0 (values t))%nat -> (c < ax1 (values t))%nat -> (S d < ax3 (values t))%nat ->
    param_at t (p_average p) d = Some a -> param_at t (p_n_periods p) d = Some n ->
    (exists o, (o < ax2 (values t))%nat /\ selected p t n i c d o = true) ->
    (forall o, (o < ax2 (values t))%nat -> selected p t n i c d o = true -> 0 < amount t i c o d /\ 0 < amount t i c o (S d) /\ ratio t i c d o = f)%Qc ->
    cel (f_ldf r) i c 0 d = Some f /\
    ((exists o1 o2, (o1 < o2)%nat /\ (o2 < ax2 (values t))%nat /\ selected p t n i c d o1 = true /\ selected p t n i c d o2 = true) ->
     (a = Regression -> forall o, (o < ax2 (values t))%nat -> amount t i c o d = 0%Qc -> amount t i c o (S d) = 0%Qc) ->
     av (wls_mse (f_reg r)) i c 0 d = Some 0%Qc).
Proof.
  intros W B Hp Hn Oc F. destruct (dev_fit_ok p t W B Hp Hn Oc F) as (r & E & FR & U). exists r. split; auto.
  intros i c d a n f Hi Hc Hd Ha Hnp He Hs.
  assert (Hf : cel (f_ldf r) i c 0 d = Some f).
  { rewrite (fr_cell _ _ _ FR i c d a n) by auto. apply wavg_equal; auto. }
  split; [exact Hf|]. intros (o1 & o2 & L & Ho2 & S1 & S2) Hr.
  destruct (mse_ok p t r W B Hp Hn Oc F E i c d a n f Hi Hc Hd Ha Hnp Hf) as [-> _]; auto.
  { intros o Ho Es. apply Hs; auto. }
  assert (Z0 : mse_num a t (selected p t n i c d) i c d f = 0%Qc).
  { unfold mse_num. rewrite (sum_over_ext _ _ _ (fun _ => 0 * 0)%Qc).
    - rewrite sum_over_scal. ring.
    - intros o Ho Es. destruct (Hs o Ho Es) as (P1 & P2 & <-). unfold ratio.
      assert (amount t i c o d <> 0%Qc) by (intros Z; rewrite Z in P1; discriminate).
      assert (NP : avg_pow a (amount t i c o d) <> 0%Qc) by (pose proof (avg_pow_pos a _ P1) as P; intros Z; rewrite Z in P; discriminate).
      field; auto. }
  assert (C : (0 < sum_over (ax2 (values t)) (selected p t n i c d) (fun _ => 1) - 1)%Qc).
  { assert (G : (0 < sum_over (ax2 (values t)) (fun o => selected p t n i c d o && negb (o =? o1)%nat) (fun _ => 1))%Qc).
    { apply sum_over_pos; [reflexivity|]. exists o2. split; auto. rewrite S2. destruct (Nat.eqb_spec o2 o1); [lia|reflexivity]. }
    assert (Q : sum_over (ax2 (values t)) (selected p t n i c d) (fun _ => 1%Qc) =
      (sum_over (ax2 (values t)) (fun o => selected p t n i c d o && negb (o =? o1)%nat) (fun _ => 1) + 1)%Qc).
    { unfold sum_over. 
      assert (Q1 : sumn (ax2 (values t)) (fun o => if (o =? o1)%nat then 1%Qc else 0%Qc) = 1%Qc).
      { rewrite (sumn_single _ o1); [rewrite Nat.eqb_refl; reflexivity|lia|]. intros k Hk N. destruct (Nat.eqb_spec k o1); [lia|reflexivity]. }
      match goal with |- _ = (?a + 1)%Qc => transitivity (a + sumn (ax2 (values t)) (fun o => if (o =? o1)%nat then 1 else 0))%Qc; [|rewrite Q1; reflexivity] end. rewrite <- sumn_plus. apply sumn_ext. intros o Ho.
      destruct (Nat.eqb_spec o o1) as [->|]; [rewrite S1; reflexivity|]. cbn [negb]. rewrite andb_true_r. destruct (selected p t n i c d o); reflexivity. }
    rewrite Q. set (z := sum_over _ _ _) in *. clearbody z. qlra. }
  rewrite Z0. 
  set (z := (sum_over _ _ _ - 1)%Qc) in *. assert (NZ : z <> 0%Qc) by (intros Z; rewrite Z in C; discriminate).
  rewrite n2n_Some, cdiv_Some by auto. f_equal. field. auto.
Qed.

(** ** Only selected ratios matter *)
Theorem selected_only p t t' : wf t -> wf t' -> blank_future t -> blank_future t' -> is_pattern t = false -> is_pattern t' = false ->
  (2 <= ax3 (values t))%nat -> oldest_complete t -> fittable p t -> fittable p t' -> same_frame t t' ->
  exists r r', dev_fit p t = Ok r /\ dev_fit p t' = Ok r' /\
    forall i c d n, (i < ax0 (values t))%nat -> (c < ax1 (values t))%nat -> (S d < ax3 (values t))%nat -> param_at t (p_n_periods p) d = Some n ->
      (forall o, (o < ax2 (values t))%nat -> selected p t' n i c d o = selected p t n i c d o) ->
      (forall o, (o < ax2 (values t))%nat -> selected p t n i c d o = true ->
         amount t' i c o d = amount t i c o d /\ amount t' i c o (S d) = amount t i c o (S d)) ->
      cel (f_ldf r') i c 0 d = cel (f_ldf r) i c 0 d.
Proof.
  intros W W' B B' Hp Hp' Hn Oc F F' S. pose proof (sf_2 _ _ S) as S2. pose proof (sf_3 _ _ S) as S3.
  destruct (dev_fit_ok p t W B Hp Hn Oc F) as (r & E & FR & _).
  destruct (dev_fit_ok p t' W' B' Hp') as (r' & E' & FR' & _); auto; [lia|apply (oldest_frame t t'); auto|].
  exists r, r'. split; auto. split; auto. intros i c d n Hi Hc Hd Hnp Hs Ha.
  destruct (param_at t (p_average p) d) as [a|] eqn:Ea; [|destruct (fp_avg _ _ F d Hd Ea)].
  rewrite (fr_cell _ _ _ FR i c d a n) by auto.
  rewrite (fr_cell _ _ _ FR' i c d a n); [|rewrite (sf_0 _ _ S); auto|rewrite (sf_1 _ _ S); auto|lia|rewrite (param_at_frame t t'); auto|rewrite (param_at_frame t t'); auto].
  rewrite S2. unfold wavg.
  assert (G : forall f g, (forall o, (o < ax2 (values t))%nat -> selected p t n i c d o = true -> f o = g o) ->
     sum_over (ax2 (values t)) (selected p t' n i c d) f = sum_over (ax2 (values t)) (selected p t n i c d) g).
  { intros f g H. apply sumn_ext. intros o Ho. rewrite Hs by auto. destruct (selected p t n i c d o) eqn:Es; auto. }
  assert (EN : avg_num a (ax2 (values t)) (selected p t' n i c d) (fun o => amount t' i c o d) (fun o => amount t' i c o (Datatypes.S d)) =
     avg_num a (ax2 (values t)) (selected p t n i c d) (fun o => amount t i c o d) (fun o => amount t i c o (Datatypes.S d))).
  { destruct a; cbn [avg_num]; apply G; intros o Ho Es; destruct (Ha o Ho Es) as [Q1 Q2]; rewrite ?Q1, ?Q2; reflexivity. }
  assert (ED : avg_den a (ax2 (values t)) (selected p t' n i c d) (fun o => amount t' i c o d) = avg_den a (ax2 (values t)) (selected p t n i c d) (fun o => amount t i c o d)).
  { destruct a; cbn [avg_den]; apply G; intros o Ho Es; destruct (Ha o Ho Es) as [Q1 Q2]; rewrite ?Q1, ?Q2; reflexivity. }
  rewrite EN, ED. reflexivity.
Qed.
