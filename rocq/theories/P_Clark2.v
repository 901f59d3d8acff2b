(** Proofs about ClarkLDF: the parts of the triangle used by the fit, and the fitted quantities. *)
From Coq Require Import Reals Lra Lia.
From Verif Require Import Spec TriFacts ArrFacts ConvFacts SliceFacts P_Core P_Filter P_Methods P_Arith P_Agg P_Corr5 BcastFacts NumFacts P_Mack P_Berq2 P_Clark1 SpecClark.
Local Open Scope nat_scope.

Section Parts.
Variables (t : tri) (n : nat).
Hypothesis I : clark_input t n.

Lemma cl_dims : ax2 (values t) = n /\ ax3 (values t) = n.
Proof using I. destruct (cl_square _ _ I) as (o0 & a0 & h & (_ & E2 & E3) & _). auto. Qed.
Lemma cl_future o d : o < n -> d < n -> (future t o d <-> n - 1 < o + d).
Proof using I. intros Ho Hd. destruct (cl_square _ _ I) as (o0 & a0 & h & Q & _). apply (square_future _ _ _ _ _ _ _ Q); auto. Qed.
Lemma cl_latest o d : o < n -> d < n -> (month_of t o d = vdate t <-> o + d = n - 1).
Proof using I.
  intros Ho Hd. destruct (cl_square _ _ I) as (o0 & a0 & h & Q & _). assert (1 <= h) by apply Q.
  rewrite (square_month _ _ _ _ _ _ _ Q Ho Hd), (square_vdate _ _ _ _ _ Q). nia.
Qed.
Lemma cl_age d : d < n -> exists a0 h, (1 <= h) /\ grain_months (dgrain t) = Z.of_nat h /\ (Z.of_nat h < 2 * a0)%Z /\ nth d (dlist (ddims t)) 0%Z = (a0 + Z.of_nat (h * d))%Z.
Proof using I.
  intros Hd. destruct (cl_square _ _ I) as (o0 & a0 & h & ((H1 & _ & _ & Ed & _) & E2 & E3) & G & L). exists a0, h. repeat (split; auto).
  rewrite Ed, E3. cbn [dlist]. rewrite (nth_indep _ 0%Z (a0 + Z.of_nat (h * 0))%Z) by (rewrite map_length, seq_length; auto).
  rewrite (map_nth (fun k => (a0 + Z.of_nat (h * k))%Z)), seq_nth by auto. reflexivity.
Qed.
Lemma cl_len : List.length (dlist (ddims t)) = n.
Proof using I. rewrite <- (wf_d _ (cl_wf _ _ I)). apply cl_dims. Qed.

Lemma offset_half : age_offset (dgrain t) = (IZR (grain_months (dgrain t)) / 2)%R.
Proof. destruct (dgrain t); cbn; lra. Qed.
Lemma interval_months : age_interval (dgrain t) = IZR (grain_months (dgrain t)).
Proof. destruct (dgrain t); reflexivity. Qed.
Lemma end_average d : end_age t d = average_age t d.
Proof. unfold end_age, average_age. rewrite offset_half. reflexivity. Qed.

Lemma average_pos d : d < n -> (0 < average_age t d)%R.
Proof using I.
  intros Hd. destruct (cl_age d Hd) as (a0 & h & H1 & G & L & E). unfold average_age. rewrite G, E.
  assert (X : (IZR (Z.of_nat h) < 2 * IZR (a0 + Z.of_nat (h * d)))%R). { rewrite <- mult_IZR. apply IZR_lt. lia. } lra.
Qed.
Lemma average_step d : S d < n -> average_age t (S d) = (average_age t d + IZR (grain_months (dgrain t)))%R.
Proof using I.
  intros Hd. destruct (cl_square _ _ I) as (o0 & a0 & h & ((H1 & _ & _ & Ed & _) & E2 & E3) & G & L). unfold average_age.
  assert (X : forall k, k < n -> nth k (dlist (ddims t)) 0%Z = (a0 + Z.of_nat (h * k))%Z).
  { intros k Hk. rewrite Ed, E3. cbn [dlist]. rewrite (nth_indep _ 0%Z (a0 + Z.of_nat (h * 0))%Z) by (rewrite map_length, seq_length; auto).
    rewrite (map_nth (fun k => (a0 + Z.of_nat (h * k))%Z)), seq_nth by auto. reflexivity. }
  rewrite !X, G by lia. replace (a0 + Z.of_nat (h * S d))%Z with (a0 + Z.of_nat (h * d) + Z.of_nat h)%Z by lia. rewrite plus_IZR. lra.
Qed.
Lemma months_pos : (0 < IZR (grain_months (dgrain t)))%R.
Proof using I. destruct (cl_square _ _ I) as (o0 & a0 & h & ((H1 & _) & _) & G & L). rewrite G. apply IZR_lt. lia. Qed.
Lemma average_mono d d' : d < d' -> d' < n -> (average_age t d < average_age t d')%R.
Proof using I.
  intros L. induction L as [|m L IH]; intros Hm; rewrite average_step by auto; pose proof months_pos; [lra|]. specialize (IH ltac:(lia)). lra.
Qed.

Lemma nan_r_known o d : o < n -> d < n -> nan_r t o d = if o + d <? n then Some 1%R else None.
Proof using I.
  intros Ho Hd. pose proof cl_dims as (E2 & E3). pose proof (cl_n _ _ I). unfold nan_r. rewrite nan_triangle_cases by (try apply (cl_wf _ _ I); lia). rewrite E2, E3, Nat.min_id.
  destruct (Nat.eqb_spec n 1); [lia|]. pose proof (cl_future o d Ho Hd) as F. unfold future in F.
  destruct (Z.ltb_spec (vdate t) (month_of t o d)); destruct (Nat.ltb_spec (o + d) n); auto; exfalso; [assert (n - 1 < o + d) by (apply F; auto)|assert (vdate t < month_of t o d)%Z by (apply F; lia)]; lia.
Qed.

Record parts (ld inc lat lr : tri) : Prop := {
  pa_ld : forall i c o, i < ax0 (values t) -> c < ax1 (values t) -> o < n -> stores (cel ld i c o 0) (amount t i c o (n - 1 - o));
  pa_inc : forall i c o d, i < ax0 (values t) -> c < ax1 (values t) -> o + d < n -> nz (cel inc i c o d) = increment_of t i c o d;
  pa_inc2 : forall i c o d, i < ax0 (values t) -> c < ax1 (values t) -> o + d < n -> 1 <= d -> stores (cel inc i c o d) (increment_of t i c o d);
  pa_lat : ddims lat = ddims t;
  pa_latc : forall i c k, i < ax0 (values t) -> c < ax1 (values t) -> k < n -> cel lat i c 0 k = n2n (cel t i c (n - 1 - k) k);
  pa_lr : ddims lr = dmap (firstn (n - 1)) (ddims t) }.

Lemma clark_parts : exists ld inc s lat lr,
  latest_diagonal t = Ok ld /\ cum_to_incr t = Ok inc /\ getitem_valuation t (fun o d => valuation t o d =? vdate t)%Z = Ok s /\
  aggregate ASum (Some AxOrigin) false s = Ok (AggTri lat) /\ link_ratio t = Ok lr /\ parts ld inc lat lr.
Proof using I.
  pose proof (cl_wf _ _ I) as W. pose proof (cl_n _ _ I) as Hn. pose proof cl_dims as (E2 & E3).
  destruct (cl_square _ _ I) as (o0 & a0 & h & Q & _).
  destruct (latest_diagonal_ok2 t W (regular_even_diag _ _ _ _ _ _ W (proj1 Q))) as (ld & Eld & _ & _ & _ & _ & _ & _ & _ & _ & _ & Lc & _).
  destruct (cum_to_incr_cell t W (cl_plain _ _ I)) as (inc & Einc & _ & _ & _ & Ic); [rewrite (cl_cum _ _ I); discriminate|lia|].
  set (key := fun o d => (valuation t o d =? vdate t)%Z).
  assert (K : forall o d, o < n -> d < n -> (key o d = true <-> o + d = n - 1)).
  { intros o d Ho Hd. unfold key. rewrite valuation_month by (auto; lia). rewrite Z.eqb_eq. apply cl_latest; auto. }
  assert (Rw : kept_rows t key = seq 0 n).
  { unfold kept_rows. rewrite E2. apply filter_all. intros o Ho. apply in_seq in Ho. apply existsb_exists. exists (n - 1 - o). split; [apply in_seq; lia|]. apply K; lia. }
  assert (Cl : kept_cols t key = seq 0 n).
  { unfold kept_cols. rewrite E3. apply filter_all. intros o Ho. apply in_seq in Ho. apply existsb_exists. exists (n - 1 - o). split; [apply in_seq; lia|]. apply K; lia. }
  destruct (getitem_valuation_ok t key W ltac:(lia)) as (s & Es & Sl).
  { exists 0, (n - 1). split; [lia|]. split; [lia|]. apply K; lia. }
  { apply (evenly_interval _ _ 0 n). intros o Ho. split; [lia|]. intros L. exists (n - 1 - o). split; [lia|]. apply K; lia. }
  { apply (evenly_interval _ _ 0 n). intros d Hd. split; [lia|]. intros L. exists (n - 1 - d). split; [lia|]. apply K; lia. }
  assert (So : odims s = odims t) by (rewrite (sl_o _ _ _ Sl), Rw; apply sel_seq_all; rewrite <- (wf_o _ W); auto).
  assert (Sd : ddims s = ddims t).
  { rewrite (sl_d _ _ _ Sl), Cl. pose proof (wf_d _ W) as Wd. destruct (ddims t) as [x|x]; cbn [dmap dlist] in *; f_equal; apply sel_seq_all; congruence. }
  assert (S2 : ax2 (values s) = n) by (rewrite (sl_2 _ _ _ Sl), Rw; apply seq_length).
  assert (S3 : ax3 (values s) = n) by (rewrite (sl_3 _ _ _ Sl), Cl; apply seq_length).
  assert (O : (1 <? List.length (odims s)) = true) by (rewrite So, <- (wf_o _ W), E2; apply Nat.ltb_lt; lia).
  assert (X : agg_axis ASum s AxOrigin = set_odims (set_values s (map_arr n2n (reduce_arr ASum 2 (values s)))) (firstn 1 (odims s))) by (unfold agg_axis; rewrite O; reflexivity).
  destruct (link_ratio_ok t W (cl_blank _ _ I) (cl_plain _ _ I)) as (lr & no & nd & Elr & _ & _ & _ & Ld & _ & Nd & _ & _ & _ & _ & _ & _ & Nf).
  { exists 0, 0. split; [lia|]. split; [lia|]. destruct (Z.le_gt_cases (month_of t 0 1) (vdate t)); auto. exfalso. assert (n - 1 < 0 + 1) by (apply cl_future; [lia|lia|unfold future; lia]). lia. }
  assert (Nd' : nd = n - 1).
  { destruct (Nat.eq_dec nd (n - 1)); auto. exfalso. assert (F : future t 0 (S (n - 2))) by (apply Nf; lia). apply cl_future in F; lia. }
  exists ld, inc, s, (agg_axis ASum s AxOrigin), lr. split; [exact Eld|]. split; [exact Einc|]. split; [exact Es|]. split.
  { unfold aggregate. assert (Y : ax3 (values (agg_axis ASum s AxOrigin)) =? 1 = false). { rewrite X. change (ax3 (values s) =? 1 = false). rewrite S3. apply Nat.eqb_neq. lia. }
    rewrite Y, !andb_false_r. reflexivity. }
  split; [exact Elr|].
  assert (Inc2 : forall i c o d, i < ax0 (values t) -> c < ax1 (values t) -> o + d < n -> 1 <= d -> stores (cel inc i c o d) (increment_of t i c o d)).
  { intros i c o d Hi Hc Ho Hd. rewrite Ic by (unfold in_range; lia). destruct d as [|k]; [lia|].
    assert (D : diff_kept t o (S k) = true).
    { unfold diff_kept. pose proof (cl_future o (S k) ltac:(lia) ltac:(lia)) as F. unfold future in F. apply Bool.orb_true_iff. right. destruct (Z.ltb_spec (vdate t) (month_of t o (S k))); auto. exfalso. assert (n - 1 < o + S k) by (apply F; auto). lia. }
    rewrite D. unfold increment_of. cbn [n2n]. unfold stores. destruct (Qc_eqb_spec (amount t i c o (S k) - amount t i c o k)%Qc 0%Qc); split; intros; auto; contradiction. }
  constructor; auto.
  - intros i c o Hi Hc Ho. apply Lc; [unfold in_range; lia|]. apply cl_latest; lia.
  - intros i c o d Hi Hc Ho. destruct d as [|k]; [rewrite Ic by (unfold in_range; lia); reflexivity|].
    destruct (Inc2 i c o (S k) Hi Hc Ho ltac:(lia)) as (A & B). destruct (Qc_eq_dec (increment_of t i c o (S k)) 0%Qc) as [Z|Z]; [rewrite (A Z), Z|rewrite (B Z)]; reflexivity.
  - rewrite X. change (ddims s = ddims t). exact Sd.
  - intros i c k Hi Hc Hk. rewrite X. change (n2n (agg_line ASum (map (fun j => av (values s) i c j k) (seq 0 (ax2 (values s))))) = n2n (cel t i c (n - 1 - k) k)). rewrite S2.
    rewrite <- (diagonal_agg t n Hn ltac:(lia) ASum (fun o => cel t i c o k) k (or_introl eq_refl) Hk). do 2 f_equal. apply map_ext_in. intros o Ho. apply in_seq in Ho. change (cel s i c o k = if o + k =? n - 1 then n2n (cel t i c o k) else None).
    rewrite (sl_cell _ _ _ Sl) by (rewrite ?Rw, ?Cl, ?seq_length; auto; lia). rewrite Rw, Cl, !seq_nth by lia. cbn [Nat.add].
    pose proof (K o k ltac:(lia) Hk). destruct (key o k); destruct (Nat.eqb_spec (o + k) (n - 1)); auto; exfalso; [assert (o + k = n - 1) by tauto; lia|assert (false = true) by tauto; discriminate].
  - rewrite Ld, Nd'. reflexivity.
Qed.
End Parts.
