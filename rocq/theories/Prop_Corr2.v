(** Property C58: the test for correlated development factors. *)
From Coq Require Import Lia.
From Verif Require Import P_Corr4 P_Corr5 Ex NumFacts SpecCorr.
Local Open Scope nat_scope.

(** C58. For every triangle with as many origins as ages, at least four, without gaps and with
    different link ratios per age: one number per pair of neighbouring ages.  It is the
    coefficient of correlation between the ranks of the link ratios of the two ages, over the
    origins that have both. *)
Theorem C58_rank_correlation : forall t n o0 a0 h, wf t -> blank_future t -> is_pattern t = false -> square t n o0 a0 h -> complete t -> untied t -> 4 <= n ->
  exists r, development_correlation t = Ok r /\
    forall i c, i < ax0 (values t) -> c < ax1 (values t) ->
      List.length (dt_t r i c) = n - 3 /\
      forall d, d < n - 3 -> let k := n - 2 - d in
        (forall o, in_range t i c o (S (S d)) -> (~ future t o (S (S d)) <-> o < k)) /\
        correlation k (rank_of k (fun o => ratio t i c o d)) (rank_of k (fun o => ratio t i c o (S d))) (nth d (dt_t r i c) 0%Qc).
Proof.
  intros t n o0 a0 h W B Hp Q Cm U Hn. destruct (development_ok t n o0 a0 h W B Hp Q Cm U Hn) as (r & E & H & _). exists r. split; [exact E|].
  intros i c Hi Hc. destruct (H i c Hi Hc) as (-> & _). rewrite map_length, seq_length. split; [reflexivity|]. intros d Hd k. rewrite ArrFacts.nth_map_seq by auto. split.
  - intros o (_ & _ & Ro & Rd). pose proof Q as (_ & E2 & E3). rewrite (square_future _ _ _ _ _ _ _ Q) by lia. unfold k. lia.
  - exact (spearman_correlation t n o0 a0 h i c d Q U Hi Hc Hd).
Qed.
Print Assumptions C58_rank_correlation.

(** C58. Every number is between -1 and 1. *)
Theorem C58_bounds : forall t n o0 a0 h r i c d, wf t -> blank_future t -> is_pattern t = false -> square t n o0 a0 h -> complete t -> untied t -> 4 <= n ->
  development_correlation t = Ok r -> i < ax0 (values t) -> c < ax1 (values t) -> d < n - 3 ->
  (- (1) <= nth d (dt_t r i c) 0 /\ nth d (dt_t r i c) 0 <= 1)%Qc.
Proof.
  intros t n o0 a0 h r i c d W B Hp Q Cm U Hn E Hi Hc Hd. destruct (C58_rank_correlation t n o0 a0 h W B Hp Q Cm U Hn) as (r' & E' & H). assert (r' = r) by congruence. subst r'.
  destruct (H i c Hi Hc) as (_ & H2). exact (correlation_bounds _ _ _ _ (proj2 (H2 d Hd))).
Qed.
Print Assumptions C58_bounds.
(** C58. It is 1 if the origins come in the same order by both link ratios and -1 if in
    opposite orders. *)
Theorem C58_same_order : forall t n o0 a0 h r i c d, wf t -> blank_future t -> is_pattern t = false -> square t n o0 a0 h -> complete t -> untied t -> 4 <= n ->
  development_correlation t = Ok r -> i < ax0 (values t) -> c < ax1 (values t) -> d < n - 3 ->
  (forall o o', o < n - 2 - d -> o' < n - 2 - d -> (ratio t i c o d < ratio t i c o' d <-> ratio t i c o (S d) < ratio t i c o' (S d))%Qc) ->
  nth d (dt_t r i c) 0%Qc = 1%Qc.
Proof.
  intros t n o0 a0 h r i c d W B Hp Q Cm U Hn E Hi Hc Hd Ord. destruct (C58_rank_correlation t n o0 a0 h W B Hp Q Cm U Hn) as (r' & E' & H). assert (r' = r) by congruence. subst r'.
  destruct (H i c Hi Hc) as (_ & H2). exact (same_order _ _ _ _ Ord (proj2 (H2 d Hd))).
Qed.
Print Assumptions C58_same_order.
Theorem C58_opposite_order : forall t n o0 a0 h r i c d, wf t -> blank_future t -> is_pattern t = false -> square t n o0 a0 h -> complete t -> untied t -> 4 <= n ->
  development_correlation t = Ok r -> i < ax0 (values t) -> c < ax1 (values t) -> d < n - 3 ->
  (forall o o', o < n - 2 - d -> o' < n - 2 - d -> (ratio t i c o d < ratio t i c o' d <-> ratio t i c o' (S d) < ratio t i c o (S d))%Qc) ->
  nth d (dt_t r i c) 0%Qc = (- (1))%Qc.
Proof.
  intros t n o0 a0 h r i c d W B Hp Q Cm U Hn E Hi Hc Hd Ord. destruct (C58_rank_correlation t n o0 a0 h W B Hp Q Cm U Hn) as (r' & E' & H). assert (r' = r) by congruence. subst r'.
  destruct (H i c Hi Hc) as (_ & H2). refine (opposite_order _ _ _ _ _ Ord (proj2 (H2 d Hd))). eapply untied_inj; eauto. lia.
Qed.
Print Assumptions C58_opposite_order.

(** C58. The statistic is the mean of these numbers, weighted by the number of pairs less one.
    It is between -1 and 1, and its variance is the reciprocal of the total weight. *)
Theorem C58_mean : forall t n o0 a0 h, wf t -> blank_future t -> is_pattern t = false -> square t n o0 a0 h -> complete t -> untied t -> 4 <= n ->
  exists r, development_correlation t = Ok r /\
    List.length (dt_weights r) = n - 3 /\
    (forall d, d < n - 3 -> nth d (dt_weights r) 0%Qc = qc (Z.of_nat (n - 2 - d) - 1)) /\
    (0 < qsum (dt_weights r))%Qc /\ (dt_variance r * qsum (dt_weights r) = 1)%Qc /\
    forall i c, i < ax0 (values t) -> c < ax1 (values t) ->
      (dt_mean r i c * qsum (dt_weights r) = sumn (n - 3) (fun d => nth d (dt_weights r) 0 * nth d (dt_t r i c) 0))%Qc /\
      (- (1) <= dt_mean r i c /\ dt_mean r i c <= 1)%Qc.
Proof.
  intros t n o0 a0 h W B Hp Q Cm U Hn. destruct (development_ok t n o0 a0 h W B Hp Q Cm U Hn) as (r & E & H & Hw & Hv). exists r. split; [exact E|].
  pose proof (weights_pos n Hn) as P. assert (P0 : sumn (n - 3) (fun d => qn (n - 2 - d) - 1)%Qc <> 0%Qc) by (intros E0; rewrite E0 in P; exact (Qlt_irrefl _ P)).
  assert (Sw : qsum (dt_weights r) = sumn (n - 3) (fun d => qn (n - 2 - d) - 1)%Qc) by (rewrite Hw, qsum_map_seq; reflexivity).
  split; [rewrite Hw, map_length, seq_length; reflexivity|]. split.
  { intros d Hd. rewrite Hw, ArrFacts.nth_map_seq by auto. unfold qn. change 1%Qc with (qc 1). rewrite <- P_Olf3.qcZ_minus. reflexivity. }
  rewrite Sw. split; [exact P|]. split.
  { rewrite (weights_total n Hn) in P0 |- *. rewrite Hv. assert (P2 : ((qn n - qc 2) * (qn n - qc 3))%Qc <> 0%Qc) by (intros E0; apply P0; rewrite E0; unfold Qcdiv; ring).
    set (z := ((qn n - qc 2) * (qn n - qc 3))%Qc) in *. field. split; auto. intros E0; apply (f_equal this) in E0; discriminate E0. }
  intros i c Hi Hc. destruct (H i c Hi Hc) as (Ht & Hm). split.
  - rewrite Hm, Ht, Hw. unfold Qcdiv. rewrite <- Qcmult_assoc, (Qcmult_comm (/ _)), Qcmult_inv_r, Qcmult_1_r by auto.
    apply sumn_ext. intros d Hd. rewrite !ArrFacts.nth_map_seq by auto. reflexivity.
  - eapply (mean_between (n - 3) (fun d => qn (n - 2 - d) - 1)%Qc (spearman_of t n i c)); auto.
    + intros d Hd. apply Qclt_le_weak. change 1%Qc with (qc 1). unfold qn. rewrite <- P_Olf3.qcZ_minus. apply P_Olf3.qcZ_pos. lia.
    + intros d Hd. exact (correlation_bounds _ _ _ _ (spearman_correlation t n o0 a0 h i c d Q U Hi Hc Hd)).
Qed.
Print Assumptions C58_mean.

(** Five accident years; the two orders are opposite. *)
Local Open Scope Z_scope.
Definition five : tri := tri_of
  [[Some 100; Some 200; Some 300; Some 330; Some 340];
   [Some 100; Some 180; Some 300; Some 320; None];
   [Some 100; Some 150; Some 280; None; None];
   [Some 100; Some 220; None; None; None];
   [Some 100; None; None; None; None]]
  [y 2001; y 2002; y 2003; y 2004; y 2005] (Ages [12; 24; 36; 48; 60]) (dec 2005) (Some true) false.
Definition completeb (t : tri) : bool :=
  forallb (fun o => forallb (fun d => (vdate t <? month_of t o d)%Z || negb (Qc_eqb (amount t 0 0 o d) 0)) (seq 0 (ax3 (values t)))) (seq 0 (ax2 (values t))).
Lemma completeb_ok t : ax0 (values t) = 1%nat -> ax1 (values t) = 1%nat -> completeb t = true -> complete t.
Proof.
  intros H0 H1 H i c o d (Ri & Rc & Ro & Rd) F. assert (i = 0%nat) by lia. assert (c = 0%nat) by lia. subst i c.
  unfold completeb in H. rewrite forallb_forall in H. specialize (H o ltac:(apply in_seq; lia)). rewrite forallb_forall in H. specialize (H d ltac:(apply in_seq; lia)).
  apply orb_true_iff in H. destruct H as [H|H]; [apply Z.ltb_lt in H; contradiction|]. destruct (Qc_eqb_spec (amount t 0 0 o d) 0%Qc); [discriminate|auto].
Qed.
Definition untiedb (t : tri) : bool :=
  forallb (fun d => forallb (fun o => forallb (fun o' => (vdate t <? month_of t o (S d))%Z || (vdate t <? month_of t o' (S d))%Z || (o =? o')%nat || negb (Qc_eqb (ratio t 0 0 o d) (ratio t 0 0 o' d)))
     (seq 0 (ax2 (values t)))) (seq 0 (ax2 (values t)))) (seq 0 (ax3 (values t) - 1)).
Lemma untiedb_ok t : ax0 (values t) = 1%nat -> ax1 (values t) = 1%nat -> untiedb t = true -> untied t.
Proof.
  intros H0 H1 H i c o o' d (Ri & Rc & Ro & Rd) (_ & _ & Ro' & _) F F' E. assert (i = 0%nat) by lia. assert (c = 0%nat) by lia. subst i c.
  unfold untiedb in H. rewrite forallb_forall in H. specialize (H d ltac:(apply in_seq; lia)). rewrite forallb_forall in H. specialize (H o ltac:(apply in_seq; lia)).
  rewrite forallb_forall in H. specialize (H o' ltac:(apply in_seq; lia)). rewrite !orb_true_iff in H. destruct H as [[[H|H]|H]|H].
  - apply Z.ltb_lt in H; contradiction.
  - apply Z.ltb_lt in H; contradiction.
  - apply Nat.eqb_eq, H.
  - rewrite E in H. destruct (Qc_eqb_spec (ratio t 0 0 o' d) (ratio t 0 0 o' d)); [discriminate|congruence].
Qed.
Lemma five_ok : wf five /\ blank_future five /\ is_pattern five = false /\ square five 5 (y 2001) 12 12 /\ complete five /\ untied five /\ (4 <= 5)%nat.
Proof.
  split; [apply wfb_ok; vm_compute; reflexivity|]. split; [apply blank_futureb_ok; vm_compute; reflexivity|]. split; [reflexivity|].
  split; [|split; [apply completeb_ok; try reflexivity; vm_compute; reflexivity|split; [apply untiedb_ok; try reflexivity; vm_compute; reflexivity|lia]]].
  split; [|split; reflexivity]. repeat split; try (cbn; lia); try reflexivity. intros k Hk. cbn in Hk. lia.
Qed.
Definition results (t : tri) (l : list Qc) (m : Qc) : bool :=
  match development_correlation t with
  | Ok r => forallb (fun p => Qc_eqb (fst p) (snd p)) (combine (dt_t r 0%nat 0%nat) l) && Nat.eqb (List.length (dt_t r 0%nat 0%nat)) (List.length l) && Qc_eqb (dt_mean r 0%nat 0%nat) m
  | _ => false end.
Example C58_hyps : exists r, development_correlation five = Ok r /\ nth 0 (dt_t r 0%nat 0%nat) 0%Qc = (- (1))%Qc.
Proof.
  destruct five_ok as (W & B & P & Q & C & U & N). destruct (C58_rank_correlation five 5 (y 2001) 12 12 W B P Q C U N) as (r & E & _). exists r. split; [exact E|].
  apply (C58_opposite_order five 5 (y 2001) 12 12 r 0 0 0 W B P Q C U N E); try (cbn; lia).
  intros o o' Ho Ho'. do 3 (destruct o as [|o]; [do 3 (destruct o' as [|o']; [vm_compute; split; intros H; first [reflexivity | discriminate H]|]); exfalso; lia|]). exfalso; lia.
Qed.
Example C58_five : results five [qc (-1); qc (-1)] (qc (-1)) = true.
Proof. vm_compute. reflexivity. Qed.

(** C58. The test rejects if the mean is outside the interval, for the first row and column. *)
Theorem C58_reject : forall c r, reject c r = true <-> (dt_mean r 0 0 < - c \/ c < dt_mean r 0 0)%Qc.
Proof.
  intros c r. unfold reject, mean_critical. destruct (Qc_ltb_spec (dt_mean r 0 0) (- c)), (Qc_ltb_spec c (dt_mean r 0 0)); cbn; intuition discriminate.
Qed.
Print Assumptions C58_reject.

(** C58, violated: [reject] says no although another column of the same triangle is rejected. *)
Definition two_columns : tri :=
  set_vdims (set_values five (Arr 1 2 5 5 (fun i c o d => if (c =? 0)%nat then
     option_map qc (nth d (nth o
  [[Some 100; Some 200; Some 300; Some 330; Some 350];
   [Some 100; Some 180; Some 300; Some 345; None];
   [Some 100; Some 190; Some 280; None; None];
   [Some 100; Some 220; None; None; None];
   [Some 100; None; None; None; None]] []) None) else av (values five) i 0 o d))) ["paid"%string; "incurred"%string].
Definition two_columns_check : bool :=
  match development_correlation two_columns with
  | Ok r => negb (reject (qc 1 / qc 2)%Qc r) && Qc_ltb (dt_mean r 0 1)%nat (- (qc 1 / qc 2))%Qc
  | _ => false end.
Theorem C58_reject_refuted : exists t r c, wf t /\ blank_future t /\ development_correlation t = Ok r /\ (0 < c)%Qc /\
  reject c r = false /\ (dt_mean r 0 1 < - c)%Qc.
Proof.
  assert (H : two_columns_check = true) by (vm_compute; reflexivity). unfold two_columns_check in H.
  destruct (development_correlation two_columns) as [r|] eqn:E; [|discriminate]. apply andb_true_iff in H. destruct H as (H1 & H2).
  exists two_columns, r, (qc 1 / qc 2)%Qc. split; [apply wfb_ok; vm_compute; reflexivity|]. split; [apply blank_futureb_ok; vm_compute; reflexivity|]. split; [exact E|].
  split; [vm_compute; reflexivity|]. split; [apply negb_true_iff, H1|]. apply (reflect_iff _ _ (Qc_ltb_spec _ _)), H2.
Qed.
Print Assumptions C58_reject_refuted.

(** C58, violated: equal link ratios throughout count as perfectly correlated. *)
Definition flat : tri := tri_of
  [[Some 100; Some 200; Some 300; Some 330; Some 340];
   [Some 100; Some 200; Some 300; Some 330; None];
   [Some 100; Some 200; Some 300; None; None];
   [Some 100; Some 200; None; None; None];
   [Some 100; None; None; None; None]]
  [y 2001; y 2002; y 2003; y 2004; y 2005] (Ages [12; 24; 36; 48; 60]) (dec 2005) (Some true) false.
Definition mean_one (t : tri) : bool := match development_correlation t with Ok r => Qc_eqb (dt_mean r 0 0)%nat 1 | _ => false end.
Theorem C58_ties_refuted : exists t r, wf t /\ blank_future t /\ square t 5 (y 2001) 12 12 /\ complete t /\
  (forall o o' d, in_range t 0 0 o (S d) -> in_range t 0 0 o' (S d) -> ~ future t o (S d) -> ~ future t o' (S d) -> ratio t 0 0 o d = ratio t 0 0 o' d) /\
  development_correlation t = Ok r /\ dt_mean r 0%nat 0%nat = 1%Qc.
Proof.
  assert (H : mean_one flat = true) by (vm_compute; reflexivity). unfold mean_one in H.
  destruct (development_correlation flat) as [r|] eqn:E; [|discriminate]. exists flat, r.
  split; [apply wfb_ok; vm_compute; reflexivity|]. split; [apply blank_futureb_ok; vm_compute; reflexivity|].
  split. { split; [|split; reflexivity]. repeat split; try (cbn; lia); try reflexivity. intros k Hk. cbn in Hk. lia. }
  split; [apply completeb_ok; try reflexivity; vm_compute; reflexivity|]. split; [|split; [exact E|apply (reflect_iff _ _ (Qc_eqb_spec _ _)), H]].
  assert (G : forall o d, in_range flat 0 0 o (S d) -> ~ future flat o (S d) -> ratio flat 0 0 o d = ratio flat 0 0 0 d).
  { intros o d (_ & _ & Ro & Rd) F. cbn in Ro, Rd. do 5 (destruct o as [|o]; [do 5 (destruct d as [|d]; [first [exfalso; lia | exfalso; apply F; vm_compute; reflexivity | reflexivity]|]); lia|]). lia. }
  intros o o' d R R' F F'. rewrite (G o d R F), (G o' d R' F'). reflexivity.
Qed.
Print Assumptions C58_ties_refuted.

(** C58, violated: a triangle with more origins than ages is refused. *)
Definition more_origins : tri := tri_of
  [[Some 100; Some 200; Some 300; Some 330];
   [Some 100; Some 180; Some 300; Some 320];
   [Some 100; Some 150; Some 280; None];
   [Some 100; Some 220; None; None];
   [Some 100; None; None; None]]
  [y 2001; y 2002; y 2003; y 2004; y 2005] (Ages [12; 24; 36; 48]) (dec 2005) (Some true) false.
Theorem C58_more_origins_refuted : exists t, wf t /\ blank_future t /\ complete t /\ untied t /\
  ax2 (values t) = 5%nat /\ ax3 (values t) = 4%nat /\ development_correlation t = Err ValueError.
Proof.
  exists more_origins. split; [apply wfb_ok; vm_compute; reflexivity|]. split; [apply blank_futureb_ok; vm_compute; reflexivity|].
  split; [apply completeb_ok; try reflexivity; vm_compute; reflexivity|]. split; [apply untiedb_ok; try reflexivity; vm_compute; reflexivity|].
  split; [reflexivity|]. split; [reflexivity|]. vm_compute. reflexivity.
Qed.
Print Assumptions C58_more_origins_refuted.
(** C58. So is one with three ages: no two origins have three link ratios. *)
Theorem C58_three_ages : forall t n o0 a0 h, wf t -> blank_future t -> is_pattern t = false -> square t n o0 a0 h -> complete t -> n = 3%nat ->
  exists e, development_correlation t = Err e.
Proof. exact three_ages. Qed.
Print Assumptions C58_three_ages.
Example C58_three_ages_hyps : wf ex3 /\ blank_future ex3 /\ is_pattern ex3 = false /\ square ex3 3 (y 2001) 12 12 /\ complete ex3.
Proof.
  split; [apply wfb_ok; vm_compute; reflexivity|]. split; [apply blank_futureb_ok; vm_compute; reflexivity|]. split; [reflexivity|].
  split; [|apply completeb_ok; try reflexivity; vm_compute; reflexivity]. split; [|split; reflexivity]. repeat split; try (cbn; lia); try reflexivity. intros k Hk. cbn in Hk. lia.
Qed.

(** C58, violated: with fewer origins than ages the number of pairs is taken from the ages.  Here
    the link ratios of the first two ages come in opposite orders, and the coefficient is
    positive. *)
Definition more_ages : tri := tri_of
  [[Some 100; Some 200; Some 300; Some 320; Some 352; Some 352];
   [Some 100; Some 180; Some 290; Some 310; Some 330; None];
   [Some 100; Some 150; Some 280; Some 299; None; None]]
  [y 2001; y 2002; y 2003] (Ages [12; 24; 36; 48; 60; 72]) (dec 2006) (Some true) false.
Definition more_ages_check : bool := match development_correlation more_ages with Ok r => Qc_eqb (nth 0 (dt_t r 0%nat 0%nat) 0%Qc) (qc 1 / qc 5)%Qc | _ => false end.
Theorem C58_more_ages_refuted : exists t r, wf t /\ blank_future t /\ complete t /\ untied t /\ regular t (y 2001) 12 12 1 3 /\
  ax2 (values t) = 3%nat /\ development_correlation t = Ok r /\
  (ratio t 0 0 0 0 > ratio t 0 0 1 0 /\ ratio t 0 0 1 0 > ratio t 0 0 2 0)%Qc /\ (ratio t 0 0 0 1 < ratio t 0 0 1 1 /\ ratio t 0 0 1 1 < ratio t 0 0 2 1)%Qc /\
  (0 < nth 0 (dt_t r 0%nat 0%nat) 0)%Qc.
Proof.
  assert (H : more_ages_check = true) by (vm_compute; reflexivity). unfold more_ages_check in H.
  destruct (development_correlation more_ages) as [r|] eqn:E; [|discriminate]. exists more_ages, r.
  split; [apply wfb_ok; vm_compute; reflexivity|]. split; [apply blank_futureb_ok; vm_compute; reflexivity|].
  split; [apply completeb_ok; try reflexivity; vm_compute; reflexivity|]. split; [apply untiedb_ok; try reflexivity; vm_compute; reflexivity|].
  split. { repeat split; try (cbn; lia); try reflexivity. intros k Hk. cbn in Hk. lia. }
  split; [reflexivity|]. split; [exact E|]. split; [split; vm_compute; reflexivity|]. split; [split; vm_compute; reflexivity|].
  destruct (Qc_eqb_spec (nth 0 (dt_t r 0%nat 0%nat) 0%Qc) (qc 1 / qc 5)%Qc) as [E5|]; [|discriminate]. rewrite E5. vm_compute. reflexivity.
Qed.
Print Assumptions C58_more_ages_refuted.
