(** Lemmas about valuations, clipping and selection. *)
From Coq Require Import Lia Sorted.
From Verif Require Export ArrFacts Spec.
Local Open Scope Z_scope.

Lemma sorted_nth_lt l i j d : StronglySorted Z.lt l -> (i < j < List.length l)%nat -> nth i l d < nth j l d.
Proof.
  intros H; revert i j; induction H as [|a l Hs IH Hf]; intros i j Hij; simpl in Hij; [lia|].
  destruct j as [|j]; [lia|]. destruct i as [|i]; simpl.
  - rewrite Forall_forall in Hf. apply Hf, nth_In. lia.
  - apply IH. lia.
Qed.
Lemma sorted_nth_le l i j d : StronglySorted Z.lt l -> (i <= j < List.length l)%nat -> nth i l d <= nth j l d.
Proof.
  intros H Hij. destruct (Nat.eq_dec i j) as [->|]; [lia|].
  apply Z.lt_le_incl, sorted_nth_lt; auto; lia.
Qed.
Lemma sorted_nth_inj l i j d : StronglySorted Z.lt l -> (i < List.length l)%nat -> (j < List.length l)%nat ->
  nth i l d = nth j l d -> i = j.
Proof.
  intros H Hi Hj E. destruct (Nat.lt_trichotomy i j) as [L|[L|L]]; auto.
  - pose proof (sorted_nth_lt l i j d H). lia.
  - pose proof (sorted_nth_lt l j i d H). lia.
Qed.
Lemma last_nth {A} (l : list A) d : last l d = nth (List.length l - 1) l d.
Proof.
  induction l as [|a l IH]; [reflexivity|]. destruct l as [|b l]; [reflexivity|].
  change (last (a :: b :: l) d) with (last (b :: l) d). rewrite IH.
  simpl List.length. replace (S (S (List.length l)) - 1)%nat with (S (List.length l)) by lia.
  replace (S (List.length l) - 1)%nat with (List.length l) by lia. reflexivity.
Qed.

Lemma valuation_month t o d : wf t -> (o < ax2 (values t))%nat -> (d < ax3 (values t))%nat ->
  valuation t o d = month_of t o d.
Proof.
  intros W Ho Hd. unfold valuation, month_of, age_month. rewrite (wf_o _ W) in Ho. rewrite (wf_d _ W) in Hd.
  pose proof (wf_dev _ W) as Hw. pose proof (wf_dsort _ W) as Hs. destruct (ddims t) as [l|l]; auto.
  simpl in *. destruct Hw as (Ha & Hov & _). rewrite last_nth. unfold ULT_AGE.
  destruct (Z.eqb_spec (nth d l 0) 9999) as [E|E].
  - assert (d = List.length l - 1)%nat.
    { destruct (Nat.eq_dec d (List.length l - 1)); auto.
      pose proof (sorted_nth_lt l d (List.length l - 1) 0 Hs).
      assert (In (nth (List.length l - 1) l 0) l) by (apply nth_In; lia).
      pose proof (Ha _ H0). lia. }
    subst d. rewrite E, Z.eqb_refl, Nat.eqb_refl. reflexivity.
  - assert (Eb : (nth (List.length l - 1) l 0 =? 9999) && (d =? List.length l - 1)%nat = false).
    { destruct (Nat.eqb_spec d (List.length l - 1)).
      - subst d. destruct (Z.eqb_spec (nth (List.length l - 1) l 0) 9999); auto. congruence.
      - apply andb_false_r. }
    rewrite Eb. rewrite Z.min_l; auto. apply Hov, nth_In; auto.
Qed.

Lemma age_month_ge o a : 1 <= a -> o <= ULT_VAL -> o <= age_month o a.
Proof. unfold age_month, ULT_VAL. destruct (Z.eqb_spec a 9999); lia. Qed.

(** Valuations do not decrease along a row. *)
Lemma month_mono t o d d' : wf t -> (o < ax2 (values t))%nat -> (d <= d' < ax3 (values t))%nat ->
  month_of t o d <= month_of t o d'.
Proof.
  intros W Ho Hd. pose proof (wf_dev _ W) as Hw. pose proof (wf_dsort _ W) as Hs.
  rewrite (wf_o _ W) in Ho. rewrite (wf_d _ W) in Hd. unfold month_of.
  destruct (ddims t) as [l|l]; simpl in *.
  - destruct Hw as (Ha & Hov & Hu).
    pose proof (sorted_nth_le l d d' 0 Hs Hd).
    assert (I1 : In (nth d l 0) l) by (apply nth_In; lia).
    assert (I2 : In (nth d' l 0) l) by (apply nth_In; lia).
    assert (I3 : In (nth o (odims t) 0) (odims t)) by (apply nth_In; lia).
    pose proof (Hu _ _ I3 I1) as U1. pose proof (Ha _ I2) as A2. unfold age_month in *. unfold ULT_VAL in *.
    destruct (Z.eqb_spec (nth d l 0) 9999), (Z.eqb_spec (nth d' l 0) 9999); lia.
  - apply sorted_nth_le; auto.
Qed.

(** ... and in fact strictly increase. *)
Lemma month_strict t o d d' : wf t -> (o < ax2 (values t))%nat -> (d < d' < ax3 (values t))%nat ->
  month_of t o d < month_of t o d'.
Proof.
  intros W Ho Hd. pose proof (wf_dev _ W) as Hw. pose proof (wf_dsort _ W) as Hs.
  rewrite (wf_o _ W) in Ho. rewrite (wf_d _ W) in Hd. unfold month_of.
  destruct (ddims t) as [l|l]; simpl in *.
  - destruct Hw as (Ha & Hov & Hu).
    pose proof (sorted_nth_lt l d d' 0 Hs Hd).
    assert (I1 : In (nth d l 0) l) by (apply nth_In; lia).
    assert (I2 : In (nth d' l 0) l) by (apply nth_In; lia).
    assert (I3 : In (nth o (odims t) 0) (odims t)) by (apply nth_In; lia).
    pose proof (Hu _ _ I3 I1) as U1. pose proof (Ha _ I2) as A2. pose proof (Ha _ I1) as A1.
    unfold age_month in *. unfold ULT_VAL in *.
    destruct (Z.eqb_spec (nth d l 0) 9999), (Z.eqb_spec (nth d' l 0) 9999); lia.
  - apply sorted_nth_lt; auto.
Qed.
Lemma month_inj t o d d' : wf t -> (o < ax2 (values t))%nat -> (d < ax3 (values t))%nat -> (d' < ax3 (values t))%nat ->
  month_of t o d = month_of t o d' -> d = d'.
Proof.
  intros W Ho Hd Hd' E. destruct (Nat.lt_trichotomy d d') as [L|[L|L]]; auto.
  - pose proof (month_strict t o d d' W Ho). lia.
  - pose proof (month_strict t o d' d W Ho). lia.
Qed.

Lemma nan_triangle_cases t o d : wf t -> (o < ax2 (values t))%nat -> (d < ax3 (values t))%nat ->
  nan_triangle t o d =
    if (Nat.min (ax2 (values t)) (ax3 (values t)) =? 1)%nat then Some 1%Qc
    else if vdate t <? month_of t o d then None else Some 1%Qc.
Proof. intros W Ho Hd. unfold nan_triangle. rewrite valuation_month; auto. Qed.

(** ** Selection *)
Definition incr_pos (l : list nat) (n : nat) : Prop :=
  StronglySorted lt l /\ (forall x, In x l -> (x < n)%nat).

Lemma incr_pos_seq a m n : (a + m <= n)%nat -> incr_pos (seq a m) n.
Proof.
  intros H. split.
  - clear H n. revert a; induction m as [|m IH]; intros a; simpl; constructor; auto.
    apply Forall_forall. intros x Hx. apply in_seq in Hx. lia.
  - intros x Hx. apply in_seq in Hx. lia.
Qed.
Lemma incr_pos_filter f n : incr_pos (filter f (seq 0 n)) n.
Proof.
  split.
  - generalize 0%nat. induction n as [|n IH]; intros a; simpl; [constructor|].
    destruct (f a); auto. constructor; auto. apply Forall_forall. intros x Hx.
    apply filter_In in Hx. destruct Hx as [Hx _]. apply in_seq in Hx. lia.
  - intros x Hx. apply filter_In in Hx. destruct Hx as [Hx _]. apply in_seq in Hx. lia.
Qed.
Lemma StronglySorted_lt_NoDup l : StronglySorted lt l -> NoDup l.
Proof.
  induction 1 as [|a l Hs IH Hf]; constructor; auto.
  intros Hin. rewrite Forall_forall in Hf. specialize (Hf _ Hin). lia.
Qed.
Lemma incr_pos_NoDup l n : incr_pos l n -> NoDup l.
Proof. intros [H _]; apply StronglySorted_lt_NoDup, H. Qed.

Lemma sel_length {A} (l : list A) d ix : List.length (sel l d ix) = List.length ix.
Proof. apply map_length. Qed.
Lemma nth_sel {A} (l : list A) d ix i e : (i < List.length ix)%nat -> nth i (sel l d ix) e = nth (nth i ix 0%nat) l d.
Proof.
  intros H. unfold sel. rewrite (nth_indep _ e (nth 0 l d)) by (rewrite map_length; auto).
  rewrite (map_nth (fun i => nth i l d)). reflexivity.
Qed.
Lemma sel_sorted l ix : StronglySorted Z.lt l -> incr_pos ix (List.length l) -> StronglySorted Z.lt (sel l 0 ix).
Proof.
  intros Hl [Hs Hin]. induction Hs as [|a ix Hs IH Hf]; simpl; constructor.
  - apply IH. intros x Hx; apply Hin; right; auto.
  - apply Forall_forall. intros x Hx. apply in_map_iff in Hx. destruct Hx as (j & <- & Hj).
    apply sorted_nth_lt; auto. split.
    + rewrite Forall_forall in Hf. apply Hf; auto.
    + apply Hin; right; auto.
Qed.
Lemma sel_in {A} (l : list A) d ix x : (forall i, In i ix -> (i < List.length l)%nat) -> In x (sel l d ix) -> In x l.
Proof.
  intros H Hx. apply in_map_iff in Hx. destruct Hx as (j & <- & Hj). apply nth_In; auto.
Qed.
Lemma sel_seq_all {A} (l : list A) d n : n = List.length l -> sel l d (seq 0 n) = l.
Proof.
  intros ->. unfold sel. induction l as [|a l IH]; [reflexivity|].
  simpl. f_equal. rewrite <- seq_shift, map_map. apply IH.
Qed.

Lemma wf_sel t ik ic io id : wf t -> incr_pos io (ax2 (values t)) -> incr_pos id (ax3 (values t)) ->
  (1 <= List.length io)%nat -> (1 <= List.length id)%nat ->
  wf (sel_tri t ik ic io id).
Proof.
  intros W Ho Hd L1 L2. pose proof (wf_dev _ W) as Hw.
  rewrite (wf_o _ W) in Ho. rewrite (wf_d _ W) in Hd.
  constructor; simpl; rewrite ?sel_length; auto.
  - destruct (ddims t); simpl; rewrite sel_length; auto.
  - apply sel_sorted; auto. apply W.
  - pose proof (wf_dsort _ W). destruct (ddims t); simpl in *; apply sel_sorted; auto.
  - apply W.
  - destruct (ddims t) as [l|l]; simpl in *.
    + destruct Hw as (H1 & H2 & H3). destruct Ho as [_ Ho], Hd as [_ Hd]. repeat split.
      * apply H1. eapply sel_in; eauto.
      * apply H1. eapply sel_in; eauto.
      * intros o Hin. apply H2. eapply sel_in; eauto.
      * intros o a Hin Hin'. apply H3; eapply sel_in; eauto.
    + destruct Hd as [_ Hd]. intros v Hv. apply Hw. eapply sel_in; eauto.
Qed.

Lemma dlist_dmap_sel d id : dlist (dmap (fun l => sel l 0 id) d) = sel (dlist d) 0 id.
Proof. destruct d; auto. Qed.

Lemma month_of_sel t ik ic io id o d : (o < List.length io)%nat -> (d < List.length id)%nat ->
  month_of (sel_tri t ik ic io id) o d = month_of t (nth o io 0%nat) (nth d id 0%nat).
Proof.
  intros Ho Hd. unfold month_of. simpl. destruct (ddims t); simpl; rewrite ?nth_sel by auto; auto.
Qed.

Lemma in_valuations t v : In v (valuations t) <->
  exists o d, (o < List.length (odims t))%nat /\ (d < List.length (dlist (ddims t)))%nat /\ valuation t o d = v.
Proof.
  unfold valuations. rewrite in_flat_map. split.
  - intros (o & Ho & H). apply in_map_iff in H. destruct H as (d & <- & Hd).
    apply in_seq in Ho, Hd. exists o, d. repeat split; lia.
  - intros (o & d & Ho & Hd & <-). exists o. split; [apply in_seq; lia|].
    apply in_map_iff. exists d; split; auto. apply in_seq; lia.
Qed.

(** Clipping the valuation date changes nothing that can be observed through
    "is this cell in the future". *)
Record clipped (s u : tri) : Prop := {
  cl_wf : wf u;
  cl_eq : u = set_vdate s (vdate u);
  cl_le : vdate u <= vdate s;
  cl_ex : vdate u = vdate s \/ exists o d, (o < ax2 (values s))%nat /\ (d < ax3 (values s))%nat /\ vdate u = month_of s o d;
  cl_max : vdate u = vdate s \/ forall o d, (o < ax2 (values s))%nat -> (d < ax3 (values s))%nat -> month_of s o d <= vdate u;
  cl_fut : forall o d, (o < ax2 (values s))%nat -> (d < ax3 (values s))%nat ->
             (vdate u <? month_of s o d) = (vdate s <? month_of s o d) }.

Lemma clip_vdate_ok s : wf s -> exists u, clip_vdate s = Ok u /\ clipped s u.
Proof.
  intros W. unfold clip_vdate. destruct (valuations s) as [|v vs] eqn:E.
  - exfalso. assert (In (valuation s 0 0) (valuations s)).
    { apply in_valuations. exists 0%nat, 0%nat. rewrite <- (wf_o _ W), <- (wf_d _ W).
      pose proof (wf_o1 _ W). pose proof (wf_d1 _ W). repeat split; lia. }
    rewrite E in H; destruct H.
  - eexists; split; [reflexivity|]. set (M := zmaxl vs v).
    assert (HM : forall o d, (o < ax2 (values s))%nat -> (d < ax3 (values s))%nat -> month_of s o d <= M).
    { intros o d Ho Hd. unfold M. apply zmaxl_ge. rewrite <- E. apply in_valuations.
      exists o, d. rewrite <- (wf_o _ W), <- (wf_d _ W). repeat split; auto. apply valuation_month; auto. }
    assert (HMin : exists o d, (o < ax2 (values s))%nat /\ (d < ax3 (values s))%nat /\ month_of s o d = M).
    { assert (H : In M (valuations s)) by (rewrite E; apply zmaxl_in).
      apply in_valuations in H. destruct H as (o & d & Ho & Hd & Hv).
      rewrite <- (wf_o _ W) in Ho. rewrite <- (wf_d _ W) in Hd.
      exists o, d; repeat split; auto. rewrite <- Hv. symmetry; apply valuation_month; auto. }
    constructor; simpl.
    + pose proof (wf_dev _ W) as Hw. pose proof (wf_o _ W) as Wo. pose proof (wf_d _ W) as Wd.
      pose proof (wf_d1 _ W) as Wd1. pose proof (wf_vd _ W) as Wv.
      destruct W. constructor; simpl; auto; [lia|].
      destruct (ddims s) as [l|l] eqn:Ed; auto. destruct Hw as (H1 & H2 & H3). repeat split; auto.
      * apply H1; auto.
      * apply H1; auto.
      * intros o Ho. apply Z.min_glb; auto.
        destruct (In_nth _ _ 0 Ho) as (k & Hk & <-).
        rewrite <- Wo in Hk. specialize (HM k 0%nat Hk ltac:(lia)).
        unfold month_of in HM. rewrite Ed in HM. simpl in Wd.
        assert (In (nth 0 l 0) l) by (apply nth_In; lia).
        pose proof (H1 _ H). pose proof (H2 _ Ho).
        pose proof (age_month_ge (nth k (odims s) 0) (nth 0 l 0)). lia.
    + reflexivity.
    + lia.
    + destruct (Z.min_spec M (vdate s)) as [[_ ->]|[_ ->]]; auto.
      right. destruct HMin as (o & d & Ho & Hd & <-). exists o, d; auto.
    + destruct (Z.min_spec M (vdate s)) as [[_ ->]|[_ ->]]; auto.
    + intros o d Ho Hd. specialize (HM o d Ho Hd).
      destruct (Z.ltb_spec (Z.min M (vdate s)) (month_of s o d)), (Z.ltb_spec (vdate s) (month_of s o d)); auto; lia.
Qed.

Lemma rbind_assoc {A B C} (r : result A) (f : A -> result B) (g : B -> result C) :
  rbind (rbind r f) g = rbind r (fun a => rbind (f a) g).
Proof. destruct r; auto. Qed.

Definition sel_dev (t : tri) (id : list nat) : tri :=
  sel_tri t (seq 0 (ax0 (values t))) (seq 0 (ax1 (values t))) (seq 0 (ax2 (values t))) id.

Lemma get_idx_dev t s id : is_slice s = true -> positions s (ax3 (values t)) = Ok id ->
  get_idx t all_slice all_slice all_slice s = clip_vdate (sel_dev t id).
Proof.
  intros Hs Hp. unfold get_idx. rewrite Hs. cbn [is_slice all_slice andb negb].
  rewrite !positions_all. cbn [rbind]. rewrite Hp. reflexivity.
Qed.

Lemma iloc_dev_ok t a b id : wf t ->
  (do s <- normalize_slice a b None (ax3 (values t)); positions s (ax3 (values t))) = Ok id ->
  incr_pos id (ax3 (values t)) -> (1 <= List.length id)%nat ->
  exists u, iloc_dev t a b = Ok u /\ clipped (sel_dev t id) u.
Proof.
  intros W Hp Hi Hl. unfold iloc_dev. unfold normalize_slice in *.
  destruct (slice_triple a b None (ax3 (values t))) as [[[x y] z]|e]; [|discriminate].
  cbn [rbind] in *. rewrite (get_idx_dev t _ id); auto.
  apply clip_vdate_ok. apply wf_sel; auto.
  - apply incr_pos_seq; lia.
  - rewrite seq_length. apply W.
Qed.

Lemma iloc_dev_tail t : wf t -> (2 <= ax3 (values t))%nat ->
  exists u, iloc_dev t (Some 1) None = Ok u /\ clipped (sel_dev t (seq 1 (ax3 (values t) - 1))) u.
Proof.
  intros W H. apply iloc_dev_ok; auto.
  - apply positions_tail. lia.
  - apply incr_pos_seq; lia.
  - rewrite seq_length; lia.
Qed.
Lemma iloc_dev_init t : wf t -> (2 <= ax3 (values t))%nat ->
  exists u, iloc_dev t None (Some (-1)) = Ok u /\ clipped (sel_dev t (seq 0 (ax3 (values t) - 1))) u.
Proof.
  intros W H. apply iloc_dev_ok; auto.
  - apply positions_init. lia.
  - apply incr_pos_seq; lia.
  - rewrite seq_length; lia.
Qed.
Lemma iloc_dev_int_ok t j : wf t -> (j < ax3 (values t))%nat ->
  exists u, iloc_dev_int t (Z.of_nat j) = Ok u /\ clipped (sel_dev t [j]) u.
Proof.
  intros W H. unfold iloc_dev_int.
  destruct (Z.ltb_spec (Z.of_nat j) (- Z.of_nat (ax3 (values t)))); [lia|].
  destruct (Z.leb_spec (Z.of_nat (ax3 (values t))) (Z.of_nat j)); [lia|].
  cbn [orb]. cbv iota zeta. destruct (Z.ltb_spec (Z.of_nat j) 0); [lia|].
  cbn [contig_slice rbind]. rewrite (get_idx_dev t _ [j]); auto.
  - apply clip_vdate_ok. apply wf_sel; auto.
    + apply incr_pos_seq; lia.
    + apply (incr_pos_seq j 1); lia.
    + rewrite seq_length. apply W.
  - apply positions_1; auto.
Qed.
Lemma iloc_dev_int_last t : wf t -> (1 <= ax3 (values t))%nat ->
  iloc_dev_int t (-1) = iloc_dev_int t (Z.of_nat (ax3 (values t) - 1)).
Proof.
  intros W H. unfold iloc_dev_int.
  destruct (Z.ltb_spec (-1) (- Z.of_nat (ax3 (values t)))); [lia|].
  destruct (Z.leb_spec (Z.of_nat (ax3 (values t))) (-1)); [lia|].
  destruct (Z.ltb_spec (Z.of_nat (ax3 (values t) - 1)) (- Z.of_nat (ax3 (values t)))); [lia|].
  destruct (Z.leb_spec (Z.of_nat (ax3 (values t))) (Z.of_nat (ax3 (values t) - 1))); [lia|].
  cbn [orb]. destruct (Z.ltb_spec (Z.of_nat (ax3 (values t) - 1)) 0); [lia|].
  change (-1 <? 0) with true. cbv iota zeta.
  replace (-1 + Z.of_nat (ax3 (values t))) with (Z.of_nat (ax3 (values t) - 1)) by lia. reflexivity.
Qed.

Lemma month_of_sel_dev t id o d : (o < ax2 (values t))%nat -> (d < List.length id)%nat ->
  month_of (sel_dev t id) o d = month_of t o (nth d id 0%nat).
Proof.
  intros Ho Hd. unfold sel_dev. rewrite month_of_sel by (rewrite ?seq_length; auto).
  rewrite seq_nth by auto. reflexivity.
Qed.
Lemma clipped_dev_fut t id u o d : clipped (sel_dev t id) u -> (o < ax2 (values t))%nat -> (d < List.length id)%nat ->
  (vdate u <? month_of t o (nth d id 0%nat)) = (vdate t <? month_of t o (nth d id 0%nat)).
Proof.
  intros C Ho Hd. rewrite <- (month_of_sel_dev t id) by auto.
  apply (cl_fut _ _ C); cbn; rewrite ?seq_length; auto.
Qed.
