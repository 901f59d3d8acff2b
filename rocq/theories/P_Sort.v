(** Sorting an axis. *)
From Coq Require Import Lia Sorted Permutation.
From Verif Require Import SpecPandas P_Align3 P_Group.
Local Open Scope Z_scope.

Section Sort.
  Variable leb : nat -> nat -> bool.
  Variable n : nat.
  Hypothesis total : forall i j, (i < n)%nat -> (j < n)%nat -> leb i j = false -> leb j i = true.
  Hypothesis trans : forall i j k, (i < n)%nat -> (j < n)%nat -> (k < n)%nat -> leb i j = true -> leb j k = true -> leb i k = true.
  Let R (i j : nat) := leb i j = true.
  Lemma insert_pos_perm i l : Permutation (insert_pos leb i l) (i :: l).
  Proof. induction l as [|j l IH]; cbn; auto. destruct (leb i j); auto. eapply perm_trans; [apply perm_skip, IH|]. apply perm_swap. Qed.
  Lemma insert_pos_sorted i l : (i < n)%nat -> (forall x, In x l -> (x < n)%nat) -> StronglySorted R l -> StronglySorted R (insert_pos leb i l).
  Proof.
    intros Hi Hl S. induction S as [|j l S IH Hj]; cbn; [repeat constructor|].
    assert (Hjn : (j < n)%nat) by (apply Hl; left; auto).
    destruct (leb i j) eqn:E.
    - constructor; [constructor; auto|]. constructor; [exact E|]. apply Forall_forall. intros x Hx. rewrite Forall_forall in Hj.
      apply (trans i j x); auto. apply Hl; right; auto. apply Hj; auto.
    - constructor; [apply IH; intros; apply Hl; right; auto|]. apply Forall_forall. intros x Hx.
      apply (Permutation_in _ (insert_pos_perm i l)) in Hx. destruct Hx as [<-|Hx]; [apply total; auto|]. rewrite Forall_forall in Hj. apply Hj; auto.
  Qed.
  Lemma sort_pos_perm m : Permutation (sort_pos leb m) (seq 0 m).
  Proof.
    unfold sort_pos. induction (seq 0 m) as [|i l IH]; cbn; auto. eapply perm_trans; [apply insert_pos_perm|]. auto.
  Qed.
  Lemma sort_pos_sorted : StronglySorted R (sort_pos leb n).
  Proof.
    unfold sort_pos. assert (G : forall l, (forall x, In x l -> (x < n)%nat) -> StronglySorted R (fold_right (insert_pos leb) [] l) /\
       forall x, In x (fold_right (insert_pos leb) [] l) -> (x < n)%nat).
    { induction l as [|i l IH]; intros H; cbn; [split; [constructor|intros x []]|].
      destruct IH as [S In']; [intros; apply H; right; auto|]. split.
      - apply insert_pos_sorted; auto. apply H; left; auto.
      - intros x Hx. apply (Permutation_in _ (insert_pos_perm i _)) in Hx. destruct Hx as [<-|Hx]; [apply H; left; auto|auto]. }
    apply G. intros x Hx. apply in_seq in Hx. lia.
  Qed.
End Sort.

Lemma SS_map {A B} (f : A -> B) (R : A -> A -> Prop) (Q : B -> B -> Prop) l :
  (forall x y, In x l -> In y l -> R x y -> Q (f x) (f y)) -> StronglySorted R l -> StronglySorted Q (map f l).
Proof.
  intros H S. induction S as [|a l S IH Ha]; cbn; constructor.
  - apply IH. intros; apply H; auto; right; auto.
  - apply Forall_forall. intros y Hy. apply in_map_iff in Hy. destruct Hy as (x & <- & Hx). rewrite Forall_forall in Ha. apply H; auto; [left|right]; auto.
Qed.
Lemma sort_by {A} (f : nat -> A) (leb : A -> A -> bool) (Q : A -> A -> Prop) n :
  (forall a b, leb a b = true <-> Q a b) -> (forall a b, leb a b = false -> Q b a) -> (forall a b c, Q a b -> Q b c -> Q a c) ->
  StronglySorted Q (map f (sort_pos (fun i j => leb (f i) (f j)) n)).
Proof.
  intros H1 H2 H3. eapply SS_map; [|apply sort_pos_sorted].
  - intros x y _ _ H. cbn in H. apply H1 in H. exact H.
  - intros i j _ _ H. apply H1. auto.
  - intros i j k _ _ _ E F. apply H1 in E, F. apply H1. eauto.
Qed.
Lemma str_leb_le a b : str_leb a b = true <-> str_le a b.
Proof.
  unfold str_leb, str_le. destruct (String.compare a b) eqn:E.
  - apply String.compare_eq_iff in E. split; auto.
  - split; auto.
  - split; [discriminate|]. intros [->|H]; [rewrite scmp_refl in E; discriminate|discriminate].
Qed.
Lemma str_leb_ge a b : str_leb a b = false -> str_le b a.
Proof. unfold str_leb, str_le. destruct (String.compare a b) eqn:E; try discriminate. intros _. right. apply scmp_gt. auto. Qed.
Lemma str_le_trans a b c : str_le a b -> str_le b c -> str_le a c.
Proof. unfold str_le. intros [->|H] [->|K]; auto. right. eapply scmp_trans; eauto. Qed.
Lemma key_le_trans a b c : key_le a b -> key_le b c -> key_le a c.
Proof. unfold key_le. intros [->|H] [->|K]; auto. right. eapply key_lt_trans; eauto. Qed.

Lemma sel_tri_reordered t ax p : labelled t -> ax <> AxIndex -> Permutation p (seq 0 (axn (axis_num ax) (values t))) ->
  let s0 := seq 0 (ax0 (values t)) in let s1 := seq 0 (ax1 (values t)) in let s2 := seq 0 (ax2 (values t)) in let s3 := seq 0 (ax3 (values t)) in
  reordered ax t (match ax with AxIndex => sel_tri t p s1 s2 s3 | AxColumn => sel_tri t s0 p s2 s3 | AxOrigin => sel_tri t s0 s1 p s3 | AxDev => sel_tri t s0 s1 s2 p end) p.
Proof.
  intros (L0 & L1 & L2 & L3) Hax P s0 s1 s2 s3. pose proof (Permutation_length P) as Pl. rewrite seq_length in Pl.
  assert (Ek : sel (kdims t) [] s0 = kdims t) by (apply sel_seq_all; auto).
  assert (Ev : sel (vdims t) EmptyString s1 = vdims t) by (apply sel_seq_all; auto).
  assert (Eo : sel (odims t) 0 s2 = odims t) by (apply sel_seq_all; auto).
  assert (Ed : dlist (dmap (fun l => sel l 0 s3) (ddims t)) = dlist (ddims t)).
  { destruct (ddims t); cbn [dmap dlist] in *; apply sel_seq_all; auto. }
  assert (Edp : dlist (dmap (fun l => sel l 0 p) (ddims t)) = map (fun i => nth i (dlist (ddims t)) 0) p) by (destruct (ddims t); reflexivity).
  assert (Vt : forall q, is_val_tri (sel_tri t s0 s1 s2 q) = is_val_tri t) by (intros q; unfold is_val_tri, sel_tri; cbn; destruct (ddims t); reflexivity).
  destruct ax; try congruence; cbn [axis_num axn] in Pl; constructor; auto;
    try (cbn [sel_tri values sel_arr ax0 ax1 ax2 ax3 odims vdims kdims ddims]; unfold s0, s1, s2, s3; rewrite ?seq_length; auto; fail);
    try (intros i c o d (Hi & Hc & Ho & Hd); unfold cel; cbn [sel_tri values sel_arr av]; unfold s0, s1, s2, s3; rewrite ?seq_nth by auto; reflexivity);
    unfold is_val_tri, sel_tri; cbn; destruct (ddims t); reflexivity.
Qed.

Lemma sort_axis_ok t ax : labelled t -> ax <> AxIndex -> (ax = AxDev -> is_val_tri t = false -> is_pattern t = false) ->
  exists u p, sort_axis t ax = Ok u /\ reordered ax t u p /\ in_order ax u /\ vdate u = vdate t.
Proof.
  intros L Hax Hp. pose proof L as (L0 & L1 & L2 & L3). destruct ax; [congruence| | |]; cbn [sort_axis].
  - set (p := sort_pos _ _). exists (sel_tri t (seq 0 (ax0 (values t))) p (seq 0 (ax2 (values t))) (seq 0 (ax3 (values t)))), p.
    split; [reflexivity|]. assert (P : Permutation p (seq 0 (ax1 (values t)))) by apply sort_pos_perm.
    pose proof (sel_tri_reordered t AxColumn p L Hax P) as R. split; [exact R|]. split; [|reflexivity]. cbn [in_order].
    rewrite (rr_v _ _ _ _ R). unfold p. apply (sort_by (fun i => nth i (vdims t) ""%string) str_leb str_le); [apply str_leb_le|apply str_leb_ge|apply str_le_trans].
  - set (p := sort_pos _ _). exists (sel_tri t (seq 0 (ax0 (values t))) (seq 0 (ax1 (values t))) p (seq 0 (ax3 (values t)))), p.
    split; [reflexivity|]. assert (P : Permutation p (seq 0 (ax2 (values t)))) by apply sort_pos_perm.
    pose proof (sel_tri_reordered t AxOrigin p L Hax P) as R. split; [exact R|]. split; [|reflexivity]. cbn [in_order].
    rewrite (rr_o _ _ _ _ R). unfold p. apply (sort_by (fun i => nth i (odims t) 0) Z.leb Z.le); [apply Z.leb_le|intros a b H; apply Z.leb_gt in H; lia|intros; lia].
  - set (p := sort_pos _ _). exists (sel_tri t (seq 0 (ax0 (values t))) (seq 0 (ax1 (values t))) (seq 0 (ax2 (values t))) p), p.
    split; [reflexivity|]. assert (P : Permutation p (seq 0 (ax3 (values t)))) by apply sort_pos_perm.
    pose proof (sel_tri_reordered t AxDev p L Hax P) as R. split; [exact R|]. split; [|reflexivity]. cbn [in_order].
    rewrite (rr_d _ _ _ _ R). unfold p.
    assert (E : dev_leb t = fun i j => nth i (dlist (ddims t)) 0 <=? nth j (dlist (ddims t)) 0).
    { unfold dev_leb. specialize (Hp eq_refl). unfold is_val_tri in Hp. destruct (ddims t); [rewrite Hp by auto|]; reflexivity. }
    rewrite E. apply (sort_by (fun i => nth i (dlist (ddims t)) 0) Z.leb Z.le); [apply Z.leb_le|intros a b H; apply Z.leb_gt in H; lia|intros; lia].
Qed.

Lemma sorted_rows_pos t : sorted_rows t = sort_pos (fun i j => key_leb (nth i (kdims t) []) (nth j (kdims t) [])) (List.length (kdims t)).
Proof.
  unfold sorted_rows, sort_pos. induction (seq 0 (List.length (kdims t))) as [|i l IH]; cbn [fold_right]; auto. rewrite IH. clear IH.
  generalize (fold_right (insert_pos (fun i j => key_leb (nth i (kdims t) []) (nth j (kdims t) []))) [] l). intros m.
  induction m as [|j m IH]; cbn; auto. unfold row_key. destruct (key_leb _ _); auto. f_equal. auto.
Qed.
Lemma sort_index_reordered t : wf t -> (1 <= ax0 (values t))%nat ->
  exists u p, sort_axis t AxIndex = Ok u /\ reordered AxIndex t u p /\ in_order AxIndex u /\
    forall o d, (o < ax2 (values t))%nat -> (d < ax3 (values t))%nat -> (future u o d <-> future t o d).
Proof.
  intros W A0. cbn [sort_axis]. unfold sort_index.
  pose proof (sorted_rows_perm t) as P. rewrite <- (wf_k _ W) in P.
  pose proof (Permutation_length P) as Pl. rewrite seq_length in Pl.
  destruct (iloc_rows_ok t (sorted_rows t) W) as (u & Eu & K).
  - apply (Permutation_NoDup (Permutation_sym P)), seq_NoDup.
  - intros E. rewrite E in Pl. cbn in Pl. lia.
  - intros x Hx. apply (Permutation_in _ P), in_seq in Hx. rewrite <- (wf_k _ W). lia.
  - exists u, (sorted_rows t). split; [auto|]. split; [|split].
    + constructor; try apply K; auto.
      * rewrite (pk_0 _ _ _ _ K). auto.
      * rewrite (pk_1 _ _ _ _ K). apply seq_length.
      * intros i c o d (Hi & Hc & Ho & Hd). rewrite (pk_c _ _ _ _ K) by auto. rewrite seq_nth by auto. reflexivity.
      * rewrite (pk_v _ _ _ _ K). apply sel_seq_all. apply W.
      * rewrite (pk_d _ _ _ _ K). reflexivity.
      * unfold is_val_tri. rewrite (pk_d _ _ _ _ K). reflexivity.
    + cbn [in_order]. rewrite (pk_k _ _ _ _ K). unfold sel. rewrite sorted_rows_pos.
      apply (sort_by (fun i => nth i (kdims t) []) key_leb key_le); [apply key_leb_le|intros a b H; right; apply key_leb_gt; auto|apply key_le_trans].
    + intros o d Ho Hd. unfold future. pose proof (pk_fut _ _ _ _ K o d Ho Hd) as Q.
      replace (month_of u o d) with (month_of t o d) by (unfold month_of; rewrite (pk_d _ _ _ _ K), (pk_o _ _ _ _ K); reflexivity).
      rewrite <- !Z.ltb_lt, Q. tauto.
Qed.
