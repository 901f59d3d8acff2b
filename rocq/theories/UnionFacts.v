(** Sorted union of label lists and the placement of one list inside it. *)
From Coq Require Import Lia Sorted.
From Verif Require Export Arith ConvFacts SpecLabel LabelFacts.
Local Open Scope Z_scope.

Lemma mem_Z_In x l : mem_Z x l = true <-> In x l.
Proof.
  unfold mem_Z. rewrite existsb_exists. split.
  - intros (y & Hy & E). apply Z.eqb_eq in E. subst; auto.
  - intros H. exists x. split; auto. apply Z.eqb_refl.
Qed.

Lemma zinsert_In x y l : In y (zinsert x l) <-> y = x \/ In y l.
Proof.
  induction l as [|z l IH]; cbn [zinsert]; [cbn; intuition|].
  destruct (Z.ltb_spec x z); [cbn; intuition|]. destruct (Z.eqb_spec x z); [subst; cbn; intuition|].
  cbn. rewrite IH. intuition.
Qed.
Lemma zinsert_sorted x l : StronglySorted Z.lt l -> StronglySorted Z.lt (zinsert x l).
Proof.
  induction 1 as [|z l Hs IH Hf]; cbn [zinsert]; [repeat constructor|].
  destruct (Z.ltb_spec x z).
  - constructor; [constructor; auto|]. constructor; auto. eapply Forall_impl; [|exact Hf]. intros; lia.
  - destruct (Z.eqb_spec x z); [constructor; auto|]. constructor; auto.
    apply Forall_forall. intros y Hy. apply zinsert_In in Hy. destruct Hy as [->|Hy]; [lia|].
    rewrite Forall_forall in Hf. auto.
Qed.
Lemma zunion_In x a b : In x (zunion a b) <-> In x a \/ In x b.
Proof.
  unfold zunion. rewrite <- in_app_iff. induction (a ++ b) as [|y l IH]; cbn; [tauto|]. rewrite zinsert_In, IH. intuition.
Qed.
Lemma zunion_sorted a b : StronglySorted Z.lt (zunion a b).
Proof. unfold zunion. induction (a ++ b); cbn; [constructor|]. apply zinsert_sorted; auto. Qed.

Lemma sorted_Z_ext l1 l2 : StronglySorted Z.lt l1 -> StronglySorted Z.lt l2 -> (forall x, In x l1 <-> In x l2) -> l1 = l2.
Proof.
  intros H1. revert l2. induction H1 as [|a l1 Hs IH Hf]; intros l2 H2 E.
  - destruct l2 as [|b l2]; auto. exfalso. apply (proj2 (E b)). left; auto.
  - destruct H2 as [|b l2 Hs2 Hf2]; [exfalso; apply (proj1 (E a)); left; auto|].
    rewrite Forall_forall in Hf, Hf2.
    assert (a = b).
    { destruct (proj1 (E a) (or_introl eq_refl)) as [H|H]; auto. destruct (proj2 (E b) (or_introl eq_refl)) as [H'|H']; auto.
      apply Hf2 in H. apply Hf in H'. lia. }
    subst b. f_equal. apply IH; auto. intros x. split; intros Hx.
    + destruct (proj1 (E x) (or_intror Hx)) as [<-|]; auto. apply Hf in Hx. lia.
    + destruct (proj2 (E x) (or_intror Hx)) as [<-|]; auto. apply Hf2 in Hx. lia.
Qed.
Lemma sorted_app_Z l1 l2 : StronglySorted Z.lt l1 -> StronglySorted Z.lt l2 -> (forall x y, In x l1 -> In y l2 -> x < y) ->
  StronglySorted Z.lt (l1 ++ l2).
Proof.
  intros H1 H2 H. induction H1 as [|a l1 Hs IH Hf]; cbn; auto. constructor.
  - apply IH. intros; apply H; auto. right; auto.
  - apply Forall_app. split; auto. apply Forall_forall. intros y Hy. apply H; auto. left; auto.
Qed.
Lemma sorted_filter_Z f l : StronglySorted Z.lt l -> StronglySorted Z.lt (filter f l).
Proof.
  induction 1 as [|a l Hs IH Hf]; cbn; [constructor|]. destruct (f a); auto. constructor; auto.
  apply Forall_forall. intros x Hx. apply filter_In in Hx. rewrite Forall_forall in Hf. apply Hf, Hx.
Qed.

(** A sorted list all of whose gaps in [u] are empty is a contiguous block of [u]. *)
Lemma block u l : StronglySorted Z.lt u -> StronglySorted Z.lt l -> l <> [] -> (forall x, In x l -> In x u) ->
  (forall x, In x u -> hd 0 l <= x <= last l 0 -> In x l) ->
  exists u1 u3, u = u1 ++ l ++ u3 /\ (forall x, In x u1 -> ~ In x l) /\ (forall x, In x u3 -> ~ In x l).
Proof.
  intros Hu Hl Hne Hsub Hconv.
  assert (Hhd : forall x, In x l -> hd 0 l <= x).
  { destruct Hl as [|a l Hs Hf]; [intros x []|]. cbn. rewrite Forall_forall in Hf. intros x [<-|Hx]; [lia|]. apply Hf in Hx. lia. }
  assert (Hla : forall x, In x l -> x <= last l 0).
  { clear - Hl. induction Hl as [|a l Hs IH Hf]; [intros x []|]. intros x [<-|Hx].
    - destruct l as [|b l]; [cbn; lia|]. rewrite Forall_forall in Hf. specialize (Hf (last (b :: l) 0)).
      change (last (a :: b :: l) 0) with (last (b :: l) 0).
      assert (In (last (b :: l) 0) (b :: l)).
      { clear. revert b. induction l as [|c l IH]; intros b; [left; auto|]. right. apply (IH c). }
      specialize (Hf H). lia.
    - destruct l as [|b l]; [destruct Hx|]. change (last (a :: b :: l) 0) with (last (b :: l) 0). auto. }
  exists (filter (fun x => x <? hd 0 l) u), (filter (fun x => last l 0 <? x) u). split; [|split].
  - apply sorted_Z_ext; auto.
    + apply sorted_app_Z; [apply sorted_filter_Z; auto| |].
      * apply sorted_app_Z; auto; [apply sorted_filter_Z; auto|]. intros x y Hx Hy. apply filter_In in Hy. destruct Hy as [_ Hy].
        apply Z.ltb_lt in Hy. apply Hla in Hx. lia.
      * intros x y Hx Hy. apply filter_In in Hx. destruct Hx as [_ Hx]. apply Z.ltb_lt in Hx.
        apply in_app_iff in Hy. destruct Hy as [Hy|Hy]; [apply Hhd in Hy; lia|].
        apply filter_In in Hy. destruct Hy as [_ Hy]. apply Z.ltb_lt in Hy.
        assert (hd 0 l <= last l 0) by (apply Hla; destruct l; [congruence|left; auto]). lia.
    + intros x. rewrite !in_app_iff, !filter_In, !Z.ltb_lt. split.
      * intros Hx. destruct (Z.lt_ge_cases x (hd 0 l)); auto. destruct (Z.lt_ge_cases (last l 0) x); auto.
      * intros [[H _]|[H|[H _]]]; auto.
  - intros x Hx Hin. apply filter_In in Hx. destruct Hx as [_ Hx]. apply Z.ltb_lt in Hx. apply Hhd in Hin. lia.
  - intros x Hx Hin. apply filter_In in Hx. destruct Hx as [_ Hx]. apply Z.ltb_lt in Hx. apply Hla in Hin. lia.
Qed.

Lemma first_pos_app u1 l r : (forall x, In x u1 -> ~ In x l) -> forall a r', r = a :: r' -> In a l -> first_pos (u1 ++ r) l = List.length u1.
Proof.
  intros H a r' -> Ha. induction u1 as [|b u1 IH]; cbn.
  - apply mem_Z_In in Ha. rewrite Ha. reflexivity.
  - destruct (mem_Z b l) eqn:E; [apply mem_Z_In in E; exfalso; apply (H b); [left; auto|auto]|].
    f_equal. apply IH. intros x Hx. apply H. right; auto.
Qed.
Lemma block_pos u1 l u3 : l <> [] -> (forall x, In x u1 -> ~ In x l) -> (forall x, In x u3 -> ~ In x l) ->
  let u := u1 ++ l ++ u3 in
  first_pos u l = List.length u1 /\ last_pos u l = (List.length u1 + List.length l)%nat.
Proof.
  intros Hne H1 H3 u. split.
  - destruct l as [|a l]; [congruence|]. unfold u. eapply first_pos_app; [auto|reflexivity|left; auto].
  - unfold last_pos, u. rewrite !rev_app_distr, !app_length, <- app_assoc.
    destruct (rev l) as [|a r] eqn:E.
    { exfalso. apply Hne. rewrite <- (rev_involutive l), E. reflexivity. }
    erewrite first_pos_app; [|intros x Hx; apply H3; apply in_rev; auto|reflexivity|apply in_rev; rewrite E; left; auto].
    rewrite rev_length. lia.
Qed.

(** Reading a placed block by label. *)
Lemma pick_block u1 l u3 o f : NoDup (u1 ++ l ++ u3) -> (o < List.length (u1 ++ l ++ u3))%nat ->
  pick Z.eq_dec l (nth o (u1 ++ l ++ u3) 0) 0 f =
  if ((List.length u1 <=? o) && (o <? List.length u1 + List.length l))%nat then f (o - List.length u1)%nat else 0%Qc.
Proof.
  intros Hn Ho. set (p := List.length u1) in *.
  assert (Hnl : NoDup l).
  { clear - Hn. induction u1 as [|a u1 IH]; cbn in Hn.
    - induction l as [|b l IH]; [constructor|]. inversion Hn as [|? ? Hni Hn']; subst. constructor; auto.
      intros H. apply Hni. apply in_or_app; auto.
    - inversion Hn; auto. }
  destruct (Nat.leb_spec p o) as [H1|H1]; cbn [andb].
  - destruct (Nat.ltb_spec o (p + List.length l)) as [H2|H2].
    + assert (E : nth o (u1 ++ l ++ u3) 0 = nth (o - p) l 0).
      { rewrite app_nth2 by (fold p; lia). fold p. rewrite app_nth1 by lia. reflexivity. }
      rewrite E. rewrite pick_nth; auto; lia.
    + apply pick_notin. intros Hin. destruct (In_nth _ _ 0 Hin) as (j & Hj & E).
      assert (E2 : nth (p + j) (u1 ++ l ++ u3) 0 = nth j l 0).
      { rewrite app_nth2 by (fold p; lia). fold p. rewrite app_nth1 by lia. f_equal; lia. }
      rewrite <- E2 in E. apply (NoDup_nth (u1 ++ l ++ u3) 0) in E; auto; [lia|]. rewrite !app_length. fold p. lia.
  - apply pick_notin. intros Hin. destruct (In_nth _ _ 0 Hin) as (j & Hj & E).
    assert (E2 : nth (p + j) (u1 ++ l ++ u3) 0 = nth j l 0).
    { rewrite app_nth2 by (fold p; lia). fold p. rewrite app_nth1 by lia. f_equal; lia. }
    rewrite <- E2 in E. apply (NoDup_nth (u1 ++ l ++ u3) 0) in E; auto; [lia|]. rewrite !app_length. fold p. lia.
Qed.

(** Gap-free lists on one grid are blocks of their union. *)
Lemma gap_free_hd_last g l : 0 < g -> gap_free g l -> l <> [] ->
  forall x, hd 0 l <= x <= last l 0 -> (g | x - hd 0 l) -> In x l.
Proof.
  intros Hg (s & E) Hne x Hx (q & Hq).
  assert (Hh : hd 0 l = s). { rewrite E. destruct l; [congruence|]. cbn. lia. }
  assert (Hl : last l 0 = s + g * Z.of_nat (List.length l - 1)).
  { rewrite last_nth. rewrite E at 2. rewrite nth_map_seq; auto. destruct l; [congruence|]. cbn [List.length]. lia. }
  rewrite E. apply in_map_iff. rewrite Hh in *. rewrite Hl in Hx.
  assert (0 <= q) by nia. assert (q <= Z.of_nat (List.length l - 1)) by nia.
  exists (Z.to_nat q). split; [lia|]. apply in_seq. destruct l; [congruence|]. cbn [List.length] in *. lia.
Qed.
Lemma union_block g a b l : 0 < g -> gap_free g l -> StronglySorted Z.lt l -> l <> [] ->
  (forall x, In x l -> In x a \/ In x b) -> (forall x, In x a \/ In x b -> (g | x - hd 0 l)) ->
  exists u1 u3, zunion a b = u1 ++ l ++ u3 /\ (forall x, In x u1 -> ~ In x l) /\ (forall x, In x u3 -> ~ In x l).
Proof.
  intros Hg Hf Hs Hne Hin Hgrid. apply block; auto using zunion_sorted.
  - intros x Hx. apply zunion_In; auto.
  - intros x Hx Hr. apply gap_free_hd_last with (g := g); auto. apply Hgrid. apply zunion_In; auto.
Qed.

Lemma gap_free_sorted g l : 0 < g -> gap_free g l -> StronglySorted Z.lt l.
Proof.
  intros Hg (s & E). rewrite E. generalize (List.length l). intros n. generalize 0%nat.
  induction n as [|n IH]; intros k; cbn; constructor; auto.
  apply Forall_forall. intros x Hx. apply in_map_iff in Hx. destruct Hx as (j & <- & Hj). apply in_seq in Hj. nia.
Qed.
(** Two gap-free lists of one length on one grid are equal or differ at every position. *)
Lemma gap_free_cases g a b : 0 < g -> gap_free g a -> gap_free g b -> List.length a = List.length b ->
  a = b \/ all_differ a b = true.
Proof.
  intros Hg (s & Ea) (r & Eb) Hlen. destruct (Z.eq_dec s r) as [->|Hne].
  - left. rewrite Ea, Eb, Hlen. reflexivity.
  - right. rewrite Ea, Eb, Hlen. generalize (List.length b). intros n. generalize 0%nat.
    induction n as [|n IH]; intros k; cbn; auto. rewrite IH, andb_true_r.
    destruct (Z.eqb_spec (s + g * Z.of_nat k) (r + g * Z.of_nat k)); auto. lia.
Qed.
