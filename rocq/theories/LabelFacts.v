(** Facts about [pick] and [amount_at]. *)
From Coq Require Import Lia Sorted.
From Verif Require Export SpecLabel TriFacts NumFacts.
Local Open Scope Qc_scope.

Section Pick.
Context {A : Type} (dec : forall a b : A, {a = b} + {a <> b}) (d0 : A).
Notation pk l x f := (pick dec l x d0 f).

Lemma pick_ext l x f g : (forall i, (i < List.length l)%nat -> nth i l d0 = x -> f i = g i) -> pk l x f = pk l x g.
Proof. intros H. unfold pick. apply sumn_ext. intros i Hi. destruct (dec (nth i l d0) x); auto. Qed.
Lemma pick_notin l x f : ~ In x l -> pk l x f = 0.
Proof.
  intros H. unfold pick. apply sumn_zero. intros i Hi. destruct (dec (nth i l d0) x) as [<-|]; auto.
  exfalso; apply H; apply nth_In; auto.
Qed.
Lemma pick_nth l i f : NoDup l -> (i < List.length l)%nat -> pk l (nth i l d0) f = f i.
Proof.
  intros Hn Hi. unfold pick. rewrite (sumn_single _ i); auto.
  - destruct (dec (nth i l d0) (nth i l d0)); congruence.
  - intros j Hj Hne. destruct (dec (nth j l d0) (nth i l d0)) as [E|]; auto. exfalso; apply Hne.
    apply (NoDup_nth l d0); auto.
Qed.
Lemma pick_plus l x f g : pk l x (fun i => f i + g i) = pk l x f + pk l x g.
Proof.
  unfold pick. rewrite <- sumn_plus. apply sumn_ext. intros i _. destruct (dec _ _); ring.
Qed.
Lemma pick_minus l x f g : pk l x (fun i => f i - g i) = pk l x f - pk l x g.
Proof.
  unfold pick. rewrite <- sumn_minus. apply sumn_ext. intros i _. destruct (dec _ _); ring.
Qed.
Lemma pick_zero l x f : (forall i, (i < List.length l)%nat -> f i = 0) -> pk l x f = 0.
Proof. intros H. unfold pick. apply sumn_zero. intros i Hi. destruct (dec _ _); auto. Qed.
Lemma pick_relabel lu lx x f : NoDup lu -> (In x lx -> In x lu) ->
  pk lu x (fun i => pk lx (nth i lu d0) f) = pk lx x f.
Proof.
  intros Hn Hin. destruct (in_dec dec x lu) as [H|H].
  - destruct (In_nth _ _ d0 H) as (i & Hi & E). rewrite <- E at 1. rewrite pick_nth by auto. rewrite E. reflexivity.
  - rewrite !pick_notin; auto.
Qed.
End Pick.

Lemma pick_swap {A B} (da : forall a b : A, {a = b} + {a <> b}) (db : forall a b : B, {a = b} + {a <> b}) la x a0 lb y b0 f :
  pick da la x a0 (fun i => pick db lb y b0 (fun j => f i j)) = pick db lb y b0 (fun j => pick da la x a0 (fun i => f i j)).
Proof.
  unfold pick.
  transitivity (sumn (List.length la) (fun i => sumn (List.length lb) (fun j =>
     if da (nth i la a0) x then if db (nth j lb b0) y then f i j else 0 else 0))).
  - apply sumn_ext. intros i _. destruct (da (nth i la a0) x); auto. symmetry. apply sumn_zero; auto.
  - rewrite sumn_swap. apply sumn_ext. intros j _. destruct (db (nth j lb b0) y); auto.
    apply sumn_zero. intros i _. destruct (da _ _); auto.
Qed.

(** The amount under the labels of a position is the amount at the position. *)
Lemma amount_at_pos t i c o d : wf t -> uniq_labels t -> in_range t i c o d ->
  amount_at t (nth i (kdims t) []) (nth c (vdims t) EmptyString) (nth o (odims t) 0%Z) (nth d (dlist (ddims t)) 0%Z) = amount t i c o d.
Proof.
  intros W [U1 U2] (Hi & Hc & Ho & Hd). unfold amount_at.
  rewrite (wf_k _ W) in Hi. rewrite (wf_v _ W) in Hc. rewrite (wf_o _ W) in Ho. rewrite (wf_d _ W) in Hd.
  rewrite pick_nth by auto. rewrite pick_nth by auto.
  assert (N : forall l, StronglySorted Z.lt l -> NoDup l).
  { intros l H. induction H as [|a l Hs IH Hf]; constructor; auto. intros Hin. rewrite Forall_forall in Hf. specialize (Hf _ Hin). lia. }
  rewrite pick_nth by (auto; apply N, W). rewrite pick_nth by (auto; apply N, W). reflexivity.
Qed.
Lemma amount_at_absent t k v o a : ~ In k (kdims t) \/ ~ In v (vdims t) \/ ~ In o (odims t) \/ ~ In a (dlist (ddims t)) ->
  amount_at t k v o a = 0.
Proof.
  intros H. unfold amount_at.
  destruct (in_dec key_dec k (kdims t)) as [H1|H1]; [|apply pick_notin; auto].
  apply pick_zero. intros i Hi. destruct (in_dec string_dec v (vdims t)) as [H2|H2]; [|apply pick_notin; auto].
  apply pick_zero. intros c Hc. destruct (in_dec Z.eq_dec o (odims t)) as [H3|H3]; [|apply pick_notin; auto].
  apply pick_zero. intros r Hr. destruct (in_dec Z.eq_dec a (dlist (ddims t))) as [H4|H4]; [|apply pick_notin; auto]. tauto.
Qed.
