(** Proofs: options after any history. *)
From Coq Require Import List String.
From Verif Require Import Options SpecOptions.
Import ListNotations.
Local Open Scope string_scope.

Lemma oget_oset : forall k v l m, oget m (oset k v l) = if String.eqb m k then Some v else oget m l.
Proof.
  intros k v. induction l as [|[k' v'] l IH]; intros m; cbn; auto. destruct (String.eqb_spec k k') as [->|N]; cbn.
  - destruct (String.eqb m k'); auto.
  - rewrite IH. destruct (String.eqb_spec m k') as [->|]; auto. destruct (String.eqb_spec k' k); auto. congruence.
Qed.
Lemma get_set : forall o k v m, get_option (set_option o k v) m = if String.eqb m k then Ok v else get_option o m.
Proof. intros. unfold get_option, set_option. cbn [of_class]. rewrite oget_oset. destruct (String.eqb m k); auto. Qed.
Lemma default_dec : forall k, (exists v, default k v) \/ (k <> "ARRAY_BACKEND" /\ k <> "AUTO_SPARSE" /\ k <> "ARRAY_PRIORITY" /\ k <> "ULT_VAL").
Proof.
  intros k. destruct (string_dec k "ARRAY_BACKEND") as [->|]; [left; eexists; constructor|]. destruct (string_dec k "AUTO_SPARSE") as [->|]; [left; eexists; constructor|].
  destruct (string_dec k "ARRAY_PRIORITY") as [->|]; [left; eexists; constructor|]. destruct (string_dec k "ULT_VAL") as [->|]; [left; eexists; constructor|]. auto.
Qed.
Lemma initial_get : forall k v, get_option initial k = Ok v <-> default k v.
Proof.
  intros k v. split.
  - destruct (default_dec k) as [[u D]|(A & B & C & E)].
    + intros Q. assert (u = v) by (destruct D; vm_compute in Q; inversion Q; reflexivity). subst. exact D.
    + unfold get_option. cbn [oget initial of_class]. apply String.eqb_neq in A, B, C, E. rewrite A, B, C, E. discriminate.
  - intros D. destruct D; reflexivity.
Qed.
Lemma reset_get : forall o k v, default k v -> get_option (reset_option o) k = Ok v.
Proof. intros o k v D. unfold reset_option. cbv zeta. rewrite !get_set. destruct D; reflexivity. Qed.
Lemma call_gives : forall o c k v, gives c k v -> get_option (do_call o c) k = Ok v.
Proof.
  intros o c k v G. destruct G; cbn [do_call]; unfold array_backend, auto_sparse; rewrite ?get_set, ?String.eqb_refl; auto. apply reset_get; auto.
Qed.
Lemma call_keeps : forall o c k, (forall v, ~ gives c k v) -> get_option (do_call o c) k = get_option o k.
Proof.
  intros o c k N. destruct c as [m u| |s|b|m u]; cbn [do_call]; unfold array_backend, auto_sparse.
  - rewrite get_set. destruct (String.eqb_spec k m) as [->|]; auto. exfalso. eapply N. constructor.
  - destruct (default_dec k) as [[v D]|(A & B & C & E)]; [exfalso; eapply N; constructor; eauto|].
    unfold reset_option. cbv zeta. rewrite !get_set. apply String.eqb_neq in A, B, C, E. rewrite A, B, C, E. reflexivity.
  - rewrite get_set. destruct (String.eqb_spec k "ARRAY_BACKEND") as [->|]; auto. exfalso. eapply N. constructor.
  - rewrite get_set. destruct (String.eqb_spec k "AUTO_SPARSE") as [->|]; auto. exfalso. eapply N. constructor.
  - reflexivity.
Qed.
Lemma gives_dec : forall c k, (exists v, gives c k v) \/ (forall v, ~ gives c k v).
Proof.
  intros c k. destruct c as [m u| |s|b|m u].
  - destruct (string_dec m k) as [->|]; [left; eexists; constructor|right; intros v G; inversion G; contradiction].
  - destruct (default_dec k) as [[v D]|(A & B & C & E)]; [left; exists v; constructor; auto|]. right. intros v G. inversion G as [| | |? ? D]; subst. inversion D; subst; contradiction.
  - destruct (string_dec k "ARRAY_BACKEND") as [->|]; [left; eexists; constructor|right; intros v G; inversion G; subst; contradiction].
  - destruct (string_dec k "AUTO_SPARSE") as [->|]; [left; eexists; constructor|right; intros v G; inversion G; subst; contradiction].
  - right. intros v G. inversion G.
Qed.
Lemma value_get : forall h k v, get_option (after h) k = Ok v <-> value_after h k v.
Proof.
  intros h. induction h as [|c h IH] using rev_ind; intros k v.
  - cbn. rewrite initial_get. split.
    + intros D. right. split; [exact D|intros c v' []].
    + intros [(h1 & c & h2 & Q & _)|[D _]]; auto. destruct h1; discriminate.
  - assert (E : after (h ++ [c]) = do_call (after h) c) by (unfold after; rewrite fold_left_app; reflexivity). rewrite E. clear E.
    destruct (gives_dec c k) as [[u G]|N].
    + rewrite (call_gives _ _ _ _ G). split.
      * intros Q. inversion Q; subst u. left. exists h, c, []. split; [reflexivity|]. split; [exact G|intros c' v' []].
      * intros [(h1 & c0 & h2 & Q & G0 & L)|[_ L]]; [|exfalso; apply (L c u); auto; apply in_or_app; right; left; auto].
        destruct h2 as [|x h2] using rev_ind; [|exfalso].
        { apply app_inj_tail in Q. destruct Q as [_ <-]. rewrite <- (call_gives initial _ _ _ G). apply call_gives. auto. }
        { clear IHh2. rewrite app_comm_cons, app_assoc in Q. apply app_inj_tail in Q. destruct Q as [_ <-]. apply (L c u); auto. apply in_or_app. right. left. auto. }
    + rewrite call_keeps by auto. rewrite IH. split.
      * intros [(h1 & c0 & h2 & -> & G0 & L)|[D L]].
        -- left. exists h1, c0, (h2 ++ [c])%list. split; [rewrite <- app_assoc; reflexivity|]. split; auto. intros c' v' I. apply in_app_or in I. destruct I as [I|[<-|[]]]; auto.
        -- right. split; auto. intros c' v' I. apply in_app_or in I. destruct I as [I|[<-|[]]]; auto.
      * intros [(h1 & c0 & h2 & Q & G0 & L)|[D L]].
        -- destruct h2 as [|x h2] using rev_ind.
           { apply app_inj_tail in Q. destruct Q as [_ <-]. exfalso. eapply N; eauto. }
           { clear IHh2. rewrite app_comm_cons, app_assoc in Q. apply app_inj_tail in Q. destruct Q as [-> <-]. left. exists h1, c0, h2. split; auto. split; auto. intros c' v' I. apply L. apply in_or_app. auto. }
        -- right. split; auto. intros c' v' I. apply L. apply in_or_app. auto.
Qed.
Lemma no_instance : forall h, no_assignment h -> of_instance (after h) = [].
Proof.
  intros h. induction h as [|c h IH] using rev_ind; intros N; [reflexivity|]. unfold after. rewrite fold_left_app. change (of_instance (do_call (after h) c) = []).
  assert (I : of_instance (after h) = []) by (apply IH; intros k v J; apply (N k v), in_or_app; auto).
  destruct c as [m u| |s|b|m u]; cbn; auto. exfalso. apply (N m u), in_or_app. right. left. auto.
Qed.
