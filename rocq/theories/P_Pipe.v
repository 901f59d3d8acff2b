(** Proofs: pipelines do the same as by hand. *)
From Coq Require Import List String Ascii Bool Lia.
From Verif Require Import Pipe SpecPipe.
Import ListNotations.
Local Open Scope string_scope.

Lemma split_some : forall k a b, split k = Some (a, b) -> k = a ++ "__" ++ b.
Proof.
  induction k as [|c r IH]; intros a b H; [discriminate|]. cbn [split] in H.
  destruct (Ascii.eqb_spec c "_") as [->|].
  - destruct r as [|c' r']; [cbn in H; discriminate|]. destruct (Ascii.eqb_spec c' "_") as [->|].
    + inversion H. reflexivity.
    + destruct (split (String c' r')) as [[x y]|] eqn:E; [|discriminate]. inversion H; subst. rewrite (IH _ _ eq_refl). reflexivity.
  - destruct (split r) as [[x y]|] eqn:E; [|discriminate]. inversion H; subst. rewrite (IH _ _ eq_refl). reflexivity.
Qed.
Lemma split_none : forall k, (forall a b, k <> a ++ "__" ++ b) -> split k = None.
Proof. intros k H. destruct (split k) as [[a b]|] eqn:E; auto. apply split_some in E. exfalso. eapply H, E. Qed.
Lemma split_app : forall n r, (forall a b, n <> a ++ "__" ++ b) -> (forall a, n <> a ++ "_") -> split (n ++ "__" ++ r) = Some (n, r).
Proof.
  induction n as [|c n IH]; intros r H1 H2; [reflexivity|]. change (String c n ++ "__" ++ r) with (String c (n ++ "__" ++ r)). cbn [split].
  assert (I : split (n ++ "__" ++ r) = Some (n, r)).
  { apply IH; [intros a b ->; apply (H1 (String c a) b); reflexivity | intros a ->; apply (H2 (String c a)); reflexivity]. }
  destruct (Ascii.eqb_spec c "_") as [->|]; [|rewrite I; reflexivity].
  destruct n as [|c' n]; [exfalso; apply (H2 ""); reflexivity|]. change (String c' n ++ "__" ++ r) with (String c' (n ++ "__" ++ r)) in *.
  destruct (Ascii.eqb_spec c' "_") as [->|]; [exfalso; apply (H1 "" n); reflexivity|]. rewrite I. match goal with N : c' <> _ |- _ => rewrite (proj2 (Ascii.eqb_neq _ _) N) end. reflexivity.
Qed.
Lemma split_weight : forall n, (forall a b, n <> a ++ "__" ++ b) -> (forall a, n <> a ++ "_") -> split (n ++ "__sample_weight") = Some (n, "sample_weight").
Proof. intros n. exact (split_app n "sample_weight"). Qed.
Lemma app_length : forall a b, String.length (a ++ b) = (String.length a + String.length b)%nat.
Proof. induction a; intros; cbn; auto. Qed.
Lemma app_cancel : forall s a b, a ++ s = b ++ s -> a = b.
Proof.
  intros s. induction a as [|c a IH]; intros [|c' b] H; auto.
  - apply (f_equal String.length) in H. rewrite !app_length in H. cbn in H. lia.
  - apply (f_equal String.length) in H. rewrite !app_length in H. cbn in H. lia.
  - cbn in H. inversion H. f_equal. auto.
Qed.
Lemma eqb_app : forall s a b, String.eqb (a ++ s) (b ++ s) = String.eqb a b.
Proof. intros. destruct (String.eqb_spec a b) as [->|N]; [apply String.eqb_refl|]. apply String.eqb_neq. intro H. apply N, (app_cancel s), H. Qed.
Lemma unique_true : forall l, NoDup l -> unique l = true.
Proof.
  induction 1 as [|x l N D IH]; auto. cbn. rewrite IH, andb_true_r, negb_true_iff. destruct (existsb (String.eqb x) l) eqn:E; auto.
  apply existsb_exists in E. destruct E as (z & I & Q). apply String.eqb_eq in Q. subst. contradiction.
Qed.
Lemma valid_true : forall l, plain_names l -> valid_names l = true.
Proof.
  intros l [D F]. unfold valid_names. rewrite unique_true by auto. cbn [andb]. apply forallb_forall. intros n I. rewrite Forall_forall in F. destruct (F _ I) as (A & B & C).
  rewrite split_none by auto. rewrite andb_true_r, negb_true_iff. destruct (existsb (String.eqb n) ["memory"; "steps"; "verbose"]) eqn:E; auto.
  apply existsb_exists in E. destruct E as (z & J & Q). apply String.eqb_eq in Q. subst. contradiction.
Qed.

Lemma plain_check : forall n, split n = None -> split (n ++ "_") = None -> ~ In n ["memory"; "steps"; "verbose"] -> plain_name n.
Proof.
  intros n H1 H2 H3. split; auto.
  assert (S : forall a b, split (a ++ "__" ++ b) <> None).
  { induction a as [|c a IH]; intros b; [discriminate|]. change (String c a ++ "__" ++ b) with (String c (a ++ "__" ++ b)). cbn [split].
    match goal with |- context [match ?x with Some _ => _ | None => _ end] => destruct x end; [discriminate|]. specialize (IH b). destruct (split (a ++ "__" ++ b)) as [[]|]; [discriminate|contradiction]. }
  split; [intros a b ->; eapply S; eauto|]. intros a ->. apply (S a "").
  assert (Q : (a ++ "_") ++ "_" = a ++ "__" ++ "") by (clear; induction a as [|c a IH]; [reflexivity|cbn; f_equal; exact IH]). rewrite <- Q. exact H2.
Qed.
Section P.
Context {T P : Type}.
Implicit Types (own : list (string * T)) (steps : list (string * step (est T P))).

Lemma known_true : forall {A} (steps : list (string * step A)) n, (exists s, In (n, s) steps /\ s <> SNone) <-> known_step steps n = true.
Proof.
  intros. unfold known_step. rewrite existsb_exists. split.
  - intros (s & I & N). exists (n, s). split; auto. cbn. rewrite String.eqb_refl. destruct s; auto; contradiction.
  - intros ([m s] & I & Q). apply andb_true_iff in Q. cbn in Q. destruct Q as [Q1 Q2]. apply String.eqb_eq in Q1. subst m. exists s. split; auto. intros ->. discriminate.
Qed.
Definition tagged own : list (string * (string * T)) := map (fun x => (fst x, ("sample_weight", snd x))) own.
Lemma check_ok : forall {A} (steps : list (string * step A)) own, Forall plain_name (map fst own) -> (forall n, In n (map fst own) -> exists s, In (n, s) steps /\ s <> SNone) ->
  check_params steps (step_weights own) = Ok (tagged own).
Proof.
  intros A steps. induction own as [|[n v] own IH]; intros F K; auto. cbn in F. inversion F as [|? ? [_ [F1 F2]] F3]; subst.
  cbn [step_weights map fst snd check_params]. rewrite split_weight by auto.
  rewrite (proj1 (known_true _ _) (K n (or_introl eq_refl))). change (map _ own) with (step_weights own). rewrite IH; auto. intros; apply K; right; auto.
Qed.
Lemma check_err : forall {A} (steps : list (string * step A)) own, Forall plain_name (map fst own) -> (exists n, In n (map fst own) /\ known_step steps n = false) ->
  check_params steps (step_weights own) = Err KeyError.
Proof.
  intros A steps. induction own as [|[n v] own IH]; intros F (m & I & K); [destruct I|]. cbn in F. inversion F as [|? ? [_ [F1 F2]] F3]; subst.
  cbn [step_weights map fst snd check_params]. rewrite split_weight by auto.
  destruct (known_step steps n) eqn:E; auto. change (map _ own) with (step_weights own). rewrite IH; auto.
  destruct I as [<-|I]; [cbn in K; congruence|]. exists m. auto.
Qed.
Lemma put_weights : forall n w own, put (n ++ "__sample_weight") w (step_weights own) = step_weights (put n w own).
Proof.
  intros n w. induction own as [|[m v] own IH]; auto. cbn [step_weights map fst snd put]. rewrite eqb_app. destruct (String.eqb n m); auto.
  change (map _ own) with (step_weights own). rewrite IH. reflexivity.
Qed.
Definition all_put w (names : list string) own := fold_left (fun o n => put n w o) names own.
Lemma fold_weights : forall w steps own, fold_left (fun ps s => put (fst s ++ "__sample_weight") w ps) steps (step_weights own) = step_weights (all_put w (map fst steps) own).
Proof. intros w. induction steps as [|s steps IH]; intros own; auto. cbn. rewrite put_weights. apply IH. Qed.
Lemma put_names : forall n (w : T) own m, In m (map fst (put n w own)) <-> m = n \/ In m (map fst own).
Proof.
  intros n w. induction own as [|[k v] own IH]; intros m; cbn; [intuition|]. destruct (String.eqb_spec n k) as [->|]; cbn; [intuition|]. rewrite IH. intuition.
Qed.
Lemma put_nodup : forall n (w : T) own, NoDup (map fst own) -> NoDup (map fst (put n w own)).
Proof.
  intros n w. induction own as [|[k v] own IH]; intros D; cbn; [constructor; auto|]. inversion D; subst. destruct (String.eqb_spec n k) as [->|]; cbn; [constructor; auto|].
  constructor; auto. rewrite put_names. intros [->|I]; auto.
Qed.
Lemma lookup_put : forall n (w : T) own m, lookup m (put n w own) = if String.eqb m n then Some w else lookup m own.
Proof.
  intros n w. induction own as [|[k v] own IH]; intros m; cbn; auto. destruct (String.eqb_spec n k) as [->|]; cbn.
  - destruct (String.eqb m k); auto.
  - rewrite IH. destruct (String.eqb_spec m k) as [->|]; auto. destruct (String.eqb_spec k n) as [->|]; auto. contradiction.
Qed.
Lemma all_put_names : forall w names own m, In m (map fst (all_put w names own)) <-> In m names \/ In m (map fst own).
Proof. intros w. induction names as [|n names IH]; intros own m; cbn; [intuition|]. unfold all_put in IH. rewrite IH, put_names. intuition. Qed.
Lemma all_put_nodup : forall w names own, NoDup (map fst own) -> NoDup (map fst (all_put w names own)).
Proof. intros w. induction names; intros; cbn; auto. apply IHnames, put_nodup; auto. Qed.
Lemma lookup_all_put : forall w names own m, In m names \/ lookup m own = Some w -> lookup m (all_put w names own) = Some w.
Proof.
  intros w. induction names as [|n names IH]; intros own m H; cbn; [destruct H as [[]|]; auto|]. apply IH. rewrite lookup_put.
  destruct (String.eqb_spec m n); [auto|]. destruct H as [[|]|]; [congruence|auto|auto].
Qed.
Lemma params_tagged : forall own n, NoDup (map fst own) -> only_weight (params_of (tagged own) n) = Ok (lookup n own).
Proof.
  intros own n D. assert (E : params_of (tagged own) n = match lookup n own with Some v => [("sample_weight", v)] | None => [] end).
  { unfold params_of. induction own as [|[k v] own IH]; auto. inversion D; subst. cbn. rewrite (String.eqb_sym n k). destruct (String.eqb_spec k n) as [->|]; cbn; [|apply IH; auto].
    specialize (IH H2). unfold tagged in IH. rewrite IH. destruct (lookup n own) eqn:L; auto. exfalso. apply H1. clear - L. induction own as [|[k v'] own IH]; [discriminate|]. cbn in *. destruct (String.eqb_spec n k); auto. }
  rewrite E. destruct (lookup n own); reflexivity.
Qed.
Lemma lookup_find : forall own n, lookup n own = option_map snd (find (fun x => if string_dec (fst x) n then true else false) own).
Proof. induction own as [|[k v] own IH]; intros n; cbn [lookup find fst]; auto. destruct (String.eqb_spec n k) as [Q|Q]; destruct (string_dec k n) as [Q'|Q']; [reflexivity|exfalso; apply Q'; auto|exfalso; apply Q; auto|apply IH]. Qed.

Lemma ends_cons : forall {A} (s : string * step A) r, ends_in_estimator (s :: r) -> r <> [] -> ends_in_estimator r.
Proof. intros A s r (init & n & e & Q) N. destruct init as [|x init]; cbn in Q; inversion Q; subst; [contradiction|]. exists init, n, e. auto. Qed.
Lemma ends_one : forall {A} n (s : step A), ends_in_estimator [(n, s)] -> exists e, s = SEst e.
Proof. intros A n s (init & m & e & Q). destruct init as [|x init]; cbn in Q; inversion Q; eauto. destruct init; discriminate. Qed.
Lemma ends_nil : forall {A}, ~ ends_in_estimator (@nil (string * step A)).
Proof. intros A (init & n & e & Q). destruct init; discriminate. Qed.

Lemma fit_by_hand : forall y own weight steps X fs, NoDup (map fst own) -> (forall n, In n (map fst steps) -> weight n = lookup n own) -> ends_in_estimator steps ->
  fit_steps steps (tagged own) X y = Ok fs <-> by_hand y weight steps X fs.
Proof.
  intros y own weight. induction steps as [|[n s] r IH]; intros X fs D W L; [exfalso; eapply ends_nil, L|].
  assert (Wn : weight n = lookup n own) by (apply W; left; auto).
  assert (R : r = [] \/ r <> []) by (destruct r; [left|right]; congruence).
  destruct R as [->|R].
  - destruct (ends_one _ _ L) as [e ->]. cbn. rewrite params_tagged by auto. cbn. rewrite <- Wn. split.
    + destruct (e X y (weight n)) eqn:E; intros Q; inversion Q. constructor; auto.
    + intros Q. inversion Q as [? ? ? ? E|? ? ? ? ? ? ? N| |]; subst; [rewrite E; reflexivity|contradiction].
  - assert (IH' : forall X fs, fit_steps r (tagged own) X y = Ok fs <-> by_hand y weight r X fs) by (intros; apply IH; auto; [intros; apply W; right; auto | eapply ends_cons; eauto]).
    destruct s as [e| |].
    + assert (Q : fit_steps ((n, SEst e) :: r) (tagged own) X y = (do w <- only_weight (params_of (tagged own) n); do m <- e X y w; do X' <- m_transform m X; do ms <- fit_steps r (tagged own) X' y; Ok (SEst m :: ms))) by (destruct r; [contradiction|reflexivity]).
      rewrite Q, params_tagged by auto. cbn [rbind]. rewrite <- Wn. clear Q. split.
      * destruct (e X y (weight n)) as [m|] eqn:E; cbn [rbind]; [|discriminate]. destruct (m_transform m X) as [X'|] eqn:E2; cbn [rbind]; [|discriminate].
        destruct (fit_steps r (tagged own) X' y) as [ms|] eqn:E3; cbn [rbind]; [|discriminate]. intros Q; inversion Q; subst. eapply bh_step; eauto. apply IH'; auto.
      * intros Q. inversion Q as [|? ? ? ? m X' ms N E E2 B| |]; subst; [contradiction|]. rewrite E. cbn [rbind]. rewrite E2. cbn [rbind]. apply IH' in B. rewrite B. reflexivity.
    + cbn [fit_steps]. split.
      * destruct (fit_steps r (tagged own) X y) eqn:E; intros Q; inversion Q; subst. constructor. apply IH'; auto.
      * intros Q. inversion Q as [| |? ? ? ms B|]; subst. apply IH' in B. rewrite B. reflexivity.
    + cbn [fit_steps]. split.
      * destruct (fit_steps r (tagged own) X y) eqn:E; intros Q; inversion Q; subst. constructor. apply IH'; auto.
      * intros Q. inversion Q as [| | |? ? ? ms B]; subst. apply IH' in B. rewrite B. reflexivity.
Qed.
Lemma fit_spec : forall steps X y w own fs, plain_names (map fst steps) -> ends_in_estimator steps -> weights_fit steps own -> (w <> None -> forall n, ~ In (n, SNone) steps) ->
  pipe_fit steps X y w (step_weights own) = Ok fs <-> by_hand y (weight_of w own) steps X fs.
Proof.
  intros steps X y w own fs PN L [D K] S. destruct PN as [DN FN] eqn:PE. clear PE.
  assert (FO : Forall plain_name (map fst own)).
  { apply Forall_forall. intros n I. rewrite Forall_forall in FN. apply FN. destruct (K _ I) as (s & J & _). apply in_map_iff. exists (n, s). auto. }
  unfold pipe_fit, super_fit. destruct w as [w|].
  - rewrite fold_weights. rewrite check_ok.
    + cbn [rbind]. rewrite valid_true by (split; auto). apply fit_by_hand; auto; [apply all_put_nodup; auto|]. intros n I. cbn. symmetry. apply lookup_all_put. auto.
    + apply Forall_forall. intros n I. apply all_put_names in I. rewrite Forall_forall in FN, FO. destruct I; auto.
    + intros n I. apply all_put_names in I. destruct I as [I|I]; auto. apply in_map_iff in I. destruct I as ([m s] & <- & I). exists s. split; auto. intros ->. eapply S; [discriminate|exact I].
  - rewrite check_ok by auto. cbn [rbind]. rewrite valid_true by (split; auto). apply fit_by_hand; auto. intros n I. cbn. symmetry. apply lookup_find.
Qed.
Lemma by_hand_ext : forall y (f g : string -> option T) steps X (fs : list (step (fitted T P))), (forall n, f n = g n) -> by_hand y f steps X fs -> by_hand y g steps X fs.
Proof.
  intros y f g steps X fs Q. induction 1.
  - apply bh_last. rewrite <- Q. auto.
  - eapply bh_step; eauto. rewrite <- Q. auto.
  - apply bh_none. auto.
  - apply bh_pass. auto.
Qed.
Lemma predict_steps_spec : forall (ms : list (step (fitted T P))) w v (ps : keywords T), only_weight ps = Ok w -> forall X, predict_steps ms X ps = Ok v <-> predicts w ms X v.
Proof.
  intros ms w v ps OW.
  induction ms as [|s r IH]; intros X; [split; [discriminate|intros Q; inversion Q]|].
  assert (R : r = [] \/ r <> []) by (destruct r; [left|right]; congruence). destruct R as [->|R].
  - destruct s as [m| |]; cbn [predict_steps].
    + split.
      * destruct (m_predict m) eqn:E; [|discriminate]. rewrite OW. cbn. intros Q. econstructor; eauto.
      * intros Q. inversion Q as [? ? ? ? E F|? ? ? ? ? N| |]; subst; [|contradiction]. rewrite E, OW. exact F.
    + split; [discriminate|]. intros Q. inversion Q as [| |? ? ? B|]; subst. inversion B.
    + split; [discriminate|]. intros Q. inversion Q as [| | |? ? ? B]; subst. inversion B.
  - destruct s as [m| |].
    + assert (Q : predict_steps (SEst m :: r) X ps = (do X' <- m_transform m X; predict_steps r X' ps)) by (destruct r; [contradiction|reflexivity]). rewrite Q. clear Q. split.
      * destruct (m_transform m X) eqn:E; cbn; [|discriminate]. intros Q. eapply pr_step; eauto. apply IH; auto.
      * intros Q. inversion Q as [|? ? ? X' ? N E B| |]; subst; [contradiction|]. rewrite E. cbn. apply IH; auto.
    + assert (Q : predict_steps (SNone :: r) X ps = predict_steps r X ps) by (destruct r; [contradiction|reflexivity]). rewrite Q, IH. split; [constructor; auto|]. intros B. inversion B; auto.
    + assert (Q' : predict_steps (SPass :: r) X ps = predict_steps r X ps) by (destruct r; [contradiction|reflexivity]). rewrite Q', IH. split; [constructor; auto|]. intros B. inversion B; auto.
Qed.
Lemma predict_spec : forall (ms : list (step (fitted T P))) X w v, pipe_predict ms X w [] = Ok v <-> predicts w ms X v.
Proof. intros. unfold pipe_predict. apply predict_steps_spec. destruct w; reflexivity. Qed.
Lemma predict_refuses : forall (ms : list (step (fitted T P))) X (ps : keywords T) v k x, In (k, x) ps -> k <> "sample_weight" -> predict_steps ms X ps <> Ok v.
Proof.
  intros ms X ps v k x I N. assert (OW : only_weight ps = Err TypeError).
  { unfold only_weight. destruct (forallb _ ps) eqn:E; auto. rewrite forallb_forall in E. apply E in I. apply String.eqb_eq in I. contradiction. }
  revert X. induction ms as [|s r IH]; intros X; [discriminate|]. destruct r as [|s' r].
  - destruct s as [m| |]; cbn [predict_steps]; try discriminate. rewrite OW. destruct (m_predict m); discriminate.
  - destruct s as [m| |].
    + change (rbind (m_transform m X) (fun X' => predict_steps (s' :: r) X' ps) <> Ok v). destruct (m_transform m X); [apply IH|discriminate].
    + apply IH.
    + apply IH.
Qed.
End P.
