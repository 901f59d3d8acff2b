(** Proofs: estimators and pipelines survive being saved as JSON and read back. *)
From Coq Require Import List String ZArith Bool.
From Verif Require Import Store SpecStore.
Import ListNotations.
Local Open Scope string_scope.

Fixpoint dall (l : list pv) : result (list js) :=
  match l with [] => Ok [] | x :: r => do j <- dump false x; do js <- dall r; Ok (j :: js) end.
Fixpoint deach (l : list (dkey * pv)) : result (list (string * js)) :=
  match l with [] => Ok [] | (k, x) :: r => do s <- key_text k; do j <- dump false x; do js <- deach r; Ok ((s, j) :: js) end.
Fixpoint dparams (b : bool) (l : list (string * pv)) : result (list (string * js)) :=
  match l with [] => Ok [] | (k, x) :: r => do j <- dump b x; do js <- dparams b r; Ok ((k, j) :: js) end.
Lemma dump_list : forall b l, dump b (PList l) = do js <- dall l; Ok (JArr js).
Proof. reflexivity. Qed.
Lemma dump_tuple : forall b l, dump b (PTuple l) = do js <- dall l; Ok (JArr js).
Proof. reflexivity. Qed.
Lemma dump_dict : forall b l, dump b (PDict l) = do js <- deach l; Ok (JObj js).
Proof. reflexivity. Qed.
Lemma dump_est : forall c l, dump true (PEst c l) = do js <- dparams true l; Ok (JDoc c js).
Proof.
  intros c l. cbn [dump]. match goal with |- rbind (?f l) _ = _ => assert (X : forall m, f m = dparams true m) end.
  { induction m as [|[k x] m IH]; [reflexivity|]. cbn [dparams]. rewrite <- IH. reflexivity. }
  rewrite X. reflexivity.
Qed.

(** dictionaries *)
Lemma put_new : forall A k (v : A) l, ~ In k (map fst l) -> put k v l = (l ++ [(k, v)])%list.
Proof.
  induction l as [|[k' v'] l IH]; intros H; cbn; [reflexivity|]. destruct (String.eqb_spec k k') as [->|N]; [exfalso; apply H; left; reflexivity|].
  rewrite IH; [reflexivity|]. intros I. apply H. right. exact I.
Qed.
Lemma dict_nodup_gen : forall A (l acc : list (string * A)), NoDup (map fst (acc ++ l)) ->
  fold_left (fun acc x => put (fst x) (snd x) acc) l acc = (acc ++ l)%list.
Proof.
  induction l as [|[k v] l IH]; intros acc H; cbn; [rewrite app_nil_r; reflexivity|].
  rewrite map_app in H. cbn in H. rewrite put_new by (intros I; apply (NoDup_remove_2 _ _ _ H), in_or_app; left; exact I).
  rewrite IH; rewrite <- app_assoc; [reflexivity|]. rewrite map_app. exact H.
Qed.
Lemma dict_nodup : forall A (l : list (string * A)), NoDup (map fst l) -> dict l = l.
Proof. intros. unfold dict. apply (dict_nodup_gen _ l []). exact H. Qed.

Lemma key_ok : forall k k', reads_key k k' -> exists s, key_text k = Ok s /\ k' = DText s.
Proof. intros k k' H. destruct H; eexists; split; reflexivity. Qed.

Lemma roundtrip : forall v w, reads_as v w -> forall b, exists j, dump b v = Ok j /\ loads j = w.
Proof.
  fix IH 3. intros v w H b. destruct H as [|b'|z|q|p|s|l m F|l m F|l m N F].
  1-6: eexists; split; reflexivity.
  - assert (X : exists js, dall l = Ok js /\ map loads js = m).
    { clear b. induction F as [|x y l m H F IHF]; [exists []; split; reflexivity|]. destruct (IH _ _ H false) as [j [E1 E2]]. destruct IHF as [js [E3 E4]].
      exists (j :: js). cbn [dall]. rewrite E1, E3. cbn. rewrite E2, E4. split; reflexivity. }
    destruct X as [js [E1 E2]]. exists (JArr js). rewrite dump_list, E1. cbn. rewrite E2. split; reflexivity.
  - assert (X : exists js, dall l = Ok js /\ map loads js = m).
    { clear b. induction F as [|x y l m H F IHF]; [exists []; split; reflexivity|]. destruct (IH _ _ H false) as [j [E1 E2]]. destruct IHF as [js [E3 E4]].
      exists (j :: js). cbn [dall]. rewrite E1, E3. cbn. rewrite E2, E4. split; reflexivity. }
    destruct X as [js [E1 E2]]. exists (JArr js). rewrite dump_tuple, E1. cbn. rewrite E2. split; reflexivity.
  - assert (X : exists js, deach l = Ok js /\ map (fun x => (DText (fst x), loads (snd x))) js = m).
    { clear b N. induction F as [|[k x] [k' y] l m [K H] F IHF]; [exists []; split; reflexivity|]. cbn [fst snd] in *. destruct (IH _ _ H false) as [j [E1 E2]].
      destruct IHF as [js [E3 E4]]. destruct (key_ok _ _ K) as [s [E5 E6]].
      exists ((s, j) :: js). cbn [deach]. rewrite E5. cbn [rbind]. rewrite E1, E3. cbn. rewrite E2, E4, E6. split; reflexivity. }
    destruct X as [js [E1 E2]]. exists (JObj js). rewrite dump_dict, E1. split; [reflexivity|]. cbn [loads]. f_equal.
    rewrite dict_nodup; rewrite map_map; cbn [fst snd]; [exact E2|].
    rewrite <- E2, map_map in N. cbn [fst] in N. apply NoDup_map_inv with (f := DText). rewrite map_map. exact N.
Qed.

Lemma plain_reads : forall v, plain v -> reads_as v v.
Proof.
  fix IH 2. intros v H. destruct H as [|b|z|q|p|s|l F|l N F]; try constructor; auto.
  - induction F as [|x l H F IHF]; constructor; auto.
  - clear N. induction F as [|[k x] l [K H] F IHF]; constructor; auto. split; [|apply IH; exact H]. destruct K as [s K]. cbn in *. subst. constructor.
Qed.
Lemma plain_rt : forall v, plain v -> forall b, exists j, dump b v = Ok j /\ loads j = v.
Proof. intros. apply roundtrip, plain_reads, H. Qed.

(** parameters *)
Lemma params_rt : forall b ps qs, Forall2 (fun x y => fst x = fst y /\ reads_as (snd x) (snd y)) ps qs ->
  exists js, dparams b ps = Ok js /\ map (fun x => (fst x, loads (snd x))) js = qs.
Proof.
  induction 1 as [|[k x] [k' y] ps qs [E H] F IH]; [exists []; split; reflexivity|]. cbn in E, H. subst k'. destruct (roundtrip _ _ H b) as [j [E1 E2]]. destruct IH as [js [E3 E4]].
  exists ((k, j) :: js). cbn [dparams]. rewrite E1, E3. cbn. rewrite E2, E4. split; reflexivity.
Qed.
Lemma plain_params : forall ps, Forall (fun x : string * pv => plain (snd x)) ps -> Forall2 (fun x y => fst x = fst y /\ reads_as (snd x) (snd y)) ps ps.
Proof. induction 1; constructor; auto. split; [reflexivity|]. apply plain_reads; auto. Qed.

Lemma find_notin : forall A k (l : list (string * A)), In k (map fst l) -> exists v, find k l = Some v.
Proof.
  induction l as [|[k' v] l IH]; intros H; [destruct H|]. cbn. destruct (String.eqb_spec k k'); [eexists; reflexivity|]. apply IH. cbn in H. destruct H; [subst; contradiction|auto].
Qed.
Lemma put_mid : forall A k (v w : A) l r, ~ In k (map fst l) -> put k v (l ++ (k, w) :: r) = (l ++ (k, v) :: r)%list.
Proof.
  induction l as [|[k' v'] l IH]; intros r H; cbn; [rewrite String.eqb_refl; reflexivity|].
  destruct (String.eqb_spec k k') as [->|N]; [exfalso; apply H; left; reflexivity|]. rewrite IH; [reflexivity|]. intros I. apply H. right. exact I.
Qed.
Lemma set_all_gen : forall new pre cur, NoDup (map fst (pre ++ cur)) -> map fst new = map fst cur -> set_params (pre ++ cur) new = Ok (pre ++ new)%list.
Proof.
  induction new as [|[k v] new IH]; intros pre cur N E; destruct cur as [|[k' w] cur]; try discriminate; [reflexivity|].
  cbn [map fst] in E. inversion E; subst k'. cbn [set_params].
  destruct (find_notin _ k (pre ++ (k, w) :: cur)) as [u U]; [rewrite map_app; apply in_or_app; right; left; reflexivity|]. rewrite U.
  rewrite map_app in N. cbn [map fst] in N. rewrite put_mid by (intros I; apply (NoDup_remove_2 _ _ _ N), in_or_app; left; exact I).
  change (pre ++ (k, v) :: cur)%list with (pre ++ [(k, v)] ++ cur)%list. rewrite app_assoc. rewrite IH; [rewrite <- app_assoc; reflexivity| |auto].
  rewrite <- app_assoc, map_app. exact N.
Qed.
Lemma set_all : forall new cur, NoDup (map fst cur) -> map fst new = map fst cur -> set_params cur new = Ok new.
Proof. intros new cur N E. exact (set_all_gen new [] cur N E). Qed.

Fixpoint nodupb (l : list string) : bool := match l with [] => true | x :: r => negb (existsb (String.eqb x) r) && nodupb r end.
Lemma nodupb_ok : forall l, nodupb l = true -> NoDup l.
Proof.
  induction l as [|x l IH]; intros H; constructor; cbn in H; apply andb_prop in H; destruct H as [H1 H2]; [|auto].
  intros I. apply negb_true_iff in H1. assert (X : existsb (String.eqb x) l = true) by (apply existsb_exists; exists x; split; [exact I|apply String.eqb_refl]). congruence.
Qed.
Lemma find_in : forall A k (l : list (string * A)) v, find k l = Some v -> In (k, v) l.
Proof. induction l as [|[k' w] l IH]; intros v H; [discriminate|]. cbn in H. destruct (String.eqb_spec k k'); [inversion H; subst; left; reflexivity|right; auto]. Qed.
Lemma class_nodup : forall c d, class_new c = Ok d -> NoDup (map fst d).
Proof.
  intros c d H. unfold class_new in H. destruct (find c classes) eqn:E.
  - inversion H; subst. apply find_in in E. apply nodupb_ok.
    assert (X : forallb (fun x => nodupb (map fst (snd x))) classes = true) by (vm_compute; reflexivity). rewrite forallb_forall in X. exact (X _ E).
  - destruct (_ || _ || _); discriminate.
Qed.

Lemma read_other : forall c d js qs, class_new c = Ok d -> c <> "BerquistSherman" -> map fst qs = map fst d -> map (fun x => (fst x, loads (snd x))) js = qs ->
  read_est (JDoc c js) = Ok (PEst c qs).
Proof.
  intros c d js qs E N M L. cbn [read_est]. rewrite E. cbn [rbind]. destruct (String.eqb_spec c "BerquistSherman"); [contradiction|]. rewrite L.
  rewrite (set_all qs d (class_nodup _ _ E) M). reflexivity.
Qed.
Lemma est_reads : forall c d ps qs, class_new c = Ok d -> c <> "BerquistSherman" -> map fst ps = map fst d ->
  Forall2 (fun x y => fst x = fst y /\ reads_as (snd x) (snd y)) ps qs -> exists j, to_json c ps = Ok j /\ read_est j = Ok (PEst c qs).
Proof.
  intros c d ps qs E N M F. destruct (params_rt true _ _ F) as [js [E1 E2]]. exists (JDoc c js). unfold to_json. rewrite dump_est, E1. split; [reflexivity|].
  apply (read_other c d); auto. rewrite <- M. clear - F. induction F as [|x y ps qs [E _] F IH]; [reflexivity|]. cbn. rewrite E, IH. reflexivity.
Qed.

Lemma not_text_set : forall read cur new, ~ (exists v, find rce new = Some v /\ (is_text v \/ exists c ps, v = PDoc c ps)) -> In rce (map fst new) ->
  berq_set_params read cur new = set_params cur new.
Proof.
  intros read cur new H I. unfold berq_set_params. destruct (find_notin _ _ _ I) as [v V]. rewrite V. destruct v; auto; exfalso; apply H; eexists; (split; [exact V|]).
  - left. eexists; reflexivity. - right. eexists; eexists; reflexivity.
Qed.
Definition bparams (cc ia pa rc e tr : pv) : list (string * pv) :=
  [("closed_count", cc); ("incurred_amount", ia); ("paid_amount", pa); ("reported_count", rc); ("reported_count_estimator", e); ("trend", tr)].
Lemma plain_not_doc : forall v, plain v -> ~ exists c ps, v = PDoc c ps.
Proof. intros v H [c [ps ->]]. inversion H. Qed.
Lemma berq_nodoc : forall b cc ia pa rc e tr, Forall plain [cc; ia; pa; rc; e; tr] -> ~ is_text e ->
  exists js, dparams b (bparams cc ia pa rc e tr) = Ok js /\ read_est (JDoc "BerquistSherman" js) = Ok (PEst "BerquistSherman" (bparams cc ia pa rc e tr)).
Proof.
  intros b cc ia pa rc e tr F T.
  assert (F2 : Forall (fun x : string * pv => plain (snd x)) (bparams cc ia pa rc e tr)).
  { apply Forall_map with (f := snd). exact F. }
  destruct (params_rt b _ _ (plain_params _ F2)) as [js [E1 E2]]. exists js. split; [exact E1|]. cbn [read_est]. unfold class_new. 
  replace (find "BerquistSherman" classes) with (Some (bparams PNone PNone PNone PNone PNone zero)) by reflexivity. cbn [rbind].
  rewrite String.eqb_refl. rewrite E2. rewrite not_text_set.
  - rewrite set_all; [reflexivity| |reflexivity]. apply nodupb_ok. reflexivity.
  - intros [v [V H]]. cbn in V. inversion V; subst v. destruct H as [H|H]; [auto|]. apply plain_not_doc in H; [exact H|]. 
    rewrite Forall_forall in F. apply F. cbn. auto 10.
  - cbn. auto 10.
Qed.

Lemma savable_est : forall v, savable v -> exists c ps, v = PEst c ps.
Proof. intros v H. destruct H; eexists; eexists; reflexivity. Qed.
Lemma savable_rt : forall v, savable v -> exists j, dump true v = Ok j /\ read_est j = Ok v.
Proof.
  induction 1 as [c d ps E N M F|cc ia pa rc e tr F T|cc ia pa rc e tr F S IH].
  - apply (est_reads c d ps ps E N M). apply plain_params, F.
  - destruct (berq_nodoc true _ _ _ _ _ _ F T) as [js [E1 E2]]. exists (JDoc "BerquistSherman" js). rewrite dump_est. fold (bparams cc ia pa rc e tr). rewrite E1. split; [reflexivity|exact E2].
  - destruct IH as [j [E1 E2]]. destruct (savable_est _ S) as [c [ps ->]]. 
    assert (D : exists qs, j = JDoc c qs). { rewrite dump_est in E1. destruct (dparams true ps); [|discriminate]. inversion E1. eexists; reflexivity. }
    destruct D as [qs ->].
    inversion F as [|? ? F1 G1]; subst. inversion G1 as [|? ? F2 G2]; subst. inversion G2 as [|? ? F3 G3]; subst. inversion G3 as [|? ? F4 G4]; subst. inversion G4 as [|? ? F5 G5]; subst.
    destruct (plain_rt _ F1 true) as [j1 [A1 B1]]. destruct (plain_rt _ F2 true) as [j2 [A2 B2]]. destruct (plain_rt _ F3 true) as [j3 [A3 B3]].
    destruct (plain_rt _ F4 true) as [j4 [A4 B4]]. destruct (plain_rt _ F5 true) as [j5 [A5 B5]].
    exists (JDoc "BerquistSherman" [("closed_count", j1); ("incurred_amount", j2); ("paid_amount", j3); ("reported_count", j4); ("reported_count_estimator", JDoc c qs); ("trend", j5)]).
    split.
    + rewrite dump_est. cbn [dparams]. rewrite A1, A2, A3, A4, E1, A5. reflexivity.
    + remember (JDoc c qs) as jd eqn:J.
      cbn [read_est]. unfold class_new. replace (find "BerquistSherman" classes) with (Some (bparams PNone PNone PNone PNone PNone zero)) by reflexivity. cbn [rbind].
      rewrite String.eqb_refl. cbn [map fst snd]. rewrite B1, B2, B3, B4, B5. unfold berq_set_params.
      assert (LD : loads jd = PDoc c qs) by (rewrite J; reflexivity). rewrite LD.
      cbn [find rce String.eqb Ascii.eqb Bool.eqb].
      rewrite E2. cbn [rbind]. cbn [put rce String.eqb Ascii.eqb Bool.eqb]. rewrite (set_all (bparams cc ia pa rc (PEst c ps) tr)); [reflexivity| |reflexivity]. apply nodupb_ok. reflexivity.
Qed.

(** refusal *)
Lemma dall_err : forall l x e, In x l -> dump false x = Err e -> exists e', dall l = Err e'.
Proof.
  induction l as [|y l IH]; intros x e H E; [destruct H|]. cbn. destruct H as [->|H]; [rewrite E; eexists; reflexivity|].
  destruct (dump false y); [|eexists; reflexivity]. cbn. destruct (IH _ _ H E) as [e' ->]. eexists; reflexivity.
Qed.
Lemma deach_err : forall l k x e, In (k, x) l -> dump false x = Err e -> exists e', deach l = Err e'.
Proof.
  induction l as [|[k' y] l IH]; intros k x e H E; [destruct H|]. cbn. destruct (key_text k'); [|eexists; reflexivity]. cbn. destruct H as [H|H]; [inversion H; subst; rewrite E; eexists; reflexivity|].
  destruct (dump false y); [|eexists; reflexivity]. cbn. destruct (IH _ _ _ H E) as [e' ->]. eexists; reflexivity.
Qed.
Lemma dparams_err : forall b l k x e, In (k, x) l -> dump b x = Err e -> exists e', dparams b l = Err e'.
Proof.
  induction l as [|[k' y] l IH]; intros k x e H E; [destruct H|]. cbn. destruct H as [H|H]; [inversion H; subst; rewrite E; eexists; reflexivity|].
  destruct (dump b y); [|eexists; reflexivity]. cbn. destruct (IH _ _ _ H E) as [e' ->]. eexists; reflexivity.
Qed.
Lemma object_err : forall v, holds_object v -> forall b, exists e, dump b v = Err e.
Proof.
  induction 1 as [| |l x I H IH|l x I H IH|l k x I H IH|c l k x I H IH]; intros b.
  - eexists; reflexivity.
  - eexists; reflexivity.
  - destruct (IH false) as [e E]. destruct (dall_err _ _ _ I E) as [e' E']. rewrite dump_list, E'. eexists; reflexivity.
  - destruct (IH false) as [e E]. destruct (dall_err _ _ _ I E) as [e' E']. rewrite dump_tuple, E'. eexists; reflexivity.
  - destruct (IH false) as [e E]. destruct (deach_err _ _ _ _ I E) as [e' E']. rewrite dump_dict, E'. eexists; reflexivity.
  - destruct b; [|eexists; reflexivity]. destruct (IH true) as [e E]. destruct (dparams_err true _ _ _ _ I E) as [e' E']. rewrite dump_est, E'. eexists; reflexivity.
Qed.

(** pipelines *)
Lemma mapr_dparams : forall b ps, mapr (fun x : string * pv => do j <- dump b (snd x); Ok (fst x, j)) ps = dparams b ps.
Proof. induction ps as [|[k x] ps IH]; [reflexivity|]. cbn [mapr dparams fst snd]. rewrite IH. destruct (dump b x); reflexivity. Qed.
Lemma step_rt : forall s, step_savable s -> exists js, dparams false (snd (snd s)) = Ok js /\ read_est (JDoc (fst (snd s)) js) = Ok (PEst (fst (snd s)) (snd (snd s))).
Proof.
  intros [n [c ps]] [S F]. cbn [fst snd] in *. inversion S; subst.
  - destruct (params_rt false _ _ (plain_params _ F)) as [js [E1 E2]]. exists js. split; [exact E1|]. eapply read_other; eauto.
  - apply berq_nodoc; auto.
  - exfalso. assert (P : plain e) by (rewrite Forall_forall in F; apply (F ("reported_count_estimator", e)); cbn; auto 10).
    destruct (savable_est e) as [c' [q ->]]; [assumption|]. inversion P.
Qed.
Lemma pipe_rt : forall steps, Forall step_savable steps -> exists d, pipe_to_json steps = Ok d /\ read_pipe d = Ok steps.
Proof.
  induction 1 as [|s steps H F IH]; [exists []; split; reflexivity|]. destruct IH as [d [E1 E2]]. destruct (step_rt _ H) as [js [A B]].
  exists ((fst s, (fst (snd s), js)) :: d). unfold pipe_to_json, read_pipe in *. cbn [mapr]. rewrite mapr_dparams, A. cbn [rbind]. rewrite E1. split; [reflexivity|].
  change (fst (snd (fst s, (fst (snd s), js)))) with (fst (snd s)). change (snd (snd (fst s, (fst (snd s), js)))) with js. rewrite B. cbn [rbind]. rewrite E2. destruct s as [n [c ps]]. reflexivity.
Qed.
Lemma mapr_err : forall A B (f : A -> result B) l x e, In x l -> f x = Err e -> exists e', mapr f l = Err e'.
Proof.
  induction l as [|y l IH]; intros x e H E; [destruct H|]. cbn. destruct H as [->|H]; [rewrite E; eexists; reflexivity|].
  destruct (f y); [|eexists; reflexivity]. cbn. destruct (IH _ _ H E) as [e' ->]. eexists; reflexivity.
Qed.
Lemma pipe_err : forall steps n c ps k x e, In (n, (c, ps)) steps -> In (k, x) ps -> dump false x = Err e -> exists e', pipe_to_json steps = Err e'.
Proof.
  intros steps n c ps k x e I J E. destruct (dparams_err false _ _ _ _ J E) as [e1 E1]. unfold pipe_to_json.
  apply (mapr_err _ _ _ _ (n, (c, ps)) e1 I). cbn [fst snd]. rewrite mapr_dparams, E1. reflexivity.
Qed.

(** documents with some of the parameters *)
Lemma find_put_same : forall A k (v : A) l, find k (put k v l) = Some v.
Proof. induction l as [|[k' w] l IH]; cbn; [rewrite String.eqb_refl; reflexivity|]. destruct (String.eqb_spec k k') as [->|N]; cbn; [rewrite String.eqb_refl; reflexivity|]. destruct (String.eqb_spec k k'); [contradiction|exact IH]. Qed.
Lemma find_put_other : forall A k k' (v : A) l, k <> k' -> find k (put k' v l) = find k l.
Proof.
  intros A k k' v l N. induction l as [|[k2 w] l IH]; cbn; [destruct (String.eqb_spec k k'); [contradiction|reflexivity]|].
  destruct (String.eqb_spec k' k2) as [->|M]; cbn; [destruct (String.eqb_spec k k2); [contradiction|reflexivity]|]. destruct (String.eqb k k2); [reflexivity|exact IH].
Qed.
Lemma put_names : forall A k (v : A) l w, find k l = Some w -> map fst (put k v l) = map fst l.
Proof. induction l as [|[k' u] l IH]; intros w H; [discriminate|]. cbn in *. destruct (String.eqb_spec k k') as [->|N]; [reflexivity|]. cbn. rewrite (IH w H). reflexivity. Qed.
Lemma find_none : forall A k (l : list (string * A)), find k l = None -> ~ In k (map fst l).
Proof. intros A k l H I. destruct (find_notin _ _ _ I) as [v V]. congruence. Qed.
Lemma none_find : forall A k (l : list (string * A)), ~ In k (map fst l) -> find k l = None.
Proof. induction l as [|[k' v] l IH]; intros H; [reflexivity|]. cbn in *. destruct (String.eqb_spec k k') as [->|N]; [exfalso; apply H; left; reflexivity|]. apply IH. intros I. apply H. right. exact I. Qed.
Lemma set_some : forall new cur, NoDup (map fst new) -> (forall k, In k (map fst new) -> In k (map fst cur)) ->
  exists out, set_params cur new = Ok out /\ map fst out = map fst cur /\ forall k, find k out = match find k new with Some v => Some v | None => find k cur end.
Proof.
  induction new as [|[k v] new IH]; intros cur N H; [exists cur; repeat split|]. cbn [map fst] in *. inversion N; subst. cbn [set_params].
  destruct (find_notin _ k cur) as [w W]; [apply H; left; reflexivity|]. rewrite W.
  destruct (IH (put k v cur)) as [out [E [M F]]]; [assumption| |].
  { intros k' I. rewrite (put_names _ _ _ _ _ W). apply H. right. exact I. }
  exists out. split; [exact E|]. split; [rewrite M; apply (put_names _ _ _ _ _ W)|]. intros k'. rewrite F. cbn [find].
  destruct (String.eqb_spec k' k) as [->|D]; [|rewrite find_put_other by assumption; reflexivity]. rewrite none_find by assumption. apply find_put_same.
Qed.
Lemma set_unknown : forall new cur k, In k (map fst new) -> ~ In k (map fst cur) -> set_params cur new = Err ValueError.
Proof.
  induction new as [|[k' v] new IH]; intros cur k I N; [destruct I|]. cbn [set_params]. destruct (find k' cur) as [w|] eqn:E; [|reflexivity].
  cbn in I. destruct I as [->|I]; [exfalso; apply N; apply find_in in E; apply (in_map fst) in E; exact E|]. apply (IH _ k I). rewrite (put_names _ _ _ _ _ E). exact N.
Qed.
Lemma under_find : forall A k (v : A) l, under k v l <-> find k l = Some v.
Proof.
  intros A k v l. split.
  - induction 1; cbn; [rewrite String.eqb_refl; reflexivity|]. destruct (String.eqb_spec k k'); [contradiction|assumption].
  - induction l as [|[k' w] l IH]; intros H; [discriminate|]. cbn in H. destruct (String.eqb_spec k k') as [->|N]; [inversion H; constructor|constructor; auto].
Qed.
Lemma find_map : forall A B (f : A -> B) k l, find k (map (fun x : string * A => (fst x, f (snd x))) l) = option_map f (find k l).
Proof. induction l as [|[k' v] l IH]; [reflexivity|]. cbn. destruct (String.eqb k k'); [reflexivity|exact IH]. Qed.
