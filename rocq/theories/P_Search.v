From Coq Require Import Lia.
From Verif Require Import SpecSearch.
From Verif Require P_Group.
Import ListNotations.
Local Open Scope nat_scope.

Section P.
Context {V M : Type}.
Variable fit : dictionary V -> result M.

Lemma dget_dset (d : dictionary V) k v k' : dget (dset d k v) k' = if String.eqb k' k then Some v else dget d k'.
Proof.
  induction d as [|(a, w) d IH]; cbn; [destruct (String.eqb k' k); auto|].
  destruct (String.eqb k a) eqn:E.
  - apply String.eqb_eq in E. subst a. cbn. destruct (String.eqb k' k); auto.
  - cbn. rewrite IH. destruct (String.eqb k' a) eqn:F; auto. apply String.eqb_eq in F. subst a.
    rewrite String.eqb_sym in E. rewrite E. auto.
Qed.
Lemma dget_keys (d : dictionary V) k : (exists v, dget d k = Some v) <-> In k (keys d).
Proof.
  induction d as [|(a, w) d IH]; cbn; [split; [intros (v & H); discriminate|tauto]|].
  destruct (String.eqb k a) eqn:E.
  - apply String.eqb_eq in E. subst. split; eauto.
  - apply String.eqb_neq in E. rewrite IH. split; [auto|intros [->|]; [congruence|auto]].
Qed.
Lemma keys_dset (d : dictionary V) k v : In k (keys d) -> keys (dset d k v) = keys d.
Proof.
  induction d as [|(a, w) d IH]; cbn; [tauto|]. intros H. destruct (String.eqb k a) eqn:E; auto.
  apply String.eqb_neq in E. cbn. f_equal. apply IH. destruct H; [congruence|auto].
Qed.

Lemma set_params_ok (item est : dictionary V) : NoDup (keys item) -> (forall k, In k (keys item) -> In k (keys est)) ->
  exists e, set_params est item = Ok e /\ configured est item e.
Proof.
  revert est. induction item as [|(k, v) item IH]; intros est N H; cbn.
  - exists est. split; auto. split; auto.
  - destruct (proj2 (dget_keys est k)) as (w & ->). { apply H. left; auto. }
    cbn in N. apply NoDup_cons_iff in N. destruct N as (Nk & N).
    assert (Ke : keys (dset est k v) = keys est) by (apply keys_dset; apply H; left; auto).
    destruct (IH (dset est k v)) as (e & Ee & C1 & C2 & C3); auto.
    { intros x Hx. rewrite Ke. apply H. right; auto. }
    exists e. split; auto. split; [congruence|]. split; [exact H|]. intros x. rewrite C3, dget_dset. cbn.
    destruct (String.eqb x k) eqn:E; [|destruct (dget item x); auto].
    apply String.eqb_eq in E. subst x. destruct (dget item k) as [u|] eqn:G; auto.
    exfalso. apply Nk. apply dget_keys. eauto.
Qed.
Lemma set_params_inv (item est e : dictionary V) : set_params est item = Ok e -> forall k, In k (keys item) -> In k (keys est).
Proof.
  revert est. induction item as [|(k, v) item IH]; intros est H x Hx; [destruct Hx|]. cbn in H.
  destruct (dget est k) as [w|] eqn:G; [|discriminate].
  assert (K : In k (keys est)) by (apply dget_keys; eauto). destruct Hx as [<-|Hx]; auto.
  rewrite <- (keys_dset est k v K). eapply IH; eauto.
Qed.
Lemma set_params_err (item est : dictionary V) k : In k (keys item) -> ~ In k (keys est) -> set_params est item = Err ValueError.
Proof.
  revert est. induction item as [|(a, v) item IH]; intros est H N; [destruct H|]. cbn.
  destruct (dget est a) as [w|] eqn:G; auto.
  assert (K : In a (keys est)) by (apply dget_keys; eauto).
  apply IH; [|rewrite keys_dset; auto]. destruct H as [<-|]; [contradiction|auto].
Qed.

Lemma scorer_keys (s : scorers V M) k : scorer s k = None <-> ~ In k (keys s).
Proof.
  induction s as [|(a, f) s IH]; cbn; [tauto|]. destruct (String.eqb k a) eqn:E.
  - apply String.eqb_eq in E. subst. split; [discriminate|intros H; exfalso; apply H; auto].
  - apply String.eqb_neq in E. rewrite IH. intuition.
Qed.
Lemma add_scores_ok m (s : scorers V M) item row : NoDup (keys s) -> add_scores m s item = Ok row ->
  (forall k f, scorer s k = Some f -> exists x, f m = Ok x /\ dget row k = Some x) /\
  (forall k, scorer s k = None -> dget row k = dget item k).
Proof.
  revert item. induction s as [|(a, f) s IH]; intros item N H; cbn in H.
  - injection H as <-. split; [discriminate|auto].
  - destruct (f m) as [x|] eqn:F; [|discriminate]. cbn [rbind] in H. cbn in N. apply NoDup_cons_iff in N. destruct N as (Na & N).
    destruct (IH _ N H) as (A & B). assert (Sa : scorer s a = None) by (apply scorer_keys; auto). split.
    + intros k g. cbn. destruct (String.eqb k a) eqn:E; [|apply A]. apply String.eqb_eq in E. subst k. intros [= <-].
      exists x. split; auto. rewrite B by auto. rewrite dget_dset, String.eqb_refl. auto.
    + intros k. cbn. destruct (String.eqb k a) eqn:E; [discriminate|]. intros Sk. rewrite B by auto. rewrite dget_dset, E. auto.
Qed.
Lemma add_scores_total m (s : scorers V M) item : (forall k f, In (k, f) s -> exists x, f m = Ok x) -> exists row, add_scores m s item = Ok row.
Proof.
  revert item. induction s as [|(a, f) s IH]; intros item H; cbn; [eauto|].
  destruct (H a f) as (x & ->); [left; auto|]. cbn [rbind]. apply IH. intros k g I. apply (H k g). right; auto.
Qed.

Lemma fit_single_ok est (s : scorers V M) item row : NoDup (keys item) -> NoDup (keys s) -> fit_single fit est s item = Ok row -> row_of fit est s item row.
Proof.
  intros N Ns H. unfold fit_single in H. destruct (set_params est item) as [e|] eqn:E; [|discriminate]. cbn [rbind] in H.
  destruct (fit e) as [m|] eqn:F; [|discriminate]. cbn [rbind] in H.
  destruct (set_params_ok item est N (set_params_inv _ _ _ E)) as (e' & E' & C). rewrite E in E'. injection E' as <-.
  exists e, m. split; auto. split; auto. apply add_scores_ok; auto.
Qed.

(** ** The grid *)
Lemma product_length (p : list (string * list V)) : List.length (product p) = combos p.
Proof.
  induction p as [|(k, vs) p IH]; auto. cbn [product combos fold_right snd]. fold (combos p).
  assert (G : forall l : list V, List.length (flat_map (fun v => map (fun d => (k, v) :: d) (product p)) l) = List.length l * combos p); [|apply G].
  induction l as [|v l IHl]; auto. cbn [flat_map List.length]. rewrite app_length, map_length, IHl. change (@List.length (list (string * V)) (product p)) with (@List.length (dictionary V) (product p)). rewrite IH. reflexivity.
Qed.
Lemma row_number_lt (p : list (string * list V)) ix : choice p ix -> row_number p ix < combos p.
Proof.
  induction 1 as [|x i p ix H F IH]; cbn; [lia|]. fold (combos p). nia.
Qed.
Lemma nth_error_flat {A B} (f : A -> list B) n (l : list A) i j a : (forall a, List.length (f a) = n) -> nth_error l i = Some a -> j < n ->
  nth_error (flat_map f l) (i * n + j) = nth_error (f a) j.
Proof.
  intros L. revert i. induction l as [|b l IH]; intros i H J; [destruct i; discriminate|]. cbn. destruct i; cbn in H.
  - injection H as <-. rewrite nth_error_app1; auto. rewrite L. auto.
  - rewrite nth_error_app2 by (rewrite L; lia). rewrite L. replace (S i * n + j - n) with (i * n + j) by lia. apply IH; auto.
Qed.
Lemma product_nth (p : list (string * list V)) ix : choice p ix -> exists d, nth_error (product p) (row_number p ix) = Some d /\ chosen p ix d.
Proof.
  induction 1 as [|x i p ix H F IH]; cbn [product row_number].
  - exists []. split; auto. split; [reflexivity|constructor].
  - destruct x as (k, vs). cbn [snd] in H. destruct IH as (d & E & C1 & C2).
    destruct (nth_error vs i) as [v|] eqn:Ev. 2:{ apply nth_error_None in Ev. lia. }
    exists ((k, v) :: d). split.
    + rewrite (nth_error_flat _ (combos p) vs i _ v); auto.
      * rewrite nth_error_map, E. auto.
      * intros a. rewrite map_length. exact (product_length p).
      * apply row_number_lt; auto.
    + split; [cbn; f_equal; auto|]. cbn. constructor; auto.
Qed.
Lemma choice_of_number (p : list (string * list V)) n : n < combos p -> exists ix, choice p ix /\ row_number p ix = n.
Proof.
  revert n. induction p as [|(k, vs) p IH]; intros n H.
  - exists []. split; [constructor|]. cbn in H |- *. lia.
  - cbn in H. fold (combos p) in H. assert (C : combos p <> 0) by (intros C; rewrite C in H; lia).
    destruct (IH (n mod combos p)) as (ix & A & B). { apply Nat.mod_upper_bound. auto. }
    exists (n / combos p :: ix). split.
    + constructor; auto. cbn [snd]. apply Nat.div_lt_upper_bound; auto. lia.
    + cbn. rewrite B. pose proof (Nat.div_mod n (combos p) C). lia.
Qed.
Lemma row_number_inj (p : list (string * list V)) ix jx : choice p ix -> choice p jx -> row_number p ix = row_number p jx -> ix = jx.
Proof.
  intros H. revert jx. induction H as [|x i p ix H F IH]; intros jx G E; inversion G; subst; auto.
  cbn in E. pose proof (row_number_lt _ _ F). pose proof (row_number_lt p l' ltac:(assumption)).
  assert (Q : i = y /\ row_number p ix = row_number p l').
  { assert (D : i = y). { destruct (Nat.lt_trichotomy i y) as [L|[L|L]]; auto; exfalso; nia. }
    subst; split; auto; lia. }
  destruct Q as (-> & R). f_equal. auto.
Qed.

Definition key_lt (x y : string * list V) : Prop := String.compare (fst x) (fst y) = Lt.
Lemma insert_perm (x : string * list V) l : Permutation (x :: l) (insert_key x l).
Proof. induction l as [|y l IH]; cbn; auto. destruct (String.leb _ _); auto. rewrite perm_swap. constructor. auto. Qed.
Lemma sort_perm (p : list (string * list V)) : Permutation p (sort_keys p).
Proof. induction p as [|x p IH]; cbn; auto. rewrite <- insert_perm. constructor. auto. Qed.
Lemma insert_sorted (x : string * list V) l : StronglySorted key_lt l -> ~ In (fst x) (keys l) -> StronglySorted key_lt (insert_key x l).
Proof.
  induction 1 as [|y l S IH F]; intros N; cbn; [repeat constructor|].
  unfold String.leb. destruct (String.compare (fst x) (fst y)) eqn:E.
  - apply String.compare_eq_iff in E. exfalso. apply N. left. auto.
  - constructor; [constructor; auto|]. constructor; auto. eapply Forall_impl; [|exact F]. intros z Z. eapply P_Group.scmp_trans; eauto.
  - constructor; [apply IH; intros I; apply N; right; auto|].
    assert (G : Forall (key_lt y) (x :: l)). { constructor; auto. apply P_Group.scmp_gt. auto. }
    eapply Permutation_Forall; [apply insert_perm|exact G].
Qed.
Lemma sort_sorted (p : list (string * list V)) : NoDup (keys p) -> StronglySorted key_lt (sort_keys p).
Proof.
  induction p as [|x p IH]; cbn; intros N; [constructor|]. apply NoDup_cons_iff in N. destruct N as (A & N).
  apply insert_sorted; auto. intros I. apply A. eapply Permutation_in; [|exact I]. apply Permutation_map. symmetry. apply sort_perm.
Qed.
Lemma keys_sorted_perm (p : list (string * list V)) : Permutation (keys p) (keys (sort_keys p)).
Proof. apply Permutation_map. apply sort_perm. Qed.
Lemma product_keys (p : list (string * list V)) d : In d (product p) -> keys d = keys p.
Proof.
  revert d. induction p as [|(k, vs) p IH]; cbn; intros d H; [destruct H as [<-|[]]; auto|].
  apply in_flat_map in H. destruct H as (v & _ & H). apply in_map_iff in H. destruct H as (e & <- & He). unfold keys. cbn [map fst]. f_equal. apply IH. exact He.
Qed.

Lemma grid_ok (ps : list (list (string * list V))) : (forall p x, In p ps -> In x p -> snd x <> []) ->
  parameter_grid ps = Ok (flat_map (fun p => product (sort_keys p)) ps).
Proof.
  intros H. unfold parameter_grid. destruct (existsb _ ps) eqn:E; auto. exfalso.
  apply existsb_exists in E. destruct E as (p & Ip & E). apply existsb_exists in E. destruct E as (x & Ix & E).
  apply (H p x Ip Ix). unfold no_values in E. destruct (snd x); auto; discriminate.
Qed.
Lemma grid_err (ps : list (list (string * list V))) p x : In p ps -> In x p -> snd x = [] -> parameter_grid ps = Err ValueError.
Proof.
  intros Ip Ix E. unfold parameter_grid. assert (H : existsb (existsb no_values) ps = true).
  { apply existsb_exists. exists p. split; auto. apply existsb_exists. exists x. split; auto. unfold no_values. rewrite E. auto. }
  rewrite H. auto.
Qed.
Lemma grid_inv (ps : list (list (string * list V))) g : parameter_grid ps = Ok g -> g = flat_map (fun p => product (sort_keys p)) ps.
Proof. unfold parameter_grid. destruct (existsb _ ps); congruence. Qed.

Theorem grid_one (p : list (string * list V)) : NoDup (keys p) -> (forall x, In x p -> snd x <> []) ->
  exists sp g, Permutation p sp /\ StronglySorted (fun x y => String.compare (fst x) (fst y) = Lt) sp /\ parameter_grid [p] = Ok g /\
    List.length g = combos sp /\
    (forall ix, choice sp ix -> exists d, nth_error g (row_number sp ix) = Some d /\ chosen sp ix d) /\
    (forall n, n < combos sp -> exists ix, choice sp ix /\ row_number sp ix = n) /\
    (forall ix jx, choice sp ix -> choice sp jx -> row_number sp ix = row_number sp jx -> ix = jx).
Proof.
  intros N H. exists (sort_keys p), (product (sort_keys p)). split; [apply sort_perm|]. split; [apply sort_sorted; auto|].
  split; [rewrite grid_ok; [cbn; rewrite app_nil_r; auto|intros q x [<-|[]]; auto]|].
  split; [apply product_length|]. split; [apply product_nth|]. split; [apply choice_of_number|apply row_number_inj].
Qed.
Theorem grid_several (ps : list (list (string * list V))) : (forall p x, In p ps -> In x p -> snd x <> []) ->
  exists gs, Forall2 (fun p g => parameter_grid [p] = Ok g) ps gs /\ parameter_grid ps = Ok (List.concat gs).
Proof.
  intros H. exists (map (fun p => product (sort_keys p)) ps). split.
  - induction ps as [|p ps IH]; cbn; constructor.
    + rewrite grid_ok; [cbn; rewrite app_nil_r; auto|intros q x [<-|[]]; apply H; left; auto].
    + apply IH. intros q x I. apply H. right; auto.
  - rewrite grid_ok by auto. f_equal. apply flat_map_concat_map.
Qed.

(** ** The search *)
Lemma all_ok_Forall2 {A B} (f : A -> result B) l r : all_ok f l = Ok r <-> Forall2 (fun a b => f a = Ok b) l r.
Proof.
  revert r. induction l as [|a l IH]; intros r; cbn.
  - split; [intros [= <-]; constructor|inversion 1; auto].
  - split.
    + destruct (f a) as [b|] eqn:E; [|discriminate]. cbn [rbind]. destruct (all_ok f l) as [bs|]; [|discriminate]. cbn [rbind]. intros [= <-].
      constructor; auto. apply IH. auto.
    + inversion 1; subst. rewrite H2. cbn [rbind]. rewrite (proj2 (IH l') H4). auto.
Qed.
Lemma grid_items (ps : list (list (string * list V))) g d : (forall p, In p ps -> NoDup (keys p)) -> parameter_grid ps = Ok g -> In d g ->
  NoDup (keys d) /\ exists p, In p ps /\ Permutation (keys p) (keys d).
Proof.
  intros N E I. apply grid_inv in E. subst g. apply in_flat_map in I. destruct I as (p & Ip & I). apply product_keys in I. rewrite I.
  assert (P := keys_sorted_perm p). split; [|eauto]. eapply Permutation_NoDup; eauto.
Qed.
Theorem search_rows est ps (s : scorers V M) rows : (forall p, In p ps -> NoDup (keys p)) -> NoDup (keys s) ->
  grid_search fit est ps s = Ok rows -> exists g, parameter_grid ps = Ok g /\ Forall2 (row_of fit est s) g rows.
Proof.
  intros N Ns H. unfold grid_search in H. destruct (parameter_grid ps) as [g|] eqn:E; [|discriminate]. cbn [rbind] in H.
  exists g. split; auto. apply all_ok_Forall2 in H.
  assert (G : forall d, In d g -> NoDup (keys d)) by (intros d I; eapply grid_items; eauto).
  clear E. induction H as [|d row g rows Hd F IH]; constructor.
  - apply fit_single_ok; auto. apply G. left; auto.
  - apply IH. intros x Hx. apply G. right; auto.
Qed.
Theorem search_total est ps (s : scorers V M) : (forall p, In p ps -> NoDup (keys p)) -> (forall p x, In p ps -> In x p -> snd x <> []) ->
  (forall p k, In p ps -> In k (keys p) -> In k (keys est)) ->
  (forall e, keys e = keys est -> exists m, fit e = Ok m /\ forall k f, In (k, f) s -> exists x, f m = Ok x) ->
  exists rows, grid_search fit est ps s = Ok rows.
Proof.
  intros N H K F. unfold grid_search. assert (E := grid_ok ps H). rewrite E. cbn [rbind].
  set (g := flat_map _ ps) in *. assert (G : forall d, In d g -> exists row, fit_single fit est s d = Ok row).
  { intros d I. destruct (grid_items ps g d N E I) as (Nd & p & Ip & P).
    destruct (set_params_ok d est Nd) as (e & Ee & C). { intros k Hk. apply (K p k Ip). eapply Permutation_in; [symmetry; exact P|auto]. }
    unfold fit_single. rewrite Ee. cbn [rbind]. destruct (F e (proj1 C)) as (m & -> & Q). cbn [rbind]. apply add_scores_total. auto. }
  clearbody g. clear E. induction g as [|d g IH]; [exists []; reflexivity|]. destruct (G d) as (row & Er); [left; auto|].
  destruct IH as (rows & Ers). { intros x Hx. apply G. right; auto. } exists (row :: rows). cbn. rewrite Er. cbn [rbind]. rewrite Ers. auto.
Qed.
Theorem search_unknown est p k (s : scorers V M) : NoDup (keys p) -> (forall x, In x p -> snd x <> []) -> In k (keys p) -> ~ In k (keys est) ->
  grid_search fit est [p] s = Err ValueError.
Proof.
  intros N H K U. unfold grid_search. rewrite grid_ok by (intros q x [<-|[]]; auto). cbn [rbind flat_map]. rewrite app_nil_r.
  assert (L : combos (sort_keys p) <> 0).
  { assert (Q : forall x, In x (sort_keys p) -> snd x <> []). { intros x I. apply H. eapply Permutation_in; [symmetry; apply sort_perm|auto]. }
    clear - Q. induction (sort_keys p) as [|x l IH]; cbn; [lia|]. fold (combos l). assert (combos l <> 0) by (apply IH; intros; apply Q; right; auto).
    assert (snd x <> []) by (apply Q; left; auto). destruct (snd x); [congruence|]. cbn. lia. }
  rewrite <- product_length in L. destruct (product (sort_keys p)) as [|d g] eqn:E; [cbn in L; lia|].
  cbn [all_ok]. unfold fit_single. rewrite (set_params_err d est k); auto.
  rewrite (product_keys (sort_keys p) d) by (rewrite E; left; auto). eapply Permutation_in; [apply keys_sorted_perm|auto].
Qed.

(** ** Several jobs *)
Lemma run_jobs_ok est (s : scorers V M) g rows order done : Forall2 (fun a b => fit_single fit est s a = Ok b) g rows -> (forall j, In j order -> j < List.length g) ->
  exists f, run_jobs fit est s g order done = Ok f /\ forall i, f i = if in_dec Nat.eq_dec i order then nth_error rows i else done i.
Proof.
  intros F. revert done. induction order as [|j order IH]; intros done H; cbn [run_jobs].
  - exists done. auto.
  - assert (Ej : exists b, nth_error rows j = Some b /\ fit_single fit est s (nth j g []) = Ok b).
    { specialize (H j (or_introl eq_refl)). clear IH. revert j H. induction F as [|a b g rows Hab F IH]; intros j H; [cbn in H; lia|].
      destruct j; cbn; [eauto|]. apply IH. cbn in H. lia. }
    destruct Ej as (b & Eb & ->). cbn [rbind].
    destruct (IH (fun i => if Nat.eqb i j then Some b else done i)) as (f & Ef & Hf). { intros x Hx. apply H. right; auto. }
    exists f. split; auto. intros i. rewrite Hf. destruct (in_dec Nat.eq_dec i order) as [I|I]; destruct (in_dec Nat.eq_dec i (j :: order)) as [J|J]; auto.
    + exfalso. apply J. right; auto.
    + destruct J as [<-|J]; [|contradiction]. rewrite Nat.eqb_refl. auto.
    + destruct (Nat.eqb_spec i j) as [->|]; auto. exfalso. apply J. left; auto.
Qed.
Lemma run_jobs_inv est (s : scorers V M) g order done f : run_jobs fit est s g order done = Ok f -> forall j, In j order -> exists b, fit_single fit est s (nth j g []) = Ok b.
Proof.
  revert done. induction order as [|j order IH]; intros done H i I; [destruct I|]. cbn in H.
  destruct (fit_single fit est s (nth j g [])) as [b|] eqn:E; [|discriminate]. cbn [rbind] in H. destruct I as [<-|I]; eauto.
Qed.
Theorem search_schedule est ps (s : scorers V M) g order : parameter_grid ps = Ok g -> Permutation order (seq 0 (List.length g)) ->
  forall rows, parallel_search fit est ps s order = Ok (map Some rows) <-> grid_search fit est ps s = Ok rows.
Proof.
  intros E P rows. unfold parallel_search, grid_search. rewrite E. cbn [rbind].
  assert (IO : forall j, In j order <-> j < List.length g).
  { intros j. split; intros H; [eapply Permutation_in in H; [|exact P]; apply in_seq in H; lia|].
    eapply Permutation_in; [symmetry; exact P|]. apply in_seq. lia. }
  assert (G : forall rows, Forall2 (fun a b => fit_single fit est s a = Ok b) g rows ->
     exists f, run_jobs fit est s g order (fun _ => None) = Ok f /\ map f (seq 0 (List.length g)) = map Some rows).
  { intros rs F. destruct (run_jobs_ok est s g rs order (fun _ => None) F) as (f & Ef & Hf). { intros; apply IO; auto. }
    exists f. split; auto. assert (L : List.length g = List.length rs) by (clear - F; induction F; cbn; auto).
    rewrite L in *. clear F. assert (H : forall i, i < List.length rs -> f i = nth_error rs i).
    { intros i Hi. rewrite Hf. destruct (in_dec Nat.eq_dec i order) as [|n]; auto. exfalso. apply n. apply IO. auto. }
    clear - H. assert (Q : forall k (l : list (dictionary V)), (forall i, i < List.length l -> f (k + i) = nth_error l i) -> map f (seq k (List.length l)) = map Some l).
    { intros k l. revert k. induction l as [|x l IH]; intros k Hl; auto. cbn. f_equal.
      - specialize (Hl 0). cbn in Hl. rewrite Nat.add_0_r in Hl. apply Hl. lia.
      - apply IH. intros i Hi. change (nth_error l i) with (nth_error (x :: l) (S i)). rewrite <- (Hl (S i)) by (cbn; lia). f_equal. lia. }
    apply (Q 0). auto. }
  split; intros H.
  - destruct (run_jobs fit est s g order (fun _ => None)) as [f|] eqn:R; [|discriminate]. cbn [rbind] in H. injection H as H.
    assert (A : exists rs, Forall2 (fun a b => fit_single fit est s a = Ok b) g rs).
    { assert (B : forall a, In a g -> exists b, fit_single fit est s a = Ok b).
      { intros a Ia. destruct (In_nth g a [] Ia) as (j & Hj & <-). eapply run_jobs_inv; eauto. apply IO. auto. }
      clear - B. induction g as [|a g IH]; [exists []; constructor|]. destruct (B a) as (b & Eb); [left; auto|]. destruct IH as (rs & F). { intros x Hx. apply B. right; auto. }
      exists (b :: rs). constructor; auto. }
    destruct A as (rs & F). destruct (G rs F) as (f' & R' & M'). injection R' as <-. rewrite H in M'.
    assert (rows = rs). { clear - M'. revert rs M'. induction rows as [|x l IH]; intros [|z rs] H; cbn in H; try discriminate; auto. injection H as -> H. f_equal. auto. }
    subst. apply all_ok_Forall2. auto.
  - apply all_ok_Forall2 in H. destruct (G rows H) as (f & -> & M'). cbn [rbind]. f_equal. auto.
Qed.
End P.
