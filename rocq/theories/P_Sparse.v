From Coq Require Import Lia.
From Verif Require Import SpecSparse NumFacts ArrFacts TriFacts BcastFacts P_Core Ex.
Local Open Scope nat_scope.

Lemma pos_eqb_eq p q : pos_eqb p q = true <-> p = q.
Proof.
  destruct p as (((i, c), o), d), q as (((i', c'), o'), d'). cbn. rewrite !andb_true_iff, !Nat.eqb_eq. split.
  - intros (((-> & ->) & ->) & ->). auto.
  - intros [= -> -> -> ->]. auto.
Qed.
Lemma pos_eqb_refl p : pos_eqb p p = true. Proof. apply pos_eqb_eq; auto. Qed.
Lemma pos_eqb_neq p q : p <> q -> pos_eqb p q = false.
Proof. intros H. destruct (pos_eqb p q) eqn:E; auto. apply pos_eqb_eq in E. contradiction. Qed.
Lemma pos_eqb_sym p q : pos_eqb p q = pos_eqb q p.
Proof. destruct (pos_eqb p q) eqn:E; symmetry; [apply pos_eqb_eq in E; subst; apply pos_eqb_refl|]. apply pos_eqb_neq. intros ->. rewrite pos_eqb_refl in E. discriminate. Qed.
Lemma same_cell_eq x y : same_cell x y = true <-> x = y.
Proof.
  destruct x as [a|], y as [b|]; cbn; try (split; congruence). destruct (Qc_eqb_spec a b); split; congruence.
Qed.
Lemma existsb_pos p l : existsb (pos_eqb p) l = true <-> In p l.
Proof. rewrite existsb_exists. split; [intros (x & Hx & E); apply pos_eqb_eq in E; subst; auto|]. intros H. exists p. split; auto. apply pos_eqb_refl. Qed.

Lemma all_pos_In n0 n1 n2 n3 i c o d : In (i, c, o, d) (all_pos n0 n1 n2 n3) <-> i < n0 /\ c < n1 /\ o < n2 /\ d < n3.
Proof.
  unfold all_pos. rewrite in_flat_map. split.
  - intros (i' & Hi & H). apply in_flat_map in H. destruct H as (c' & Hc & H). apply in_flat_map in H. destruct H as (o' & Ho & H). apply in_map_iff in H. destruct H as (d' & [= <- <- <- <-] & Hd).
    rewrite in_seq in *. lia.
  - intros (Hi & Hc & Ho & Hd). exists i. split; [apply in_seq; lia|]. apply in_flat_map. exists c. split; [apply in_seq; lia|]. apply in_flat_map. exists o. split; [apply in_seq; lia|].
    apply in_map_iff. exists d. split; auto. apply in_seq; lia.
Qed.
Lemma NoDup_app' {A} (l m : list A) : NoDup l -> NoDup m -> (forall x, In x l -> ~ In x m) -> NoDup (l ++ m).
Proof.
  induction 1 as [|x l N ND IH]; intros M D; cbn; auto. constructor.
  - rewrite in_app_iff. intros [H|H]; [auto|]. apply (D x); cbn; auto.
  - apply IH; auto. intros z Hz. apply D. cbn; auto.
Qed.
Lemma NoDup_app_inv {A} (l m : list A) : NoDup (l ++ m) -> NoDup l /\ NoDup m.
Proof. induction l as [|x l IH]; cbn; intros N; [split; [constructor|auto]|]. inversion N as [|? ? N1 N2]; subst. destruct (IH N2). split; auto. constructor; auto. intros I. apply N1, in_app_iff. auto. Qed.
Lemma NoDup_flat_map {A B} (f : A -> list B) l : NoDup l -> (forall x, In x l -> NoDup (f x)) -> (forall x z b, In b (f x) -> In b (f z) -> x = z) -> NoDup (flat_map f l).
Proof.
  induction 1 as [|x l N ND IH]; intros F D; cbn; [constructor|]. apply NoDup_app'.
  - apply F; left; auto.
  - apply IH; auto. intros z Hz. apply F; right; auto.
  - intros b Hb H. apply in_flat_map in H. destruct H as (z & Hz & H). rewrite (D x z b Hb H) in N. contradiction.
Qed.
Lemma NoDup_map' {A B} (f : A -> B) l : (forall x z, f x = f z -> x = z) -> NoDup l -> NoDup (map f l).
Proof. intros I. induction 1 as [|x l N ND IH]; cbn; constructor; auto. rewrite in_map_iff. intros (z & E & Hz). apply I in E. subst. contradiction. Qed.
Lemma all_pos_NoDup n0 n1 n2 n3 : NoDup (all_pos n0 n1 n2 n3).
Proof.
  unfold all_pos. apply NoDup_flat_map; [apply seq_NoDup| |].
  - intros i _. apply NoDup_flat_map; [apply seq_NoDup| |].
    + intros c _. apply NoDup_flat_map; [apply seq_NoDup| |].
      * intros o _. apply NoDup_map'; [congruence|apply seq_NoDup].
      * intros o o' p H H'. apply in_map_iff in H, H'. destruct H as (? & <- & _), H' as (? & E & _). congruence.
    + intros c c' p H H'. apply in_flat_map in H, H'. destruct H as (? & _ & H), H' as (? & _ & H'). apply in_map_iff in H, H'. destruct H as (? & <- & _), H' as (? & E & _). congruence.
  - intros i i' p H H'. apply in_flat_map in H, H'. destruct H as (? & _ & H), H' as (? & _ & H'). apply in_flat_map in H, H'. destruct H as (? & _ & H), H' as (? & _ & H').
    apply in_map_iff in H, H'. destruct H as (? & <- & _), H' as (? & E & _). congruence.
Qed.

(** * Looking cells up *)
Lemma lookup_In p l v : lookup p l = Some v -> In (p, v) l.
Proof. induction l as [|(q, w) l IH]; cbn; [discriminate|]. destruct (pos_eqb q p) eqn:E; [|auto]. apply pos_eqb_eq in E. intros [= ->]. subst. auto. Qed.
Lemma lookup_None p l : lookup p l = None <-> ~ In p (map fst l).
Proof.
  induction l as [|(q, w) l IH]; cbn; [tauto|]. destruct (pos_eqb q p) eqn:E.
  - apply pos_eqb_eq in E. subst. split; [discriminate|tauto].
  - rewrite IH. split; [|tauto]. intros H [->|H']; auto. rewrite pos_eqb_refl in E. discriminate.
Qed.
Lemma lookup_NoDup p v l : NoDup (map fst l) -> In (p, v) l -> lookup p l = Some v.
Proof.
  induction l as [|(q, w) l IH]; cbn; [tauto|]. intros N. inversion N as [|? ? N1 N2]; subst. intros [[= -> ->]|H]; [rewrite pos_eqb_refl; auto|].
  rewrite pos_eqb_neq; auto. intros ->. apply N1. apply in_map_iff. exists (p, v). auto.
Qed.
Lemma lookup_tab (P : pos * cell -> bool) g l p : lookup p (filter P (map (fun q => (q, g q)) l)) = if existsb (pos_eqb p) l && P (p, g p) then Some (g p) else None.
Proof.
  induction l as [|q l IH]; cbn [map filter existsb]; auto. destruct (pos_eqb p q) eqn:E.
  - apply pos_eqb_eq in E. subst q. cbn [orb andb]. destruct (P (p, g p)) eqn:EP; cbn [lookup]; [rewrite pos_eqb_refl; auto|]. rewrite IH, andb_false_r. auto.
  - cbn [orb]. destruct (P (q, g q)); cbn [lookup]; auto. rewrite pos_eqb_sym, E. auto.
Qed.
Lemma lookup_map (h : cell -> cell) l p : lookup p (map (fun e => (fst e, h (snd e))) l) = option_map h (lookup p l).
Proof. induction l as [|(q, w) l IH]; cbn; auto. destruct (pos_eqb q p); auto. Qed.
Lemma lookup_filter (P : cell -> bool) l p : NoDup (map fst l) -> lookup p (filter (fun e => P (snd e)) l) = match lookup p l with Some v => if P v then Some v else None | None => None end.
Proof.
  induction l as [|(q, w) l IH]; cbn; auto. intros N. inversion N as [|? ? N1 N2]; subst. destruct (pos_eqb q p) eqn:E.
  - apply pos_eqb_eq in E. subst q. destruct (P w); cbn; [rewrite pos_eqb_refl; auto|]. rewrite IH by auto.
    rewrite (proj2 (lookup_None p l)); auto.
  - destruct (P w); cbn; rewrite ?E; auto.
Qed.
Lemma fst_filter_NoDup (P : pos * cell -> bool) l : NoDup (map fst l) -> NoDup (map fst (filter P l)).
Proof.
  induction l as [|e l IH]; cbn; auto. intros N. inversion N as [|? ? N1 N2]; subst. destruct (P e); cbn; auto. constructor; auto.
  rewrite in_map_iff. intros (x & E & H). apply filter_In in H. apply N1. rewrite <- E. apply in_map. tauto.
Qed.
Lemma map_fst_tab g (l : list pos) : map fst (map (fun q => (q, g q) : pos * cell) l) = l.
Proof. rewrite map_map. cbn. apply map_id. Qed.
Lemma NoDup_filter' {A} (P : A -> bool) l : NoDup l -> NoDup (filter P l).
Proof. induction 1 as [|x l N ND IH]; cbn; [constructor|]. destruct (P x); auto. constructor; auto. rewrite filter_In. tauto. Qed.

(** * Conversion *)
Lemma of_dense_get f a i c o d : i < ax0 a -> c < ax1 a -> o < ax2 a -> d < ax3 a -> coo_get (of_dense f a) (i, c, o, d) = av a i c o d.
Proof.
  intros Hi Hc Ho Hd. unfold coo_get, of_dense. cbn [entries fill].
  change (map _ (all_pos (ax0 a) (ax1 a) (ax2 a) (ax3 a))) with (map (fun p : pos => (let '(i, c, o, d) := p in (p, av a i c o d))) (all_pos (ax0 a) (ax1 a) (ax2 a) (ax3 a))).
  rewrite (map_ext _ (fun p => (p, (let '(i, c, o, d) := p in av a i c o d)))) by (intros (((?, ?), ?), ?); auto).
  rewrite lookup_tab. rewrite (proj2 (existsb_pos _ _)) by (apply all_pos_In; auto). cbn [andb snd].
  destruct (same_cell (av a i c o d) f) eqn:E; cbn [negb]; auto. apply same_cell_eq in E. auto.
Qed.
Lemma of_dense_entries f a : NoDup (map fst (entries (of_dense f a))) /\ (forall i c o d x, In ((i, c, o, d), x) (entries (of_dense f a)) -> (i < ax0 a /\ c < ax1 a /\ o < ax2 a /\ d < ax3 a) /\ x = av a i c o d /\ x <> f).
Proof.
  unfold of_dense. cbn [entries].
  rewrite (map_ext _ (fun p => (p, (let '(i, c, o, d) := p in av a i c o d)))) by (intros (((?, ?), ?), ?); auto). split.
  - apply fst_filter_NoDup. rewrite map_fst_tab. apply all_pos_NoDup.
  - intros i c o d x H. apply filter_In in H. destruct H as (H & N). apply in_map_iff in H. destruct H as (q & [= -> <-] & Hq). apply all_pos_In in Hq. split; auto. split; auto.
    cbn in N. intros E. apply (proj2 (same_cell_eq _ _)) in E. rewrite E in N. discriminate.
Qed.
Lemma sp_array_ok a : 1 <= ax3 a -> sound (sp_array a) /\ holds (sp_array a) a.
Proof.
  intros H. destruct (of_dense_entries None a) as (N & I). split.
  - constructor; auto.
    + intros i v o d x Hx. apply I in Hx. tauto.
    + intros (((i, v), o), d) x Hx. apply I in Hx. tauto.
  - constructor; auto. intros. apply of_dense_get; auto.
Qed.
Lemma todense_holds c : holds c (todense c).
Proof. constructor; auto. Qed.

(** * Elementwise operations *)
Lemma bdim_ok m n r : bdim m n = Ok r -> (forall x, x < r -> bidx m x < m /\ bidx n x < n).
Proof.
  unfold bdim, bidx. intros H x Hx.
  assert (C : (m = r \/ m = 1) /\ (n = r \/ n = 1)).
  { destruct (Nat.eqb_spec m n); [injection H; lia|]. destruct (Nat.eqb_spec m 1); [injection H; lia|]. destruct (Nat.eqb_spec n 1); [injection H; lia|discriminate]. }
  destruct (Nat.eqb_spec m 1), (Nat.eqb_spec n 1); lia.
Qed.
(** The relation without the conditions on the fill value. *)
Record coords_ok (c : coo) : Prop := {
  ck_nodup : NoDup (map fst (entries c));
  ck_range : forall i v o d x, In ((i, v, o, d), x) (entries c) -> i < s0 c /\ v < s1 c /\ o < s2 c /\ d < s3 c }.
Lemma sound_coords c : sound c -> coords_ok c.
Proof. intros []. constructor; auto. Qed.
Lemma elemwise_get f a b a' b' c : holds a a' -> holds b b' -> sp_elemwise f a b = Ok c ->
  coords_ok c /\ fill c = f (fill a) (fill b) /\ exists r, bmap2 f a' b' = Ok r /\ holds c r /\ s3 c = ax3 r.
Proof.
  intros A B. unfold sp_elemwise, bmap2. rewrite (hd_0 _ _ A), (hd_1 _ _ A), (hd_2 _ _ A), (hd_3 _ _ A), (hd_0 _ _ B), (hd_1 _ _ B), (hd_2 _ _ B), (hd_3 _ _ B).
  destruct (bdim (ax0 a') (ax0 b')) as [n0|] eqn:E0; cbn [rbind]; [|discriminate]. destruct (bdim (ax1 a') (ax1 b')) as [n1|] eqn:E1; cbn [rbind]; [|discriminate].
  destruct (bdim (ax2 a') (ax2 b')) as [n2|] eqn:E2; cbn [rbind]; [|discriminate]. destruct (bdim (ax3 a') (ax3 b')) as [n3|] eqn:E3; cbn [rbind]; [|discriminate].
  intros [= <-]. cbn [fill]. split; [|split; auto].
  - constructor; cbn [entries s0 s1 s2 s3].
    + apply fst_filter_NoDup. rewrite map_fst_tab. apply NoDup_filter', all_pos_NoDup.
    + intros i v o d x H. apply filter_In in H. destruct H as (H & _). apply in_map_iff in H. destruct H as (q & [= -> <-] & Hq). apply filter_In in Hq. apply all_pos_In. tauto.
  - eexists. split; [reflexivity|]. split; [|reflexivity]. constructor; auto. cbn [ax0 ax1 ax2 ax3 av]. intros i v o d Hi Hv Ho Hd.
    unfold coo_get. cbn [entries fill]. rewrite lookup_tab.
    assert (I : In (i, v, o, d) (all_pos n0 n1 n2 n3)) by (apply all_pos_In; auto).
    destruct (bdim_ok _ _ _ E0 i Hi) as (A0 & B0), (bdim_ok _ _ _ E1 v Hv) as (A1 & B1), (bdim_ok _ _ _ E2 o Ho) as (A2 & B2), (bdim_ok _ _ _ E3 d Hd) as (A3 & B3).
    assert (Ga : coo_get a (bpos a (i, v, o, d)) = av a' (bidx (ax0 a') i) (bidx (ax1 a') v) (bidx (ax2 a') o) (bidx (ax3 a') d)).
    { unfold bpos. rewrite (hd_0 _ _ A), (hd_1 _ _ A), (hd_2 _ _ A), (hd_3 _ _ A). apply (hd_cell _ _ A); auto. }
    assert (Gb : coo_get b (bpos b (i, v, o, d)) = av b' (bidx (ax0 b') i) (bidx (ax1 b') v) (bidx (ax2 b') o) (bidx (ax3 b') d)).
    { unfold bpos. rewrite (hd_0 _ _ B), (hd_1 _ _ B), (hd_2 _ _ B), (hd_3 _ _ B). apply (hd_cell _ _ B); auto. }
    rewrite <- Ga, <- Gb. cbn [snd].
    destruct (stored a (bpos a (i, v, o, d)) || stored b (bpos b (i, v, o, d))) eqn:St.
    + assert (existsb (pos_eqb (i, v, o, d)) (filter (fun p => stored a (bpos a p) || stored b (bpos b p)) (all_pos n0 n1 n2 n3)) = true) as -> by (apply existsb_pos; apply filter_In; auto).
      cbn [andb]. destruct (same_cell _ (f (fill a) (fill b))) eqn:E; cbn [negb]; auto. apply same_cell_eq in E. auto.
    + assert (existsb (pos_eqb (i, v, o, d)) (filter (fun p => stored a (bpos a p) || stored b (bpos b p)) (all_pos n0 n1 n2 n3)) = false) as ->.
      { destruct (existsb _ _) eqn:E; auto. apply existsb_pos in E. apply filter_In in E. destruct E; congruence. }
      cbn [andb]. apply orb_false_iff in St. unfold stored, coo_get in *. destruct (lookup (bpos a (i, v, o, d)) (entries a)), (lookup (bpos b (i, v, o, d)) (entries b)); destruct St; try discriminate. auto.
Qed.
Lemma elemwise_err f a b a' b' e : holds a a' -> holds b b' -> sp_elemwise f a b = Err e -> bmap2 f a' b' = Err e.
Proof.
  intros A B. unfold sp_elemwise, bmap2. rewrite (hd_0 _ _ A), (hd_1 _ _ A), (hd_2 _ _ A), (hd_3 _ _ A), (hd_0 _ _ B), (hd_1 _ _ B), (hd_2 _ _ B), (hd_3 _ _ B).
  destruct (bdim (ax0 a') (ax0 b')); cbn [rbind]; [|intros [= ->]; auto]. destruct (bdim (ax1 a') (ax1 b')); cbn [rbind]; [|intros [= ->]; auto].
  destruct (bdim (ax2 a') (ax2 b')); cbn [rbind]; [|intros [= ->]; auto]. destruct (bdim (ax3 a') (ax3 b')); cbn [rbind]; [|intros [= ->]; auto]. discriminate.
Qed.
(** An entry is the cell it stands for. *)
Lemma entry_get c p x : coords_ok c -> In (p, x) (entries c) -> coo_get c p = x.
Proof. intros C H. unfold coo_get. rewrite (lookup_NoDup p x); auto. apply (ck_nodup _ C). Qed.
Lemma elemwise_entry f a b c p x : sp_elemwise f a b = Ok c -> In (p, x) (entries c) -> x = f (coo_get a (bpos a p)) (coo_get b (bpos b p)) /\ x <> fill c.
Proof.
  unfold sp_elemwise. destruct (bdim (s0 a) (s0 b)); cbn [rbind]; [|discriminate]. destruct (bdim (s1 a) (s1 b)); cbn [rbind]; [|discriminate].
  destruct (bdim (s2 a) (s2 b)); cbn [rbind]; [|discriminate]. destruct (bdim (s3 a) (s3 b)); cbn [rbind]; [|discriminate]. intros [= <-]. cbn [entries fill].
  intros H. apply filter_In in H. destruct H as (H & N). apply in_map_iff in H. destruct H as (q & [= -> <-] & Hq). split; auto.
  cbn [snd] in N. intros E. apply (proj2 (same_cell_eq _ _)) in E. rewrite E in N. discriminate.
Qed.

(** Every cell of the array is a number. *)
Definition nonan (c : coo) : Prop := forall p x, In (p, x) (entries c) -> x <> None.
Definition full (c : coo) : Prop := fill c <> None /\ nonan c.
Lemma full_get c p : full c -> exists q, coo_get c p = Some q.
Proof. intros (F & E). unfold coo_get. destruct (lookup p (entries c)) as [v|] eqn:L; [apply lookup_In in L; apply E in L; destruct v; [eauto|congruence]|destruct (fill c); [eauto|congruence]]. Qed.
Lemma elemwise_full f a b c : (forall x y, exists z, f (Some x) (Some y) = Some z) -> full a -> full b -> sp_elemwise f a b = Ok c -> full c.
Proof.
  intros T A B E. split.
  - assert (fill c = f (fill a) (fill b)) as ->.
    { unfold sp_elemwise in E. destruct (bdim (s0 a) (s0 b)); cbn [rbind] in E; [|discriminate]. destruct (bdim (s1 a) (s1 b)); cbn [rbind] in E; [|discriminate].
      destruct (bdim (s2 a) (s2 b)); cbn [rbind] in E; [|discriminate]. destruct (bdim (s3 a) (s3 b)); cbn [rbind] in E; [|discriminate]. injection E as <-. auto. }
    destruct A as (A & _), B as (B & _). destruct (fill a), (fill b); try congruence. destruct (T q q0) as (? & ->). discriminate.
  - intros p x H. destruct (elemwise_entry _ _ _ _ _ _ E H) as (-> & _). destruct (full_get a (bpos a p) A) as (? & ->), (full_get b (bpos b p) B) as (? & ->). destruct (T x x0) as (? & ->). discriminate.
Qed.
Lemma nan_to_num_ok c a : coords_ok c -> holds c a -> (fill c = None \/ fill c = Some 0%Qc) ->
  coords_ok (sp_nan_to_num c) /\ full (sp_nan_to_num c) /\ fill (sp_nan_to_num c) = Some 0%Qc /\ holds (sp_nan_to_num c) (map_arr (fun x => Some (nz x)) a).
Proof.
  intros C H F. unfold sp_nan_to_num. split; [|split; [|split]]; auto.
  - constructor; cbn [entries with_entries s0 s1 s2 s3].
    + rewrite map_map. cbn. apply (ck_nodup _ C).
    + intros i v o d x I. apply in_map_iff in I. destruct I as ((q, w) & [= -> <-] & I). apply (ck_range _ C _ _ _ _ _ I).
  - split; [discriminate|]. intros p x I. cbn [entries with_entries] in I. apply in_map_iff in I. destruct I as (e & [= <- <-] & _). discriminate.
  - constructor; try apply H. intros i v o d Hi Hv Ho Hd. cbn [map_arr av]. rewrite <- (hd_cell _ _ H) by auto. unfold coo_get. cbn [entries with_entries fill].
    rewrite (lookup_map (fun x => Some (nz x))). destruct (lookup (i, v, o, d) (entries c)); cbn [option_map]; auto. destruct F as [-> | ->]; auto.
Qed.
Lemma n2n_ok c a : coords_ok c -> holds c a -> (forall p x, In (p, x) (entries c) -> x <> None) -> 1 <= s3 c ->
  sound (sp_num_to_nan c) /\ holds (sp_num_to_nan c) (map_arr n2n a).
Proof.
  intros C H N L. unfold sp_num_to_nan, sp_num_to_value. destruct (zero_cell (fill c) || is_nan (fill c)) eqn:Z.
  - split.
    + constructor; cbn [entries with_entries s0 s1 s2 s3 fill]; auto.
      * apply fst_filter_NoDup, (ck_nodup _ C).
      * intros i v o d x I. apply filter_In in I. apply (ck_range _ C _ _ _ _ _ (proj1 I)).
      * intros p x I. apply filter_In in I. apply (N p). tauto.
    + constructor; try apply H. intros i v o d Hi Hv Ho Hd. cbn [map_arr av]. rewrite <- (hd_cell _ _ H) by auto. unfold coo_get. cbn [entries with_entries fill].
      rewrite (lookup_filter (fun x => negb (zero_cell x))) by apply (ck_nodup _ C). destruct (lookup (i, v, o, d) (entries c)) as [[q|]|]; cbn [zero_cell n2n negb].
      * destruct (Qc_eqb q 0); auto.
      * auto.
      * destruct (fill c) as [q|]; cbn [zero_cell is_nan orb n2n] in *; auto. rewrite orb_false_r in Z. rewrite Z. auto.
  - set (b := map_arr (fun x => n2n (Some (nz x))) (todense c)). destruct (sp_array_ok b L) as (S & Hb). split; [exact S|].
    constructor; try apply H. intros i v o d Hi Hv Ho Hd. cbn [map_arr ax0 ax1 ax2 ax3] in Hi, Hv, Ho, Hd. rewrite <- (hd_0 _ _ H) in Hi. rewrite <- (hd_1 _ _ H) in Hv. rewrite <- (hd_2 _ _ H) in Ho. rewrite <- (hd_3 _ _ H) in Hd.
    change (of_dense None b) with (sp_array b). rewrite (hd_cell _ _ Hb i v o d) by auto. cbn [map_arr av b todense]. rewrite (hd_cell _ _ H); try (rewrite <- ?(hd_0 _ _ H), <- ?(hd_1 _ _ H), <- ?(hd_2 _ _ H), <- ?(hd_3 _ _ H); auto; fail).
    destruct (av a i v o d); auto.
Qed.

(** * Sums *)
Definition coord (k : nat) (p : pos) : nat := let '(i, c, o, d) := p in match k with 0 => i | 1 => c | 2 => o | _ => d end.
Lemma set_coord_self k p j : set_coord k (coord k p) (set_coord k j p) = p.
Proof. destruct p as (((i, c), o), d), k as [|[|[|k]]]; auto. Qed.
Lemma set_coord_twice k p i j : set_coord k i (set_coord k j p) = set_coord k i p.
Proof. destruct p as (((?, ?), ?), ?), k as [|[|[|k]]]; auto. Qed.
Lemma coord_set k p j : coord k (set_coord k j p) = j.
Proof. destruct p as (((?, ?), ?), ?), k as [|[|[|k]]]; auto. Qed.
Definition or_nan (x : option cell) : cell := match x with Some v => v | None => None end.
Lemma csum_lookup k n l p : set_coord k 0 p = p -> NoDup (map fst l) -> (forall q x, In (q, x) l -> coord k q < n /\ x <> None) ->
  csum (map snd (filter (fun e => pos_eqb (set_coord k 0 (fst e)) p) l)) = Some (sumn n (fun j => nz (or_nan (lookup (set_coord k j p) l)))).
Proof.
  intros P. induction l as [|(q, v) l IH]; intros N F.
  - cbn. f_equal. symmetry. apply sumn_zero. auto.
  - inversion N as [|? ? N1 N2]; subst. specialize (IH N2 (fun q' x' H => F q' x' (or_intror H))). destruct (F q v (or_introl eq_refl)) as (Lq & Nv). destruct v as [x|]; [|congruence].
    cbn [filter fst]. destruct (pos_eqb (set_coord k 0 q) p) eqn:E.
    + apply pos_eqb_eq in E. cbn [map csum fold_right snd]. fold (csum (map snd (filter (fun e => pos_eqb (set_coord k 0 (fst e)) p) l))). rewrite IH. cbn [cadd]. f_equal.
      rewrite (sumn_ext n (fun j => nz (or_nan (lookup (set_coord k j p) ((q, Some x) :: l)))) (fun j => (if j =? coord k q then x else 0) + nz (or_nan (lookup (set_coord k j p) l)))%Qc).
      * rewrite sumn_plus. f_equal. rewrite (sumn_single n (coord k q)); auto; [rewrite Nat.eqb_refl; auto|]. intros j Hj Nj. rewrite (proj2 (Nat.eqb_neq _ _) Nj). auto.
      * intros j Hj. cbn [lookup]. destruct (Nat.eqb_spec j (coord k q)) as [->|D].
        -- assert (Eq : set_coord k (coord k q) p = q) by (rewrite <- E, set_coord_twice; rewrite <- (set_coord_twice k q (coord k q) 0); apply set_coord_self).
           rewrite Eq, pos_eqb_refl. cbn [or_nan nz]. rewrite (proj2 (lookup_None q l) N1). cbn. ring.
        -- rewrite pos_eqb_neq; [ring|]. intros ->. apply D. rewrite coord_set. auto.
    + rewrite IH. f_equal. apply sumn_ext. intros j Hj. cbn [lookup]. rewrite pos_eqb_neq; auto. intros ->. rewrite set_coord_twice, P, pos_eqb_refl in E. discriminate.
Qed.
Lemma distinct_In l p : In p (distinct l) <-> In p l.
Proof.
  induction l as [|q l IH]; cbn; [tauto|]. destruct (existsb (pos_eqb q) l) eqn:E; cbn; rewrite IH; [|tauto]. apply existsb_pos in E. split; [auto|]. intros [<-|]; auto.
Qed.
Lemma distinct_NoDup l : NoDup (distinct l).
Proof. induction l as [|q l IH]; cbn; [constructor|]. destruct (existsb (pos_eqb q) l) eqn:E; auto. constructor; auto. rewrite distinct_In. intros H. apply existsb_pos in H. congruence. Qed.
Lemma filter_true' {A} (l : list A) : filter (fun _ => true) l = l.
Proof. induction l; cbn; congruence. Qed.
Lemma filter_none {A} (P : A -> bool) l : (forall x, In x l -> P x = false) -> filter P l = [].
Proof. induction l as [|x l IH]; cbn; auto. intros H. rewrite (H x) by auto. auto. Qed.
Lemma sum_ok k c a : coords_ok c -> holds c a -> (fill c = None \/ fill c = Some 0%Qc) -> (forall p x, In (p, x) (entries c) -> x <> None) ->
  coords_ok (sp_nansum k c) /\ full (sp_nansum k c) /\ fill (sp_nansum k c) = Some 0%Qc /\ holds (sp_nansum k c) (nansum_axis k a) /\ (1 <= s3 c -> 1 <= s3 (sp_nansum k c)).
Proof.
  intros C H F N. set (r := sp_nansum k c).
  assert (Er : entries r = map (fun p => (p, csum (map snd (filter (fun e => pos_eqb (set_coord k 0 (fst e)) p) (entries c))))) (distinct (map (fun e => set_coord k 0 (fst e)) (entries c)))) by reflexivity.
  set (n := match k with 0 => s0 c | 1 => s1 c | 2 => s2 c | _ => s3 c end).
  assert (Rg : forall q x, In (q, x) (entries c) -> coord k q < n /\ x <> None).
  { intros (((i, v), o), d) x I. split; [|eapply N; eauto]. apply (ck_range _ C) in I. unfold n, coord. destruct k as [|[|[|k]]]; tauto. }
  assert (Rr : coords_ok r).
  { constructor.
    - rewrite Er. rewrite (map_fst_tab (fun p => csum (map snd (filter (fun e => pos_eqb (set_coord k 0 (fst e)) p) (entries c))))). apply distinct_NoDup.
    - intros i v o d x I. rewrite Er in I. apply in_map_iff in I. destruct I as (q & [= -> <-] & I). apply (proj1 (distinct_In _ _)) in I. apply in_map_iff in I. destruct I as (((((i', v'), o'), d'), x) & E & I).
      apply (ck_range _ C) in I. cbn [fst] in E. unfold r, sp_nansum, sp_sum. cbn [s0 s1 s2 s3 with_entries]. destruct k as [|[|[|k]]]; cbn in E |- *; injection E as <- <- <- <-; lia. }
  assert (G : forall p, set_coord k 0 p = p -> coo_get r p = Some (sumn n (fun j => nz (or_nan (lookup (set_coord k j p) (entries c)))))).
  { intros p P. rewrite <- (csum_lookup k n (entries c) p P (ck_nodup _ C) Rg). unfold coo_get. rewrite Er.
    pose proof (lookup_tab (fun _ => true) (fun p => csum (map snd (filter (fun e => pos_eqb (set_coord k 0 (fst e)) p) (entries c)))) (distinct (map (fun e => set_coord k 0 (fst e)) (entries c))) p) as T.
    rewrite filter_true' in T. rewrite T, andb_true_r. destruct (existsb (pos_eqb p) _) eqn:E; auto.
    change (fill r) with (Some 0%Qc). rewrite filter_none; auto.
    intros e I. destruct (pos_eqb (set_coord k 0 (fst e)) p) eqn:Pe; auto. exfalso. apply pos_eqb_eq in Pe. assert (existsb (pos_eqb p) (distinct (map (fun e => set_coord k 0 (fst e)) (entries c))) = true); [|congruence].
    apply existsb_pos, distinct_In, in_map_iff. eauto. }
  assert (Nz : forall i v o d, i < ax0 a -> v < ax1 a -> o < ax2 a -> d < ax3 a -> nz (or_nan (lookup (i, v, o, d) (entries c))) = nz (av a i v o d)).
  { intros i v o d Hi Hv Ho Hd. rewrite <- (hd_cell _ _ H) by auto. unfold coo_get. destruct (lookup (i, v, o, d) (entries c)); auto. destruct F as [-> | ->]; auto. }
  split; auto. split.
  { split; [discriminate|]. intros p x I. rewrite Er in I. apply in_map_iff in I. destruct I as (q & [= -> <-] & I).
    apply (proj1 (distinct_In _ _)) in I. apply in_map_iff in I. destruct I as (e & E & I). assert (P : set_coord k 0 p = p) by (rewrite <- E, set_coord_twice; auto).
    pose proof (csum_lookup k n (entries c) p P (ck_nodup _ C) Rg) as Q. intros Q'. assert (None = Some (sumn n (fun j => nz (or_nan (lookup (set_coord k j p) (entries c)))))) by (etransitivity; [symmetry; exact Q'|exact Q]). discriminate. }
  split; auto. split.
  - assert (n = match k with 0 => ax0 a | 1 => ax1 a | 2 => ax2 a | _ => ax3 a end) as En by (unfold n; destruct k as [|[|[|k]]]; apply H).
    destruct H as [H0 H1 H2 H3 _]. constructor; unfold r, sp_nansum, sp_sum; cbn [s0 s1 s2 s3 with_entries]; try (destruct k as [|[|[|k]]]; cbn; auto; fail).
    intros i v o d Hi Hv Ho Hd. fold (sp_sum k (with_entries c (Some 0%Qc) (entries c))). change (sp_sum k (with_entries c (Some 0%Qc) (entries c))) with r.
    assert (P : set_coord k 0 (i, v, o, d) = (i, v, o, d)). { destruct k as [|[|[|k]]]; cbn in *; f_equal; f_equal; try f_equal; lia. }
    rewrite G by auto. rewrite En. unfold nansum_axis, nansum. destruct k as [|[|[|k]]]; cbn [av set_coord] in *; cbn in Hi, Hv, Ho, Hd; f_equal; apply sumn_ext; intros j Hj; apply Nz; auto.
  - intros L. unfold r, sp_nansum, sp_sum. cbn [s3 with_entries]. destruct (k <=? 2); auto.
Qed.

(** * Columns side by side *)
Definition dense_cols (lo hi : nat) (a : arr) : arr := Arr (ax0 a) (ax1 a) (ax2 a) (Nat.min hi (ax3 a) - lo) (fun i v o d => av a i v o (lo + d)).
Lemma cols_lookup lo hi l i v o d : lo + d < hi ->
  lookup (i, v, o, d) (flat_map (fun e : pos * cell => let '(i, v, o, d) := fst e in if (lo <=? d) && (d <? hi) then [((i, v, o, d - lo), snd e)] else []) l) = lookup (i, v, o, lo + d) l.
Proof.
  intros L. induction l as [|((((i', v'), o'), d'), x) l IH]; cbn [flat_map fst snd]; auto.
  destruct ((lo <=? d') && (d' <? hi)) eqn:E; cbn [app lookup].
  - apply andb_true_iff in E. rewrite Nat.leb_le, Nat.ltb_lt in E. rewrite IH.
    assert (pos_eqb (i', v', o', d' - lo) (i, v, o, d) = pos_eqb (i', v', o', d') (i, v, o, lo + d)) as ->; auto.
    cbn. f_equal. destruct (Nat.eqb_spec (d' - lo) d), (Nat.eqb_spec d' (lo + d)); auto; lia.
  - rewrite IH, pos_eqb_neq; auto. intros [= -> -> -> ->]. rewrite andb_false_iff, Nat.leb_gt, Nat.ltb_ge in E. lia.
Qed.
Lemma cols_In lo hi l i v o d x : In ((i, v, o, d), x) (flat_map (fun e : pos * cell => let '(i, v, o, d) := fst e in if (lo <=? d) && (d <? hi) then [((i, v, o, d - lo), snd e)] else []) l) ->
  In ((i, v, o, lo + d), x) l /\ lo + d < hi.
Proof.
  intros H. apply in_flat_map in H. destruct H as (((((i', v'), o'), d'), y) & I & H). cbn [fst snd] in H. destruct ((lo <=? d') && (d' <? hi)) eqn:E; [|destruct H].
  apply andb_true_iff in E. rewrite Nat.leb_le, Nat.ltb_lt in E. destruct H as [[= -> -> -> <- ->]|[]]. replace (lo + (d' - lo)) with d' by lia. split; auto; lia.
Qed.
Lemma cols_NoDup lo hi (l : list (pos * cell)) : NoDup (map fst l) -> NoDup (map fst (flat_map (fun e : pos * cell => let '(i, v, o, d) := fst e in if (lo <=? d) && (d <? hi) then [((i, v, o, d - lo), snd e)] else []) l)).
Proof.
  induction l as [|((((i', v'), o'), d'), x) l IH]; cbn [flat_map fst snd map]; intros N; [constructor|]. inversion N as [|? ? N1 N2]; subst.
  destruct ((lo <=? d') && (d' <? hi)) eqn:E; cbn [app map fst]; auto. constructor; auto. intros H. apply in_map_iff in H. destruct H as (((((i, v), o), d), y) & [= -> -> -> ->] & I).
  apply cols_In in I. apply N1. apply andb_true_iff in E. rewrite Nat.leb_le, Nat.ltb_lt in E. replace (lo + (d' - lo)) with d' in I by lia. apply in_map_iff. eexists. split; [|apply I]. auto.
Qed.
Lemma cols_ok lo hi c a : coords_ok c -> nonan c -> holds c a -> coords_ok (sp_cols lo hi c) /\ nonan (sp_cols lo hi c) /\ fill (sp_cols lo hi c) = fill c /\ holds (sp_cols lo hi c) (dense_cols lo hi a).
Proof.
  intros C F H. split; [|split; [|split]]; auto.
  - constructor; cbn [sp_cols entries s0 s1 s2 s3].
    + apply cols_NoDup, (ck_nodup _ C).
    + intros i v o d x I. apply cols_In in I. destruct I as (I & L). apply (ck_range _ C) in I. lia.
  - intros (((i, v), o), d) x I. cbn [sp_cols entries] in I. apply cols_In in I. eapply F, I.
  - constructor; cbn [sp_cols dense_cols s0 s1 s2 s3 ax0 ax1 ax2 ax3 av]; try apply H; [rewrite (hd_3 _ _ H); auto|]. intros i v o d Hi Hv Ho Hd.
    unfold coo_get. cbn [sp_cols entries fill]. rewrite cols_lookup by lia. rewrite <- (hd_cell _ _ H) by lia. auto.
Qed.
Lemma lookup_app p l m : lookup p (l ++ m) = match lookup p l with Some v => Some v | None => lookup p m end.
Proof. induction l as [|(q, v) l IH]; cbn; auto. destruct (pos_eqb q p); auto. Qed.
Lemma moved_lookup w l i v o d : lookup (i, v, o, w + d) (map (fun e : pos * cell => let '(i, v, o, d) := fst e in ((i, v, o, w + d), snd e)) l) = lookup (i, v, o, d) l.
Proof.
  induction l as [|((((i', v'), o'), d'), x) l IH]; cbn [map fst snd lookup]; auto. rewrite IH.
  assert (pos_eqb (i', v', o', w + d') (i, v, o, w + d) = pos_eqb (i', v', o', d') (i, v, o, d)) as ->; auto.
  cbn. f_equal. destruct (Nat.eqb_spec (w + d') (w + d)), (Nat.eqb_spec d' d); auto; lia.
Qed.
Definition dense_cat (a b : arr) : arr := Arr (ax0 a) (ax1 a) (ax2 a) (ax3 a + ax3 b) (fun i v o d => if d <? ax3 a then av a i v o d else av b i v o (d - ax3 a)).
Lemma cat_ok' c1 c2 a b : coords_ok c1 -> coords_ok c2 -> nonan c1 -> nonan c2 -> fill c1 = fill c2 -> holds c1 a -> holds c2 b -> ax0 a = ax0 b -> ax1 a = ax1 b -> ax2 a = ax2 b ->
  coords_ok (sp_cat_cols c1 c2) /\ nonan (sp_cat_cols c1 c2) /\ fill (sp_cat_cols c1 c2) = fill c1 /\ holds (sp_cat_cols c1 c2) (dense_cat a b).
Proof.
  intros C1 C2 F1 F2 E A B E0 E1 E2.
  set (mv := map (fun e : pos * cell => let '(i, v, o, d) := fst e in ((i, v, o, s3 c1 + d), snd e)) (entries c2)).
  assert (M : forall i v o d x, In ((i, v, o, d), x) mv -> s3 c1 <= d /\ In ((i, v, o, d - s3 c1), x) (entries c2)).
  { intros i v o d x I. unfold mv in I. apply in_map_iff in I. destruct I as (((((i', v'), o'), d'), y) & [= -> -> -> <- ->] & I). split; [lia|]. replace (s3 c1 + d' - s3 c1) with d' by lia. auto. }
  split; [|split; [|split]]; auto.
  - constructor; cbn [sp_cat_cols entries s0 s1 s2 s3]; fold mv.
    + rewrite map_app. apply NoDup_app'; [apply (ck_nodup _ C1)| |].
      * unfold mv. rewrite map_map. rewrite (map_ext _ (fun e : pos * cell => (fun p : pos => let '(i, v, o, d) := p in (i, v, o, s3 c1 + d)) (fst e))) by (intros ((((?, ?), ?), ?), ?); auto).
        rewrite <- (map_map fst (fun p : pos => let '(i, v, o, d) := p in (i, v, o, s3 c1 + d))). apply NoDup_map'; [|apply (ck_nodup _ C2)]. intros (((?, ?), ?), ?) (((?, ?), ?), ?) [= -> -> -> X]. repeat f_equal. lia.
      * intros (((i, v), o), d) I J. apply in_map_iff in I, J. destruct I as (((((i', v'), o'), d'), x) & [= -> -> -> ->] & I), J as (((((i', v'), o'), d'), x') & [= -> -> -> ->] & J).
        apply (ck_range _ C1) in I. apply M in J. lia.
    + intros i v o d x I. apply in_app_iff in I. destruct I as [I|I]; [apply (ck_range _ C1) in I; lia|]. apply M in I. destruct I as (L & I). apply (ck_range _ C2) in I.
      rewrite (hd_0 _ _ A), (hd_1 _ _ A), (hd_2 _ _ A). rewrite (hd_0 _ _ B), (hd_1 _ _ B), (hd_2 _ _ B) in I. lia.
  - intros p x I. cbn [sp_cat_cols entries] in I. fold mv in I. revert p x I. intros (((i, v), o), d) x I. apply in_app_iff in I. destruct I as [I|I]; [eapply F1, I|]. apply M in I. eapply F2, I.
  - constructor; cbn [sp_cat_cols dense_cat s0 s1 s2 s3 ax0 ax1 ax2 ax3 av]; try apply A; [rewrite (hd_3 _ _ A), (hd_3 _ _ B); auto|]. intros i v o d Hi Hv Ho Hd.
    unfold coo_get. cbn [sp_cat_cols entries fill]. rewrite lookup_app. destruct (Nat.ltb_spec d (ax3 a)) as [L|L].
    + rewrite <- (hd_cell _ _ A) by auto. unfold coo_get. destruct (lookup (i, v, o, d) (entries c1)); auto. change (map _ (entries c2)) with mv.
      assert (Mn : lookup (i, v, o, d) mv = None); [|rewrite Mn; auto]. apply lookup_None. intros J. apply in_map_iff in J. destruct J as (((((i', v'), o'), d'), x') & [= -> -> -> ->] & J). apply M in J. rewrite (hd_3 _ _ A) in J. lia.
    + assert (lookup (i, v, o, d) (entries c1) = None) as ->.
      { apply lookup_None. intros J. apply in_map_iff in J. destruct J as (((((i', v'), o'), d'), x') & [= -> -> -> ->] & J). apply (ck_range _ C1) in J. rewrite (hd_3 _ _ A) in J. lia. }
      assert (Ed : d = s3 c1 + (d - ax3 a)) by (rewrite (hd_3 _ _ A); lia). rewrite Ed at 1. rewrite moved_lookup. rewrite <- (hd_cell _ _ B) by lia. unfold coo_get. rewrite E. auto.
Qed.

(** * Accumulation *)
Lemma bdim_r1 n : bdim n 1 = Ok n.
Proof. unfold bdim. destruct (Nat.eqb_spec n 1) as [->|]; auto. Qed.
Lemma mask_sparse n2 n3 m : 1 <= n3 -> let k := sp_nan_to_num (sp_array (mask_arr n2 n3 m)) in
  coords_ok k /\ full k /\ fill k = Some 0%Qc /\ holds k (mask_arr n2 n3 (fun o d => Some (nz (m o d)))).
Proof.
  intros L. destruct (sp_array_ok (mask_arr n2 n3 m) L) as (S & H). destruct (nan_to_num_ok _ _ (sound_coords _ S) H (or_introl (so_fill _ S))) as (A & B & C & D). auto.
Qed.
Lemma cmul_total x y : exists z, cmul (Some x) (Some y) = Some z. Proof. cbn. eauto. Qed.
Lemma cadd_total x y : exists z, cadd (Some x) (Some y) = Some z. Proof. cbn. eauto. Qed.
Lemma csub_total x y : exists z, csub (Some x) (Some y) = Some z. Proof. cbn. eauto. Qed.

Definition cum_cell (m : nat -> nat -> cell) (a : arr) (i v o d : nat) : cell := cmul (Some (nansum (S d) (fun k => av a i v o k))) (Some (nz (m o d))).
Lemma cum_col_ok vals msk a m i : coords_ok vals -> full vals -> fill vals = Some 0%Qc -> holds vals (map_arr (fun x => Some (nz x)) a) ->
  coords_ok msk -> full msk -> fill msk = Some 0%Qc -> holds msk (mask_arr (ax2 a) (ax3 a) (fun o d => Some (nz (m o d)))) -> i < ax3 a ->
  exists c, sp_cum_col vals msk i = Ok c /\ coords_ok c /\ full c /\ fill c = Some 0%Qc /\ holds c (Arr (ax0 a) (ax1 a) (ax2 a) 1 (fun k v o _ => cum_cell m a k v o i)).
Proof.
  intros C F Z H C' F' Z' H' L. destruct (cols_ok 0 (i + 1) _ _ C (proj2 F) H) as (A1 & A2' & A3 & A4). destruct (cols_ok i (i + 1) _ _ C' (proj2 F') H') as (B1 & B2' & B3 & B4).
  assert (A2 : full (sp_cols 0 (i + 1) vals)) by (split; auto; rewrite A3; apply F). assert (B2 : full (sp_cols i (i + 1) msk)) by (split; auto; rewrite B3; apply F').
  unfold sp_cum_col. destruct (sp_elemwise cmul (sp_cols 0 (i + 1) vals) (sp_cols i (i + 1) msk)) as [p|e] eqn:E.
  2: { exfalso. apply (elemwise_err _ _ _ _ _ _ A4 B4) in E. unfold bmap2 in E. cbn [dense_cols map_arr mask_arr ax0 ax1 ax2 ax3] in E. rewrite !bdim_r1 in E. cbn [rbind] in E.
       unfold bdim at 1 in E. rewrite Nat.eqb_refl in E. cbn [rbind] in E. replace (Nat.min (i + 1) (ax3 a) - i) with 1 in E by lia. rewrite bdim_r1 in E. discriminate. }
  destruct (elemwise_get _ _ _ _ _ _ A4 B4 E) as (P1 & P2 & r & Er & P3 & P4). pose proof (elemwise_full _ _ _ _ cmul_total A2 B2 E) as P5.
  rewrite A3, B3, Z, Z' in P2. cbn [cmul] in P2. rewrite Qcmult_0_l in P2.
  destruct (sum_ok 3 p r P1 P3 (or_intror P2) (proj2 P5)) as (S1 & S2 & S3 & S4 & _). cbn [rbind]. exists (sp_sum 3 p).
  assert (Ep : sp_nansum 3 p = sp_sum 3 p) by reflexivity. rewrite Ep in *. split; auto. split; auto. split; auto. split; auto.
  unfold bmap2 in Er. cbn [dense_cols map_arr mask_arr ax0 ax1 ax2 ax3] in Er. rewrite !bdim_r1 in Er. cbn [rbind] in Er.
  unfold bdim at 1 in Er. rewrite Nat.eqb_refl in Er. cbn [rbind] in Er. replace (Nat.min (i + 1) (ax3 a) - i) with 1 in Er by lia. rewrite bdim_r1 in Er. cbn [rbind] in Er. injection Er as Er. subst r.
  destruct S4 as [Q0 Q1 Q2 Q3 Q4]. cbn [nansum_axis ax0 ax1 ax2 ax3] in *. constructor; auto. cbn [ax0 ax1 ax2 ax3 av]. intros k v o d Hi Hv Ho Hd.
  rewrite (Q4 k v o d Hi Hv Ho Hd). cbn [av]. unfold cum_cell, nansum. cbn [cmul]. f_equal. rewrite <- sumn_scal_r. replace (Nat.min (i + 1) (ax3 a) - 0) with (S i) by lia.
  apply sumn_ext. intros j Hj. rewrite !bidx_lt by lia. cbn [nz]. f_equal. rewrite Nat.add_0_r. auto.
Qed.
Lemma cum_cols_ok vals msk a m : coords_ok vals -> full vals -> fill vals = Some 0%Qc -> holds vals (map_arr (fun x => Some (nz x)) a) ->
  coords_ok msk -> full msk -> fill msk = Some 0%Qc -> holds msk (mask_arr (ax2 a) (ax3 a) (fun o d => Some (nz (m o d)))) ->
  forall l, l <> [] -> (forall i, In i l -> i < ax3 a) ->
  exists c, sp_cum_cols vals msk l = Ok c /\ coords_ok c /\ full c /\ fill c = Some 0%Qc /\ holds c (Arr (ax0 a) (ax1 a) (ax2 a) (List.length l) (fun k v o d => cum_cell m a k v o (nth d l 0))).
Proof.
  intros C F Z H C' F' Z' H'. induction l as [|i l IH]; intros N I; [congruence|].
  destruct (cum_col_ok vals msk a m i C F Z H C' F' Z' H' (I i (or_introl eq_refl))) as (x & Ex & X1 & X2 & X3 & X4).
  destruct l as [|i' l].
  - exists x. split; auto. split; auto. split; auto. split; auto. destruct X4 as [Q0 Q1 Q2 Q3 Q4]. constructor; auto. cbn [ax0 ax1 ax2 ax3 av List.length] in *. intros k v o d Hk Hv Ho Hd. rewrite Q4 by auto.
    assert (d = 0) as -> by lia. auto.
  - destruct IH as (y & Ey & Y1 & Y2 & Y3 & Y4); [discriminate|intros; apply I; right; auto|]. cbn [sp_cum_cols]. cbn [sp_cum_cols] in Ey. rewrite Ex. cbn [rbind]. rewrite Ey. cbn [rbind]. eexists. split; [reflexivity|].
    destruct (cat_ok' x y _ _ X1 Y1 (proj2 X2) (proj2 Y2) (eq_trans X3 (eq_sym Y3)) X4 Y4 eq_refl eq_refl eq_refl) as (W1 & W2 & W3 & W4). split; auto. split; [split; auto; rewrite W3, X3; discriminate|]. split; [congruence|].
    destruct W4 as [Q0 Q1 Q2 Q3 Q4]. constructor; auto. cbn [dense_cat ax0 ax1 ax2 ax3 av] in *. intros k v o d Hk Hv Ho Hd. rewrite Q4 by auto. destruct (Nat.ltb_spec d 1).
    + assert (d = 0) as -> by lia. auto.
    + destruct d as [|d]; [lia|]. cbn [nth]. rewrite Nat.sub_succ, Nat.sub_0_r. auto.
Qed.
Lemma incr_to_cum_gen m c a : (forall o d, o < ax2 a -> d < ax3 a -> m o d = None \/ m o d = Some 1%Qc) -> sound c -> holds c a -> agree (sp_incr_to_cum m c) (Ok (dense_cum m a)).
Proof.
  intros W S H. unfold sp_incr_to_cum. assert (L : 1 <= ax3 a) by (rewrite <- (hd_3 _ _ H); apply (so_3 _ S)).
  destruct (nan_to_num_ok _ _ (sound_coords _ S) H (or_introl (so_fill _ S))) as (A1 & A2 & A3 & A4).
  rewrite (hd_2 _ _ H), (hd_3 _ _ H). destruct (mask_sparse (ax2 a) (ax3 a) m L) as (B1 & B2 & B3 & B4).
  destruct (cum_cols_ok _ _ a m A1 A2 A3 A4 B1 B2 B3 B4 (seq 0 (ax3 a))) as (r & Er & R1 & R2 & R3 & R4).
  - destruct (ax3 a); [lia|discriminate].
  - intros i I. apply in_seq in I. lia.
  - rewrite Er. cbn [rbind agree]. destruct (n2n_ok r _ R1 R4 (proj2 R2)) as (U & V); [rewrite (hd_3 _ _ R4); cbn; rewrite seq_length; auto|]. split; auto.
    destruct V as [Q0 Q1 Q2 Q3 Q4]. cbn [map_arr ax0 ax1 ax2 ax3 av] in *. constructor; auto; cbn [dense_cum ax0 ax1 ax2 ax3 av]; [rewrite Q3; apply seq_length|].
    intros i v o d Hi Hv Ho Hd. rewrite Q4 by (rewrite ?seq_length; auto). rewrite seq_nth by auto. unfold cum_cell. cbn [cumsum3 av]. rewrite Nat.add_0_l. destruct (W o d Ho Hd) as [-> | ->]; cbn [nz cmul]; auto. rewrite Qcmult_0_r. reflexivity.
Qed.

Lemma incr_to_cum_ok f c a : sound c -> holds c a -> agree (sp_incr_to_cum (ones_where f) c) (Ok (dense_cum (ones_where f) a)).
Proof. apply incr_to_cum_gen. intros o d _ _. unfold ones_where. destruct (f o d); auto. Qed.

(** * Arithmetic *)
Lemma lookup_map_filter (h : cell -> cell) z l p : NoDup (map fst l) ->
  lookup p (filter (fun e => negb (same_cell (snd e) z)) (map (fun e : pos * cell => (fst e, h (snd e))) l)) =
  match lookup p l with Some v => if same_cell (h v) z then None else Some (h v) | None => None end.
Proof.
  intros N. rewrite (lookup_filter (fun x => negb (same_cell x z))) by (rewrite map_map; auto). rewrite lookup_map. destruct (lookup p l); cbn [option_map]; auto. destruct (same_cell (h c) z); auto.
Qed.
Lemma map_ok f c a : coords_ok c -> holds c a -> coords_ok (sp_map f c) /\ fill (sp_map f c) = f (fill c) /\ holds (sp_map f c) (map_arr f a) /\
  (forall p x, In (p, x) (entries (sp_map f c)) -> x <> f (fill c) /\ exists z, x = f z /\ In (p, z) (entries c)).
Proof.
  intros C H. assert (I : forall p x, In (p, x) (entries (sp_map f c)) -> x <> f (fill c) /\ exists z, x = f z /\ In (p, z) (entries c)).
  { intros p x I. cbn [sp_map entries with_entries] in I. apply filter_In in I. destruct I as (I & N). apply in_map_iff in I. destruct I as ((q, z) & [= -> <-] & I). split; [|eauto].
    cbn [snd] in N. intros E. apply (proj2 (same_cell_eq _ _)) in E. rewrite E in N. discriminate. }
  split; [|split; [|split]]; auto.
  - constructor.
    + cbn [sp_map entries with_entries]. apply fst_filter_NoDup. rewrite map_map. apply (ck_nodup _ C).
    + intros i v o d x J. apply I in J. destruct J as (_ & z & _ & J). apply (ck_range _ C) in J. auto.
  - constructor; try apply H. intros i v o d Hi Hv Ho Hd. cbn [map_arr av]. rewrite <- (hd_cell _ _ H) by auto. unfold coo_get. cbn [sp_map entries with_entries fill].
    rewrite lookup_map_filter by apply (ck_nodup _ C). destruct (lookup (i, v, o, d) (entries c)) as [x|]; auto. destruct (same_cell (f x) (f (fill c))) eqn:E; auto. apply same_cell_eq in E. auto.
Qed.
Lemma bdim_refl n : bdim n n = Ok n.
Proof. unfold bdim. rewrite Nat.eqb_refl. auto. Qed.
(** Multiplying by a table of origins and ages. *)
Lemma times_mask c k a m : holds c a -> holds k (mask_arr (ax2 a) (ax3 a) m) ->
  exists r, sp_elemwise cmul c k = Ok r /\ coords_ok r /\ fill r = cmul (fill c) (fill k) /\ s3 r = ax3 a /\
  holds r (Arr (ax0 a) (ax1 a) (ax2 a) (ax3 a) (fun i v o d => cmul (av a i v o d) (m o d))) /\ forall p x, In (p, x) (entries r) -> x <> fill r /\ x = cmul (coo_get c (bpos c p)) (coo_get k (bpos k p)).
Proof.
  intros H K. destruct (sp_elemwise cmul c k) as [r|e] eqn:E.
  2: { apply (elemwise_err _ _ _ _ _ _ H K) in E. unfold bmap2 in E. cbn [mask_arr ax0 ax1 ax2 ax3] in E. rewrite !bdim_r1, !bdim_refl in E. discriminate. }
  exists r. destruct (elemwise_get _ _ _ _ _ _ H K E) as (A & B & r' & Er & C & D). unfold bmap2 in Er. cbn [mask_arr ax0 ax1 ax2 ax3] in Er. rewrite !bdim_r1, !bdim_refl in Er. cbn [rbind] in Er. injection Er as Er. subst r'.
  split; auto. split; auto. split; auto. split; auto. split.
  - destruct C as [Q0 Q1 Q2 Q3 Q4]. cbn [ax0 ax1 ax2 ax3 av] in *. constructor; auto. cbn [ax0 ax1 ax2 ax3 av]. intros i v o d Hi Hv Ho Hd. rewrite Q4 by auto. rewrite !bidx_lt by lia. auto.
  - intros p x I. destruct (elemwise_entry _ _ _ _ _ _ E I). auto.
Qed.
Lemma cleanup_ok m c a : coords_ok c -> full c -> holds c a -> 1 <= s3 c -> exists r, sp_cleanup m c = Ok r /\ sound r /\ holds r (dense_cleanup m a).
Proof.
  intros C F H L. unfold sp_cleanup. rewrite (hd_2 _ _ H), (hd_3 _ _ H). assert (L' : 1 <= ax3 a) by (rewrite <- (hd_3 _ _ H); auto).
  destruct (mask_sparse (ax2 a) (ax3 a) m L') as (B1 & B2 & B3 & B4). destruct (times_mask _ _ _ _ H B4) as (r & Er & R1 & R2 & R3 & R4 & R5). rewrite Er. cbn [rbind]. eexists. split; [reflexivity|].
  apply (n2n_ok r _ R1 R4); [|lia]. intros p x I. apply R5 in I. destruct I as (_ & ->). destruct (full_get _ (bpos c p) F) as (? & ->), (full_get _ (bpos (sp_nan_to_num (sp_array (mask_arr (ax2 a) (ax3 a) m))) p) B2) as (? & ->). discriminate.
Qed.
Lemma bdim_pos m n r : bdim m n = Ok r -> 1 <= m -> 1 <= n -> 1 <= r.
Proof. unfold bdim. destruct (m =? n); [intros [= <-]; auto|]. destruct (m =? 1); [intros [= <-]; auto|]. destruct (n =? 1); [intros [= <-]; auto|discriminate]. Qed.
Lemma elemwise_pos f a b c : sp_elemwise f a b = Ok c -> 1 <= s3 a -> 1 <= s3 b -> 1 <= s3 c.
Proof.
  unfold sp_elemwise. destruct (bdim (s0 a) (s0 b)); cbn [rbind]; [|discriminate]. destruct (bdim (s1 a) (s1 b)); cbn [rbind]; [|discriminate].
  destruct (bdim (s2 a) (s2 b)); cbn [rbind]; [|discriminate]. destruct (bdim (s3 a) (s3 b)) eqn:E; cbn [rbind]; [|discriminate]. intros [= <-]. cbn [s3]. intros. eapply bdim_pos; eauto.
Qed.
Lemma elemwise_agree f c1 c2 a b : sound c1 -> sound c2 -> holds c1 a -> holds c2 b -> f None None = None -> agree (sp_elemwise f c1 c2) (bmap2 f a b).
Proof.
  intros S1 S2 A B Z. destruct (sp_elemwise f c1 c2) as [r|e] eqn:E; [|rewrite (elemwise_err _ _ _ _ _ _ A B E); reflexivity].
  destruct (elemwise_get _ _ _ _ _ _ A B E) as (C & F & r' & -> & H & L). rewrite (so_fill _ S1), (so_fill _ S2), Z in F. split; auto. constructor; try apply C; auto.
  - intros p x I. destruct (elemwise_entry _ _ _ _ _ _ E I) as (X & N). congruence.
  - eapply elemwise_pos; eauto; apply so_3; auto.
Qed.
Lemma addsub_op_ok (f : cell -> cell -> cell) (g : cell -> cell -> cell) m c1 c2 a b : (forall x y, exists z, f (Some x) (Some y) = Some z) ->
  (bmap2 f (map_arr (fun x => Some (nz x)) a) (map_arr (fun x => Some (nz x)) b) = bmap2 g a b) -> sound c1 -> sound c2 -> holds c1 a -> holds c2 b ->
  agree (do r <- sp_elemwise f (sp_nan_to_num c1) (sp_nan_to_num c2); sp_cleanup m r) (do r <- bmap2 g a b; Ok (dense_cleanup m r)).
Proof.
  intros T G S1 S2 A B. rewrite <- G. destruct (nan_to_num_ok _ _ (sound_coords _ S1) A (or_introl (so_fill _ S1))) as (A1 & A2 & A3 & A4), (nan_to_num_ok _ _ (sound_coords _ S2) B (or_introl (so_fill _ S2))) as (B1 & B2 & B3 & B4).
  destruct (sp_elemwise f (sp_nan_to_num c1) (sp_nan_to_num c2)) as [r|e] eqn:E; [|rewrite (elemwise_err _ _ _ _ _ _ A4 B4 E); reflexivity].
  destruct (elemwise_get _ _ _ _ _ _ A4 B4 E) as (C & F & r' & -> & H & L). cbn [rbind].
  destruct (cleanup_ok m r r' C (elemwise_full _ _ _ _ T A2 B2 E) H) as (u & -> & U & V); [apply (elemwise_pos _ _ _ _ E); apply (so_3 _ S1) || apply (so_3 _ S2)|]. split; auto.
Qed.
Lemma op_ok op m c1 c2 a b : sound c1 -> sound c2 -> holds c1 a -> holds c2 b -> agree (sp_op op m c1 c2) (dense_op op m a b).
Proof.
  intros S1 S2 A B. destruct op; cbn [sp_op dense_op].
  - apply addsub_op_ok; auto. apply cadd_total.
  - apply addsub_op_ok; auto. apply csub_total.
  - apply elemwise_agree; auto.
  - apply elemwise_agree; auto.
Qed.
Lemma same_holds c a b : holds c a -> same_arr a b -> holds c b.
Proof.
  intros H S. constructor; [rewrite (hd_0 _ _ H); apply S|rewrite (hd_1 _ _ H); apply S|rewrite (hd_2 _ _ H); apply S|rewrite (hd_3 _ _ H); apply S|].
  intros i v o d Hi Hv Ho Hd. rewrite <- (sm_0 _ _ S) in Hi. rewrite <- (sm_1 _ _ S) in Hv. rewrite <- (sm_2 _ _ S) in Ho. rewrite <- (sm_3 _ _ S) in Hd. rewrite (hd_cell _ _ H) by auto. apply S; auto.
Qed.
Lemma scalar_bmap2 f a q : exists r, bmap2 f a (scalar_arr q) = Ok r /\ same_arr (map_arr (fun x => f x (Some q)) a) r.
Proof.
  unfold bmap2. cbn [scalar_arr ax0 ax1 ax2 ax3]. rewrite !bdim_r1. cbn [rbind]. eexists. split; [reflexivity|]. constructor; auto. cbn [map_arr ax0 ax1 ax2 ax3 av]. intros i v o d Hi Hv Ho Hd. rewrite !bidx_lt by auto. auto.
Qed.
Lemma addsub_num_ok (f g : cell -> cell -> cell) m c a q : (forall x y, exists z, f (Some x) (Some y) = Some z) -> (forall x, f (Some (nz x)) (Some q) = g x (Some q)) -> sound c -> holds c a ->
  agree (sp_cleanup m (sp_map (fun x => f x (Some q)) (sp_nan_to_num c))) (do r <- bmap2 g a (scalar_arr q); Ok (dense_cleanup m r)).
Proof.
  intros T G S A. destruct (nan_to_num_ok _ _ (sound_coords _ S) A (or_introl (so_fill _ S))) as (A1 & A2 & A3 & A4). destruct (map_ok (fun x => f x (Some q)) _ _ A1 A4) as (B1 & B2 & B3 & B4).
  destruct (scalar_bmap2 g a q) as (r & -> & Sm). cbn [rbind].
  destruct (cleanup_ok m (sp_map (fun x => f x (Some q)) (sp_nan_to_num c)) r B1) as (u & -> & U & V).
  - split.
    + rewrite B2, A3. destruct (T 0%Qc q) as (? & ->). discriminate.
    + intros p x I. apply B4 in I. destruct I as (_ & z & -> & I). apply A2 in I. destruct z as [z|]; [|congruence]. destruct (T z q) as (? & ->). discriminate.
  - apply (same_holds _ _ _ B3). destruct Sm as [M0 M1 M2 M3 M4]. constructor; auto. cbn [map_arr ax0 ax1 ax2 ax3 av] in *. intros i v o d Hi Hv Ho Hd. rewrite G. apply M4; auto.
  - apply (so_3 _ S).
  - split; auto.
Qed.
Lemma muldiv_num_ok (f : cell -> cell -> cell) c a q : f None (Some q) = None -> sound c -> holds c a -> agree (Ok (sp_map (fun x => f x (Some q)) c)) (bmap2 f a (scalar_arr q)).
Proof.
  intros N S A. destruct (map_ok (fun x => f x (Some q)) _ _ (sound_coords _ S) A) as (B1 & B2 & B3 & B4). destruct (scalar_bmap2 f a q) as (r & -> & Sm). split; [|apply (same_holds _ _ _ B3 Sm)].
  rewrite (so_fill _ S), N in *. constructor; try apply B1; auto.
  - intros p x I. apply B4 in I. tauto.
  - apply (so_3 _ S).
Qed.
Lemma op_num_ok op m c a q : sound c -> holds c a -> agree (sp_op_num op m c q) (dense_op op m a (scalar_arr q)).
Proof.
  intros S A. destruct op; cbn [sp_op_num dense_op].
  - apply (addsub_num_ok cadd nz_add); auto. apply cadd_total.
  - apply (addsub_num_ok csub nz_sub); auto. apply csub_total.
  - apply (muldiv_num_ok cmul); auto.
  - apply (muldiv_num_ok cdiv); auto.
Qed.
Lemma filter_ok key c a : sound c -> holds c a ->
  agree (sp_filter key c) (Ok (Arr (ax0 a) (ax1 a) (ax2 a) (ax3 a) (fun i v o d => n2n (cmul (av a i v o d) (Some (if key o d then 1%Qc else 0%Qc)))))).
Proof.
  intros S H. unfold sp_filter. assert (L : 1 <= ax3 a) by (rewrite <- (hd_3 _ _ H); apply (so_3 _ S)). rewrite (hd_2 _ _ H), (hd_3 _ _ H).
  set (mk := mask_arr (ax2 a) (ax3 a) (fun o d => Some (if key o d then 1%Qc else 0%Qc))). destruct (sp_array_ok mk L) as (Sk & Hk).
  destruct (times_mask _ _ _ _ H Hk) as (r & Er & R1 & R2 & R3 & R4 & R5). rewrite Er. cbn [rbind agree].
  apply (n2n_ok r _ R1 R4); [|lia]. intros p x I. apply R5 in I. destruct I as (N & E). rewrite R2, (so_fill _ S) in N. auto.
Qed.

(** * Alignment *)
Lemma placed_lookup ol dl l i v o d : lookup (i, v, o + ol, d + dl) (map (fun e : pos * cell => let '(i, v, o, d) := fst e in ((i, v, o + ol, d + dl), snd e)) l) = lookup (i, v, o, d) l.
Proof.
  induction l as [|((((i', v'), o'), d'), x) l IH]; cbn [map fst snd lookup]; auto. rewrite IH.
  assert (pos_eqb (i', v', o' + ol, d' + dl) (i, v, o + ol, d + dl) = pos_eqb (i', v', o', d') (i, v, o, d)) as ->; auto.
  cbn. f_equal; [f_equal|]; [destruct (Nat.eqb_spec (o' + ol) (o + ol)), (Nat.eqb_spec o' o)|destruct (Nat.eqb_spec (d' + dl) (d + dl)), (Nat.eqb_spec d' d)]; auto; lia.
Qed.
Lemma place_ok n2 n3 ol dl c a : sound c -> holds c a -> ol + ax2 a <= n2 -> dl + ax3 a <= n3 ->
  agree (Ok (sp_place n2 n3 ol dl c)) (place (ax0 a) (ax1 a) n2 n3 ol (ol + ax2 a) dl (dl + ax3 a) a).
Proof.
  intros S H Lo Ld. unfold place, fits. rewrite !Nat.eqb_refl. replace (ol + ax2 a - ol) with (ax2 a) by lia. replace (dl + ax3 a - dl) with (ax3 a) by lia. rewrite !Nat.eqb_refl. cbn [orb andb agree].
  set (mv := map (fun e : pos * cell => let '(i, v, o, d) := fst e in ((i, v, o + ol, d + dl), snd e)) (entries c)).
  assert (M : forall i v o d x, In ((i, v, o, d), x) mv -> ol <= o /\ dl <= d /\ In ((i, v, o - ol, d - dl), x) (entries c)).
  { intros i v o d x I. unfold mv in I. apply in_map_iff in I. destruct I as (((((i', v'), o'), d'), y) & [= -> -> <- <- ->] & I). split; [lia|]. split; [lia|]. replace (o' + ol - ol) with o' by lia. replace (d' + dl - dl) with d' by lia. auto. }
  split.
  - constructor; cbn [sp_place entries s0 s1 s2 s3 fill]; try apply S; change (map _ (entries c)) with mv.
    + unfold mv. rewrite map_map. rewrite (map_ext _ (fun e : pos * cell => (fun p : pos => let '(i, v, o, d) := p in (i, v, o + ol, d + dl)) (fst e))) by (intros ((((?, ?), ?), ?), ?); auto).
      rewrite <- (map_map fst (fun p : pos => let '(i, v, o, d) := p in (i, v, o + ol, d + dl))). apply NoDup_map'; [|apply (so_nodup _ S)]. intros (((?, ?), ?), ?) (((?, ?), ?), ?) [= -> -> X Y]. repeat f_equal; lia.
    + intros i v o d x I. apply M in I. destruct I as (A & B & I). apply (so_range _ S) in I. rewrite (hd_2 _ _ H), (hd_3 _ _ H) in I. lia.
    + intros (((i, v), o), d) x I. apply M in I. eapply (so_nan _ S), I.
    + pose proof (so_3 _ S). rewrite (hd_3 _ _ H) in *. lia.
  - constructor; try apply H; auto. cbn [ax0 ax1 ax2 ax3 av]. intros i v o d Hi Hv Ho Hd. unfold coo_get. cbn [sp_place entries fill]. change (map _ (entries c)) with mv.
    destruct ((ol <=? o) && (o <? ol + ax2 a) && (dl <=? d) && (d <? dl + ax3 a)) eqn:E.
    + rewrite !andb_true_iff, !Nat.leb_le, !Nat.ltb_lt in E. rewrite !bidx_lt by lia. rewrite <- (hd_cell _ _ H) by lia. unfold coo_get.
      replace o with (o - ol + ol) at 1 by lia. replace d with (d - dl + dl) at 1 by lia. unfold mv. rewrite placed_lookup. auto.
    + assert (Mn : lookup (i, v, o, d) mv = None); [|rewrite Mn; apply (so_fill _ S)]. apply lookup_None. intros J. apply in_map_iff in J. destruct J as (((((i', v'), o'), d'), x') & [= -> -> -> ->] & J).
      apply M in J. destruct J as (A & B & J). apply (so_range _ S) in J. rewrite (hd_2 _ _ H), (hd_3 _ _ H) in J.
      rewrite !andb_false_iff, !Nat.leb_gt, !Nat.ltb_ge in E. lia.
Qed.

(** * Programs *)
Theorem programs_agree e env env' : (forall n, sound (env n) /\ holds (env n) (env' n)) -> agree (run_sparse env e) (run_dense env' e).
Proof.
  intros V. induction e as [n|op f x IHx z IHz|op f x IHx q|f x IHx|k x IHx|key x IHx|lo hi x IHx|x IHx z IHz|n2 n3 ol dl x IHx]; cbn [run_sparse run_dense].
  - apply V.
  - destruct (run_sparse env x) as [c|], (run_dense env' x) as [a|]; cbn [agree rbind] in *; try tauto. destruct (run_sparse env z) as [c'|], (run_dense env' z) as [a'|]; cbn [agree rbind] in *; try tauto. apply op_ok; tauto.
  - destruct (run_sparse env x) as [c|], (run_dense env' x) as [a|]; cbn [agree rbind] in *; try tauto. apply op_num_ok; tauto.
  - destruct (run_sparse env x) as [c|], (run_dense env' x) as [a|]; cbn [agree rbind] in *; try tauto. apply incr_to_cum_ok; tauto.
  - destruct (run_sparse env x) as [c|], (run_dense env' x) as [a|]; cbn [agree rbind] in *; try tauto. destruct IHx as (S & H).
    destruct (sum_ok k c a (sound_coords _ S) H (or_introl (so_fill _ S)) (so_nan _ S)) as (A & B & C & D & E). apply (n2n_ok _ _ A D (proj2 B)). apply E, (so_3 _ S).
  - destruct (run_sparse env x) as [c|], (run_dense env' x) as [a|]; cbn [agree rbind] in *; try tauto. apply filter_ok; tauto.
  - destruct (run_sparse env x) as [c|], (run_dense env' x) as [a|]; cbn [agree rbind] in *; try tauto. destruct IHx as (S & H). rewrite (hd_3 _ _ H).
    destruct (Nat.ltb_spec lo (Nat.min hi (ax3 a))) as [L|L]; [|reflexivity]. destruct (cols_ok lo hi c a (sound_coords _ S) (so_nan _ S) H) as (A & B & C & D). split; auto.
    constructor; try apply A; auto; [rewrite C; apply (so_fill _ S)|]. cbn [sp_cols s3]. rewrite (hd_3 _ _ H). lia.
  - destruct (run_sparse env x) as [c|], (run_dense env' x) as [a|]; cbn [agree rbind] in *; try tauto. destruct (run_sparse env z) as [c'|], (run_dense env' z) as [a'|]; cbn [agree rbind] in *; try tauto.
    destruct IHx as (S & H), IHz as (S' & H'). unfold sp_concat, cat_ok. rewrite (hd_0 _ _ H), (hd_1 _ _ H), (hd_2 _ _ H), (hd_0 _ _ H'), (hd_1 _ _ H'), (hd_2 _ _ H'), (so_fill _ S), (so_fill _ S'). cbn [same_cell Nat.eqb orb]. rewrite !andb_true_r.
    destruct ((ax0 a =? ax0 a') && (ax1 a =? ax1 a') && (ax2 a =? ax2 a')) eqn:E; [|reflexivity]. rewrite !andb_true_iff, !Nat.eqb_eq in E. destruct E as ((E0 & E1) & E2).
    destruct (cat_ok' c c' a a' (sound_coords _ S) (sound_coords _ S') (so_nan _ S) (so_nan _ S') (eq_trans (so_fill _ S) (eq_sym (so_fill _ S'))) H H' E0 E1 E2) as (A & B & C & D). split; auto.
    constructor; try apply A; auto; [rewrite C; apply (so_fill _ S)|]. cbn [sp_cat_cols s3]. pose proof (so_3 _ S). lia.
  - destruct (run_sparse env x) as [c|], (run_dense env' x) as [a|]; cbn [agree rbind] in *; try tauto. destruct IHx as (S & H). rewrite (hd_2 _ _ H), (hd_3 _ _ H).
    destruct ((ol + ax2 a <=? n2) && (dl + ax3 a <=? n3)) eqn:E; [|reflexivity]. rewrite andb_true_iff, !Nat.leb_le in E. apply place_ok; tauto.
Qed.

(** A triangle's accumulation. *)
Lemma tri_incr_to_cum_ok t c : wf t -> is_cumulative t <> Some true -> is_pattern t = false -> sound c -> holds c (values t) -> agree (sp_incr_to_cum (nan_triangle t) c) (Ok (values (incr_to_cum t))).
Proof.
  intros W C P S H. assert (values (incr_to_cum t) = dense_cum (nan_triangle t) (values t)) as ->.
  { unfold incr_to_cum. rewrite P. destruct (is_cumulative t) as [[|]|]; [congruence| |]; reflexivity. }
  apply incr_to_cum_gen; auto. intros o d Ho Hd. rewrite nan_triangle_cases by auto. destruct (_ =? 1); auto. destruct (_ <? _)%Z; auto.
Qed.

(** * Assignment *)
Lemma set_cell_ok i v o d q c a : sound c -> holds c a -> entries c <> [] -> i < ax0 a -> v < ax1 a -> o < ax2 a -> d < ax3 a ->
  agree (sp_set_cell (i, v, o, d) (Some q) c) (Ok (set_cell (i, v, o, d) (Some q) a)).
Proof.
  intros S H N Hi Hv Ho Hd. set (p := (i, v, o, d)). unfold sp_set_cell. destruct (entries c) as [|e0 l0] eqn:En; [congruence|]. rewrite <- En. clear N.
  destruct (stored c p) eqn:St.
  - set (l := map (fun e : pos * cell => if pos_eqb (fst e) p then (fst e, Some q) else e) (entries c)). cbn [agree].
    assert (Fl : map fst l = map fst (entries c)). { unfold l. rewrite map_map. apply map_ext. intros (p', x). cbn [fst]. destruct (pos_eqb p' p); auto. }
    assert (I : forall p' x, In (p', x) l -> exists x', In (p', x') (entries c) /\ (x = x' \/ x = Some q)).
    { intros p' x I. unfold l in I. apply in_map_iff in I. destruct I as ((p2, x2) & E & I). cbn [fst] in E. destruct (pos_eqb p2 p); injection E as <- <-; eauto. }
    split.
    + constructor; cbn [with_entries entries fill s0 s1 s2 s3]; try apply S; fold l.
      * change (NoDup (map fst l)). rewrite Fl. apply (so_nodup _ S).
      * intros i' v' o' d' x J. apply I in J. destruct J as (x' & J & _). apply (so_range _ S) in J. auto.
      * intros p' x J. apply I in J. destruct J as (x' & J & [-> | ->]); [apply (so_nan _ S) in J; auto|discriminate].
    + constructor; try apply H. cbn [set_cell ax0 ax1 ax2 ax3 av]. intros i' v' o' d' Hi' Hv' Ho' Hd'. rewrite <- (hd_cell _ _ H) by auto. unfold coo_get. cbn [with_entries entries fill]. change (map _ (entries c)) with l.
      assert (L : lookup (i', v', o', d') l = if pos_eqb p (i', v', o', d') then option_map (fun _ => Some q) (lookup (i', v', o', d') (entries c)) else lookup (i', v', o', d') (entries c)).
      { unfold l. generalize (i', v', o', d'). intros p'. generalize (entries c). induction l1 as [|(p2, x2) l1 IH]; cbn [map lookup fst]; [destruct (pos_eqb p p'); auto|].
        destruct (pos_eqb p2 p) eqn:E2; cbn [lookup]; rewrite IH; destruct (pos_eqb p2 p') eqn:E3; auto.
        - apply pos_eqb_eq in E2, E3. subst. rewrite pos_eqb_refl. auto.
        - rewrite (pos_eqb_neq p p'); auto. intros <-. congruence. }
      rewrite L. destruct (pos_eqb p (i', v', o', d')) eqn:E; auto. apply pos_eqb_eq in E. rewrite <- E in *. unfold stored in St. destruct (lookup p (entries c)); [auto|discriminate].
  - set (l := entries c ++ [(p, Some q)]). cbn [agree].
    assert (Np : lookup p (entries c) = None). { unfold stored in St. destruct (lookup p (entries c)); [discriminate|auto]. }
    assert (Nl : NoDup (map fst l)). { unfold l. rewrite map_app. apply NoDup_app'; [apply (so_nodup _ S)|repeat constructor; intros []|]. intros x Hx [<-|[]]. apply (proj1 (lookup_None _ _) Np). auto. }
    assert (I : forall p' x, In (p', x) l -> In (p', x) (entries c) \/ (p' = p /\ x = Some q)).
    { intros p' x I. unfold l in I. apply in_app_iff in I. destruct I as [I|[[= <- <-]|[]]]; auto. }
    split.
    + constructor; cbn [with_entries entries fill s0 s1 s2 s3]; try apply S; fold l.
      * apply fst_filter_NoDup. auto.
      * intros i' v' o' d' x J. apply filter_In in J. destruct J as (J & _). apply I in J. destruct J as [J|([= -> -> -> ->] & _)]; [apply (so_range _ S) in J; auto|].
        rewrite (hd_0 _ _ H), (hd_1 _ _ H), (hd_2 _ _ H), (hd_3 _ _ H). auto.
      * intros p' x J. apply filter_In in J. destruct J as (J & _). apply I in J. destruct J as [J|(_ & ->)]; [apply (so_nan _ S) in J; auto|discriminate].
    + constructor; try apply H. cbn [set_cell ax0 ax1 ax2 ax3 av]. intros i' v' o' d' Hi' Hv' Ho' Hd'. rewrite <- (hd_cell _ _ H) by auto. unfold coo_get. cbn [with_entries entries fill]. fold l.
      rewrite (lookup_filter (fun x => negb (same_cell x (fill c)))) by auto. unfold l. rewrite lookup_app. cbn [lookup]. rewrite (so_fill _ S).
      destruct (pos_eqb p (i', v', o', d')) eqn:E.
      * apply pos_eqb_eq in E. rewrite <- E, Np. auto.
      * destruct (lookup (i', v', o', d') (entries c)) as [[x|]|]; auto.
Qed.
Lemma set_col_ok k c2 c a b : sound c -> holds c a -> sound c2 -> holds c2 b -> k < ax1 a -> ax0 b = ax0 a -> ax1 b = 1 -> ax2 b = ax2 a -> ax3 b = ax3 a ->
  agree (Ok (sp_set_col k c2 c)) (set_col k b a).
Proof.
  intros S H S2 H2 Hk E0 E1 E2 E3. unfold set_col, fits. rewrite E0, E1, E2, E3, !Nat.eqb_refl. cbn [orb andb agree].
  set (before := flat_map (fun e : pos * cell => let '(i, v, o, d) := fst e in if v =? k then [] else [((i, (if v <? k then v else v - 1), o, d), snd e)]) (entries c)).
  set (moved := map (fun e : pos * cell => let '(i, v, o, d) := fst e in ((i, (if k <=? v then v + 1 else v), o, d), snd e)) before).
  set (value := map (fun e : pos * cell => let '(i, v, o, d) := fst e in ((i, k, o, d), snd e)) (entries c2)).
  assert (M : moved = filter (fun e : pos * cell => let '(i, v, o, d) := fst e in negb (v =? k)) (entries c)).
  { unfold moved, before. generalize (entries c). induction l as [|((((i, v), o), d), x) l IH]; auto. cbn [flat_map filter fst snd]. destruct (Nat.eqb_spec v k) as [->|D]; cbn [negb app]; auto.
    cbn [map fst snd]. rewrite IH. repeat f_equal. destruct (Nat.ltb_spec v k), (Nat.leb_spec k v), (Nat.leb_spec k (v - 1)); lia. }
  assert (Er : forall x, In x (entries (sp_set_col k c2 c)) <-> In x (filter (fun e => negb (same_cell (snd e) None)) (moved ++ value))) by (intros; reflexivity).
  assert (Im : forall i v o d x, In ((i, v, o, d), x) moved -> In ((i, v, o, d), x) (entries c) /\ v <> k).
  { intros i v o d x I. rewrite M in I. apply filter_In in I. cbn [fst] in I. destruct I as (I & J). apply negb_true_iff, Nat.eqb_neq in J. auto. }
  assert (Iv : forall i v o d x, In ((i, v, o, d), x) value -> v = k /\ In ((i, 0, o, d), x) (entries c2)).
  { intros i v o d x I. unfold value in I. apply in_map_iff in I. destruct I as (((((i', v'), o'), d'), y) & [= -> -> -> -> ->] & I). split; auto.
    pose proof (so_range _ S2 _ _ _ _ _ I) as R. rewrite (hd_1 _ _ H2), E1 in R. assert (v' = 0) as -> by lia. auto. }
  assert (N : NoDup (map fst (moved ++ value))).
  { rewrite map_app. apply NoDup_app'.
    - rewrite M. apply fst_filter_NoDup, (so_nodup _ S).
    - unfold value. pose proof (so_nodup _ S2) as N2. pose proof (so_range _ S2) as R2. revert N2 R2. generalize (entries c2). induction l as [|((((i, v), o), d), x) l IH]; cbn [map fst]; intros N2 R2; [constructor|]. inversion N2 as [|? ? N3 N4]; subst. constructor.
      + intros J. apply in_map_iff in J. destruct J as (((((i', v'), o'), d'), y) & E & J). cbn [fst] in E. injection E as -> -> -> ->. apply in_map_iff in J. destruct J as (((((i2, v2), o2), d2), y2) & [= -> -> -> ->] & J).
        apply N3. apply in_map_iff. eexists. split; [|exact J]. cbn [fst].
        destruct (R2 _ _ _ _ _ (or_introl eq_refl)) as (_ & R & _), (R2 _ _ _ _ _ (or_intror J)) as (_ & R' & _). rewrite (hd_1 _ _ H2), E1 in R, R'. repeat f_equal. lia.
      + apply IH; auto. intros. apply (R2 i0 v0 o0 d0 x0). right. auto.
    - intros (((i, v), o), d) I J. apply in_map_iff in I, J. destruct I as (((((i', v'), o'), d'), x) & [= -> -> -> ->] & I), J as (((((i', v'), o'), d'), y) & [= -> -> -> ->] & J). apply Im in I. apply Iv in J. lia. }
  split.
  - constructor; try apply S; auto.
    + cbn [sp_set_col with_entries entries]. apply fst_filter_NoDup. exact N.
    + intros i v o d x I. apply (proj1 (Er _)) in I. apply filter_In in I. destruct I as (I & _). apply in_app_iff in I. destruct I as [I|I].
      * apply Im in I. apply (so_range _ S i v o d x). tauto.
      * apply Iv in I. destruct I as (-> & I). apply (so_range _ S2) in I. cbn [sp_set_col with_entries s0 s1 s2 s3]. rewrite (hd_0 _ _ H), (hd_1 _ _ H), (hd_2 _ _ H), (hd_3 _ _ H).
        rewrite (hd_0 _ _ H2), (hd_2 _ _ H2), (hd_3 _ _ H2) in I. lia.
    + intros p x I. apply (proj1 (Er _)) in I. apply filter_In in I. destruct I as (_ & I). cbn [snd] in I. intros ->. discriminate.
  - constructor; try apply H. cbn [ax0 ax1 ax2 ax3 av]. intros i v o d Hi Hv Ho Hd. unfold coo_get. change (entries (sp_set_col k c2 c)) with (filter (fun e : pos * cell => negb (same_cell (snd e) None)) (moved ++ value)). change (fill (sp_set_col k c2 c)) with (@None Qc).
    rewrite (lookup_filter (fun x => negb (same_cell x None))) by exact N. rewrite lookup_app.
    destruct (Nat.eqb_spec v k) as [->|D].
    + assert (lookup (i, k, o, d) moved = None) as ->. { apply lookup_None. intros J. apply in_map_iff in J. destruct J as (((((i', v'), o'), d'), y) & [= -> -> -> ->] & J). apply Im in J. tauto. }
      rewrite !bidx_lt by lia. rewrite <- (hd_cell _ _ H2) by lia. unfold coo_get. rewrite (so_fill _ S2).
      destruct (lookup (i, 0, o, d) (entries c2)) as [x|] eqn:L.
      * assert (lookup (i, k, o, d) value = Some x) as ->.
        { apply lookup_NoDup; [rewrite map_app in N; apply NoDup_app_inv in N; apply N|]. unfold value. apply in_map_iff. exists ((i, 0, o, d), x). split; auto. apply lookup_In; auto. }
        destruct x; auto.
      * assert (lookup (i, k, o, d) value = None) as ->; auto. apply lookup_None. intros J. apply in_map_iff in J. destruct J as (((((i', v'), o'), d'), y) & [= -> -> -> ->] & J). apply Iv in J. apply (proj1 (lookup_None _ _)) in L. apply L. apply in_map_iff. eexists. split; [|apply J]. auto.
    + rewrite <- (hd_cell _ _ H) by auto. unfold coo_get. rewrite (so_fill _ S).
      destruct (lookup (i, v, o, d) (entries c)) as [x|] eqn:L.
      * assert (lookup (i, v, o, d) moved = Some x) as ->; [|destruct x; auto].
        apply lookup_NoDup; [rewrite map_app in N; apply NoDup_app_inv in N; apply N|]. rewrite M. apply filter_In. split; [apply lookup_In; auto|]. cbn [fst]. apply negb_true_iff, Nat.eqb_neq. auto.
      * assert (lookup (i, v, o, d) moved = None) as ->. { apply lookup_None. intros J. apply in_map_iff in J. destruct J as (((((i', v'), o'), d'), y) & [= -> -> -> ->] & J). apply Im in J. apply (proj1 (lookup_None _ _)) in L. apply L. apply in_map_iff. eexists. split; [|apply J]. auto. }
        assert (lookup (i, v, o, d) value = None) as ->; auto. apply lookup_None. intros J. apply in_map_iff in J. destruct J as (((((i', v'), o'), d'), y) & [= -> -> -> ->] & J). apply Iv in J. lia.
Qed.

Lemma to_sparse_and_back a : 1 <= ax3 a -> sound (sp_array a) /\ holds (sp_array a) a /\ same_arr (todense (sp_array a)) a.
Proof. intros L. destruct (sp_array_ok a L) as (S & H). split; auto. split; auto. constructor; auto. intros i v o d Hi Hv Ho Hd. apply (hd_cell _ _ H); auto. Qed.
Lemma to_dense_and_back c : 1 <= s3 c -> holds c (todense c) /\ sound (sp_array (todense c)) /\
  s0 (sp_array (todense c)) = s0 c /\ s1 (sp_array (todense c)) = s1 c /\ s2 (sp_array (todense c)) = s2 c /\ s3 (sp_array (todense c)) = s3 c /\
  forall i v o d, i < s0 c -> v < s1 c -> o < s2 c -> d < s3 c -> coo_get (sp_array (todense c)) (i, v, o, d) = coo_get c (i, v, o, d).
Proof. intros L. destruct (sp_array_ok (todense c) L) as (S & H). split; [apply todense_holds|]. split; auto. split; auto. split; auto. split; auto. split; auto. intros. apply (hd_cell _ _ H); auto. Qed.
