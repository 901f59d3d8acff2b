(** Proofs about selection by label. *)
From Coq Require Import Lia.
From Verif Require Import ArrFacts TriFacts P_Core P_Loc P_Align2 SpecSelect.
From Verif Require Import Pandas.
Local Open Scope Z_scope.

Lemma filter_sorted_lt f a n : StronglySorted lt (filter f (seq a n)).
Proof.
  revert a. induction n as [|n IH]; intros a; cbn [seq filter]; [constructor|].
  destruct (f a); auto. constructor; auto. apply Forall_forall. intros x Hx. apply filter_In in Hx. destruct Hx as (Hx & _). apply in_seq in Hx. lia.
Qed.
Lemma filter_where f n P : (forall p, P p <-> (p < n)%nat /\ f p = true) -> positions_where P (filter f (seq 0 n)).
Proof.
  intros H. split; [apply filter_sorted_lt|]. intros p. rewrite filter_In, in_seq, H. split; intros (A & B); split; auto; lia.
Qed.
Lemma where_unique P ps qs : positions_where P ps -> positions_where P qs -> ps = qs.
Proof. intros (S1 & H1) (S2 & H2). apply sorted_lt_ext; auto. intros x. rewrite H1, H2. tauto. Qed.
Lemma where_ext P Q ps : (forall p, P p <-> Q p) -> positions_where P ps -> positions_where Q ps.
Proof. intros H (S1 & H1). split; auto. intros p. rewrite H1. apply H. Qed.
Lemma where_NoDup P ps : positions_where P ps -> NoDup ps.
Proof. intros (H & _). apply StronglySorted_lt_NoDup; auto. Qed.
Lemma where_seq lo m : positions_where (fun p => lo <= p < lo + m)%nat (seq lo m).
Proof.
  split; [|intros p; rewrite in_seq; tauto]. revert lo. induction m as [|m IH]; intros lo; cbn [seq]; constructor; auto.
  apply Forall_forall. intros x Hx. apply in_seq in Hx. lia.
Qed.
Lemma where_true_ok m : positions_where (fun p => nth_error m p = Some true) (where_true m).
Proof.
  apply filter_where. intros p. split.
  - intros H. split; [apply nth_error_Some; congruence|]. apply nth_error_nth with (d := false) in H. auto.
  - intros (H & E). rewrite (nth_error_nth' m false H). congruence.
Qed.

Section Axis.
Context {A : Type} (eqb : A -> A -> bool) (Heq : forall x y, eqb x y = true <-> x = y).

Lemma at_label_one l p x : NoDup l -> nth_error l p = Some x -> at_label eqb l x = [p].
Proof.
  intros N E. apply (where_unique (fun q => q = p)).
  - apply filter_where. intros q. split.
    + intros ->. split; [apply nth_error_Some; congruence|]. rewrite E. apply Heq; auto.
    + intros (Hq & H). destruct (nth_error l q) as [z|] eqn:Eq; [|discriminate]. apply Heq in H. subst z.
      rewrite NoDup_nth_error in N. apply N; [auto|congruence].
  - split; [repeat constructor|]. intros q. cbn. intuition.
Qed.
Lemma at_label_none l x : ~ In x l -> at_label eqb l x = [].
Proof.
  intros H. unfold at_label. destruct (filter _ _) as [|p r] eqn:E; auto. exfalso. apply H.
  assert (Hp : In p (p :: r)) by (left; auto). rewrite <- E in Hp. apply filter_In in Hp. destruct Hp as (_ & Hp).
  destruct (nth_error l p) as [z|] eqn:Ez; [|discriminate]. apply Heq in Hp. subst z. eapply nth_error_In; eauto.
Qed.
Lemma labels_list l xs ps : NoDup l -> Forall2 (fun x p => nth_error l p = Some x) xs ps ->
  exists pss, mapm (fun x => match at_label eqb l x with [] => Err KeyError | ps => Ok ps end) xs = Ok pss /\ List.concat pss = ps.
Proof.
  intros N. induction 1 as [|x p xs ps H F (pss & E1 & E2)]; [exists []; auto|].
  exists ([p] :: pss). cbn [mapm]. rewrite (at_label_one _ _ _ N H). cbn [rbind]. rewrite E1. cbn. rewrite E2. auto.
Qed.

Context (ltb : A -> A -> bool).
(** What a range of labels must mean. *)
Definition range_ok (l : list A) (range : option A -> option A -> nat -> Prop) (a b : option A) : Prop :=
  exists lo hi, left_end eqb ltb l a = Ok lo /\ right_end eqb ltb l b = Ok hi /\ forall p, range a b p <-> (lo <= p < hi)%nat.

Lemma other_key_ok (l : list A) range (k : lkey A) ps : NoDup l -> labels_ask range l k ps ->
  (forall a b, k = LRange a b -> range_ok l range a b) ->
  other_key eqb ltb l k = match k with LAll => Ok all_slice | _ => contig_slice (map Z.of_nat ps) end.
Proof.
  intros N L R. destruct k as [|x|xs|a b|m]; cbn [other_key labels_ask] in *; auto.
  - destruct L as (p & -> & E). rewrite (at_label_one _ _ _ N E). reflexivity.
  - destruct (labels_list l xs ps N L) as (pss & -> & <-). reflexivity.
  - destruct (R a b eq_refl) as (lo & hi & -> & -> & H). cbn [rbind].
    replace ps with (seq lo (hi - lo)); auto. apply (where_unique (range a b)); auto.
    apply (where_ext (fun p => lo <= p < lo + (hi - lo))%nat); [|apply where_seq]. intros p. rewrite H. lia.
  - destruct L as (_ & L). rewrite (where_unique _ _ _ L (where_true_ok m)). reflexivity.
Qed.
Lemma labels_in (l : list A) range (k : lkey A) ps x : labels_ask range l k ps -> (forall a b p, range a b p -> (p < List.length l)%nat) -> In x ps -> (x < List.length l)%nat.
Proof.
  intros L R Hx. destruct k as [|y|xs|a b|m]; cbn [labels_ask] in *.
  - subst ps. apply in_seq in Hx. lia.
  - destruct L as (p & -> & E). destruct Hx as [<-|[]]. apply nth_error_Some. congruence.
  - revert Hx. induction L as [|y p xs ps H F IH]; intros []; [subst; apply nth_error_Some; congruence|auto].
  - destruct L as (_ & L). apply L in Hx. eauto.
  - destruct L as (E & L). rewrite <- E. destruct L as (_ & L). apply L in Hx. apply nth_error_Some. congruence.
Qed.
End Axis.

(** Ranges of dates and ages. *)
Lemma below_spec l x q z : StronglySorted Z.lt l -> nth_error l q = Some z -> (q < below Z.ltb l x)%nat <-> z < x.
Proof.
  intros H. revert q. induction H as [|y l H IH F]; intros q E; [destruct q; discriminate|]. unfold below. cbn [filter].
  destruct (Z.ltb_spec y x) as [L|L].
  - destruct q as [|q]; cbn in E |- *; [injection E as ->; split; intros; lia|]. rewrite <- (IH q E). unfold below. lia.
  - assert (E0 : filter (fun z => z <? x) l = []).
    { destruct (filter _ l) as [|w r] eqn:Ef; auto. assert (Hw : In w (w :: r)) by (left; auto). rewrite <- Ef in Hw. apply filter_In in Hw.
      destruct Hw as (Hw & Hl). apply Z.ltb_lt in Hl. rewrite Forall_forall in F. specialize (F w Hw). lia. }
    rewrite E0. cbn. split; [lia|]. intros Hz. exfalso. destruct q as [|q]; cbn in E; [injection E as ->; lia|].
    rewrite Forall_forall in F. specialize (F z (nth_error_In _ _ E)). lia.
Qed.
Lemma increasing_sorted l : StronglySorted Z.lt l -> increasing Z.ltb l = true.
Proof.
  induction 1 as [|y l H IH F]; auto. destruct l as [|z l]; auto. cbn [increasing]. rewrite Forall_forall in F.
  apply andb_true_iff; split; auto. apply Z.ltb_lt. apply F. left; auto.
Qed.
Lemma sorted_nth_lt l p q x z : StronglySorted Z.lt l -> nth_error l p = Some x -> nth_error l q = Some z -> (p < q)%nat -> x < z.
Proof.
  intros H. revert p q. induction H as [|y l H IH F]; intros p q Ep Eq L; [destruct p; discriminate|].
  destruct q as [|q]; [lia|]. cbn in Eq. destruct p as [|p]; cbn in Ep.
  - injection Ep as <-. rewrite Forall_forall in F. apply F. eapply nth_error_In; eauto.
  - eapply IH; eauto. lia.
Qed.
Lemma sorted_Z_NoDup l : StronglySorted Z.lt l -> NoDup l.
Proof. induction 1 as [|y l H IH F]; constructor; auto. intros Hy. rewrite Forall_forall in F. specialize (F y Hy). lia. Qed.
Lemma below_le {A} (ltb : A -> A -> bool) l x : (below ltb l x <= List.length l)%nat.
Proof. unfold below. induction l as [|y l IH]; auto. cbn [filter]. destruct (ltb y x); cbn; lia. Qed.

Lemma dates_ok l a b : StronglySorted Z.lt l -> range_ok Z.eqb Z.ltb l (dates_from_to l) a b.
Proof.
  intros H. pose proof (sorted_Z_NoDup l H) as N.
  assert (Lo : exists lo, left_end Z.eqb Z.ltb l a = Ok lo /\ forall q z, nth_error l q = Some z -> ((lo <= q)%nat <-> match a with Some x => x <= z | None => True end)).
  { destruct a as [x|]; cbn [left_end]; [|exists 0%nat; split; auto; intros; split; intros; auto; lia].
    destruct (in_dec Z.eq_dec x l) as [Hi|Hn].
    - apply In_nth_error in Hi. destruct Hi as (p & Ep). rewrite (at_label_one Z.eqb Z.eqb_eq l p x N Ep). exists p. split; auto.
      intros q z Eq. destruct (Nat.lt_trichotomy q p) as [L|[->|L]].
      + pose proof (sorted_nth_lt l q p z x H Eq Ep L). lia.
      + assert (x = z) by congruence. split; intros; lia.
      + pose proof (sorted_nth_lt l p q x z H Ep Eq L). split; intros; lia.
    - rewrite at_label_none by (auto; apply Z.eqb_eq). rewrite increasing_sorted by auto. eexists. split; [reflexivity|].
      intros q z Eq. pose proof (below_spec l x q z H Eq). assert (z <> x) by (intros ->; apply Hn; eapply nth_error_In; eauto). lia. }
  assert (Hi : exists hi, right_end Z.eqb Z.ltb l b = Ok hi /\ (hi <= List.length l)%nat /\ forall q z, nth_error l q = Some z -> ((q < hi)%nat <-> match b with Some x => z <= x | None => True end)).
  { destruct b as [x|]; cbn [right_end].
    2:{ exists (List.length l). split; auto. split; auto. intros q z Eq. split; auto. intros _. apply nth_error_Some. congruence. }
    destruct (in_dec Z.eq_dec x l) as [Hi|Hn].
    - apply In_nth_error in Hi. destruct Hi as (p & Ep). rewrite (at_label_one Z.eqb Z.eqb_eq l p x N Ep). exists (S p). split; auto.
      split; [assert (p < List.length l)%nat by (apply nth_error_Some; congruence); lia|].
      intros q z Eq. destruct (Nat.lt_trichotomy q p) as [L|[->|L]].
      + pose proof (sorted_nth_lt l q p z x H Eq Ep L). split; intros; lia.
      + assert (x = z) by congruence. split; intros; lia.
      + pose proof (sorted_nth_lt l p q x z H Ep Eq L). split; intros; lia.
    - rewrite at_label_none by (auto; apply Z.eqb_eq). rewrite increasing_sorted by auto. eexists. split; [reflexivity|]. split; [apply below_le|].
      intros q z Eq. pose proof (below_spec l x q z H Eq). assert (z <> x) by (intros ->; apply Hn; eapply nth_error_In; eauto). lia. }
  destruct Lo as (lo & E1 & H1), Hi as (hi & E2 & Hl & H2). exists lo, hi. split; auto. split; auto. intros p. unfold dates_from_to. split.
  - intros (x & Ex & Ha & Hb). split; [eapply H1|eapply H2]; eauto.
  - intros (Ha & Hb). destruct (nth_error l p) as [x|] eqn:Ex; [|apply nth_error_None in Ex; lia]. exists x. split; auto.
    split; [apply (H1 p x)|apply (H2 p x)]; auto.
Qed.
Lemma dates_lt l a b p : dates_from_to l a b p -> (p < List.length l)%nat.
Proof. intros (x & E & _). apply nth_error_Some. congruence. Qed.

(** Ranges of names. *)
Lemma names_ok ltb l a b : NoDup l -> are_labels l (LRange a b) -> range_ok String.eqb ltb l (names_from_to l) a b.
Proof.
  intros N (La & Lb). unfold range_ok.
  assert (Lo : exists lo, left_end String.eqb ltb l a = Ok lo /\ forall p, match a with Some x => exists q, nth_error l q = Some x /\ (q <= p)%nat | None => True end <-> (lo <= p)%nat).
  { destruct a as [x|]; cbn [left_end]; [|exists 0%nat; split; auto; intros; split; intros; auto; lia].
    destruct (In_nth_error _ _ (La x eq_refl)) as (q & Eq). rewrite (at_label_one String.eqb String.eqb_eq l q x N Eq). exists q. split; auto.
    intros p. split; [|intros; eauto]. intros (r & Er & Hr). rewrite NoDup_nth_error in N. assert (q = r) by (apply N; [apply nth_error_Some; congruence|congruence]). lia. }
  assert (Hi : exists hi, right_end String.eqb ltb l b = Ok hi /\ (hi <= List.length l)%nat /\ forall p, (p < List.length l)%nat /\ match b with Some x => exists q, nth_error l q = Some x /\ (p <= q)%nat | None => True end <-> (p < hi)%nat).
  { destruct b as [x|]; cbn [right_end]; [|exists (List.length l); split; auto; split; auto; intros; tauto].
    destruct (In_nth_error _ _ (Lb x eq_refl)) as (q & Eq). rewrite (at_label_one String.eqb String.eqb_eq l q x N Eq). exists (S q). split; auto.
    assert (q < List.length l)%nat by (apply nth_error_Some; congruence). split; [lia|].
    intros p. split; [|intros; split; [lia|exists q; split; auto; lia]]. intros (_ & r & Er & Hr). rewrite NoDup_nth_error in N.
    assert (q = r) by (apply N; [auto|congruence]). lia. }
  destruct Lo as (lo & E1 & H1), Hi as (hi & E2 & _ & H2). exists lo, hi. split; auto. split; auto.
  intros p. unfold names_from_to. rewrite H1. split.
  - intros (A & B & C). split; auto. apply H2. auto.
  - intros (A & B). apply H2 in B. tauto.
Qed.
Lemma names_lt l a b p : names_from_to l a b p -> (p < List.length l)%nat.
Proof. intros (H & _). auto. Qed.

(** * The index *)

Lemma leads_ok xs k : leads xs k = true <-> exists r, k = xs ++ r.
Proof.
  revert k. induction xs as [|x xs IH]; intros k; cbn [leads app]; [split; eauto|]. destruct k as [|z k]; [split; [discriminate|intros (r & H); discriminate]|].
  rewrite andb_true_iff, String.eqb_eq, IH. split.
  - intros (-> & r & ->). eauto.
  - intros (r & [= -> ->]). eauto.
Qed.
Lemma index_key_ok t k ps : NoDup (kdims t) -> named_rows t -> index_asks (kdims t) k ps -> ps <> [] -> index_key t k = Ok ps.
Proof.
  intros N Nm H Hne. destruct k as [|x|xs|ks|m]; cbn [index_key index_asks] in *.
  - subst; auto.
  - f_equal. refine (where_unique _ _ _ _ H). apply filter_where. intros p. unfold row_key. split.
    + intros (r & E). split; [apply nth_error_Some; congruence|]. rewrite (nth_error_nth _ _ [] E). cbn. apply String.eqb_refl.
    + intros (Hp & E). pose proof (nth_error_nth' (kdims t) [] Hp) as En. apply String.eqb_eq in E.
      destruct (nth p (kdims t) []) as [|z r] eqn:Ek; [exfalso; apply (Nm []); [eapply nth_error_In; eauto|auto]|]. cbn in E. subst z. eauto.
  - replace (filter (fun i => leads xs (row_key t i)) (seq 0 (List.length (kdims t)))) with ps.
    + destruct ps; [congruence|reflexivity].
    + refine (where_unique _ _ _ H _). apply filter_where. intros p. unfold row_key. split.
      * intros (r & E). split; [apply nth_error_Some; congruence|]. rewrite (nth_error_nth _ _ [] E). apply leads_ok. eauto.
      * intros (Hp & E). pose proof (nth_error_nth' (kdims t) [] Hp) as En. apply leads_ok in E. destruct E as (r & E). rewrite E in En. eauto.
  - assert (G : exists pss, mapm (fun k => match rows_with t k with [] => Err KeyError | l => Ok l end) ks = Ok pss /\ List.concat pss = ps).
    { clear Hne. induction H as [|k p ks ps H F (pss & E1 & E2)]; [exists []; auto|].
      assert (E : rows_with t k = [p]).
      { apply (where_unique (fun q => q = p)); [|split; [repeat constructor|intros q; cbn; intuition]].
        apply filter_where. intros q. unfold row_key. rewrite strs_eqb_eq. split.
        - intros ->. split; [apply nth_error_Some; congruence|]. apply nth_error_nth; auto.
        - intros (Hq & E). pose proof (nth_error_nth' (kdims t) [] Hq) as En. rewrite NoDup_nth_error in N. apply N; [auto|congruence]. }
      exists ([p] :: pss). cbn [mapm]. rewrite E. cbn [rbind]. rewrite E1. cbn. rewrite E2. auto. }
    destruct G as (pss & -> & <-). reflexivity.
  - destruct H as (_ & H). f_equal. apply (where_unique _ _ _ (where_true_ok m) H).
Qed.
Lemma index_in ks k ps x : index_asks ks k ps -> In x ps -> (x < List.length ks)%nat.
Proof.
  intros H Hx. destruct k as [|y|xs|l|m]; cbn [index_asks] in *.
  - subst. apply in_seq in Hx. lia.
  - apply H in Hx. destruct Hx as (r & E). apply nth_error_Some. congruence.
  - apply H in Hx. destruct Hx as (r & E). apply nth_error_Some. congruence.
  - revert Hx. induction H as [|k p l ps H F IH]; intros []; [subst; apply nth_error_Some; congruence|auto].
  - destruct H as (<- & H). apply H in Hx. apply nth_error_Some. congruence.
Qed.

(** * loc *)

Lemma norm_list ps n : (forall x, In x ps -> (x < n)%nat) -> norm_key (KList (map Z.of_nat ps)) n = contig_slice (map Z.of_nat ps).
Proof.
  intros H. cbn [norm_key]. rewrite (posify_all_ok n (map Z.of_nat ps) ps); auto.
  induction ps as [|p ps IH]; cbn [map]; constructor; [|apply IH; intros; apply H; right; auto]. split; [apply H; left; auto|auto].
Qed.
Lemma norm_all n : norm_key (KSlice None None None) n = Ok all_slice.
Proof.
  unfold norm_key, normalize_slice, slice_triple, slice_bound, rbind.
  change (1 =? 0) with false. change (0 <? 1) with true. cbv iota beta zeta. change (0 <? 0) with false. rewrite Z.eqb_refl.
  destruct (-1 <? Z.of_nat n); reflexivity.
Qed.
Lemma asks_list ps n : (forall x, In x ps -> (x < n)%nat) -> asks_for (KList (map Z.of_nat ps)) n ps.
Proof.
  intros H. cbn [asks_for]. induction ps as [|p ps IH]; cbn [map]; constructor; [|apply IH; intros; apply H; right; auto]. split; [apply H; left; auto|auto].
Qed.
Lemma plain_list ps n : ps <> [] -> NoDup ps -> plain_key (KList (map Z.of_nat ps)) n ps.
Proof.
  intros H N. split; auto. destruct ps as [|a [|b ps]]; [congruence|left; auto|right]. exists 1%nat. split; [cbn; lia|]. cbn. intros ->.
  inversion N; subst. apply H2. left; auto.
Qed.
(** The positional indexer that stands for a label indexer. *)
Definition as_pos {A} (k : lkey A) (ps : list nat) : pkey := match k with LAll => KSlice None None None | _ => KList (map Z.of_nat ps) end.
Lemma as_pos_ok {A} range (l : list A) k ps n : n = List.length l -> labels_ask range l k ps -> (forall x, In x ps -> (x < n)%nat) -> ps <> [] -> NoDup ps ->
  asks_for (as_pos k ps) n ps /\ plain_key (as_pos k ps) n ps /\ (progression ps -> even_key (as_pos k ps) ps) /\
  norm_key (as_pos k ps) n = match k with LAll => Ok all_slice | _ => contig_slice (map Z.of_nat ps) end.
Proof.
  intros Hn L Hi Hne N.
  assert (G : asks_for (KList (map Z.of_nat ps)) n ps /\ plain_key (KList (map Z.of_nat ps)) n ps /\ (progression ps -> even_key (KList (map Z.of_nat ps)) ps) /\
    norm_key (KList (map Z.of_nat ps)) n = contig_slice (map Z.of_nat ps)).
  { split; [apply asks_list; auto|]. split; [apply plain_list; auto|]. split; [auto|]. apply norm_list; auto. }
  destruct k; cbn [as_pos]; auto. cbn [labels_ask] in L. subst ps n. split; [apply (positions_all (List.length l))|].
  split; [split; [auto|left; reflexivity]|]. split; [intros; exact I|]. apply norm_all.
Qed.

Lemma shared_first_ok ks : (forall k, In k ks -> k <> []) -> shared_first ks = true <-> first_shared ks.
Proof.
  intros Nm. unfold shared_first, first_shared. destruct ks as [|k [|k' ks]]; [split; [discriminate|cbn; intros (H & _); lia]|split; [discriminate|cbn; intros (H & _); lia]|].
  rewrite forallb_forall. split.
  - intros H. split; [cbn; lia|]. exists (hd EmptyString k). intros z [<-|Hz].
    + specialize (Nm k (or_introl eq_refl)). destruct k; [congruence|reflexivity].
    + specialize (H z Hz). apply String.eqb_eq in H. specialize (Nm z (or_intror Hz)). destruct z; [congruence|]. cbn in *. congruence.
  - intros (_ & x & H) z Hz. apply String.eqb_eq. pose proof (H k (or_introl eq_refl)). pose proof (H z (or_intror Hz)).
    destruct k, z; cbn in *; congruence.
Qed.
Lemma drop_first_ok w : (forall k, In k (kdims w) -> k <> []) -> without_shared_label w (drop_first w).
Proof.
  intros Nm. pose proof (shared_first_ok _ Nm) as S. unfold drop_first. destruct (shared_first (kdims w)); constructor; try (destruct w; reflexivity); auto.
  - intros H. exfalso. apply H. apply S. auto.
  - intros H. apply S in H. discriminate.
Qed.

Lemma loc_ok t ki kc ko kd p0 p1 p2 p3 : wf t -> uniq_labels t -> named_rows t ->
  index_asks (kdims t) ki p0 -> labels_ask (names_from_to (vdims t)) (vdims t) kc p1 ->
  labels_ask (dates_from_to (odims t)) (odims t) ko p2 -> labels_ask (dates_from_to (dlist (ddims t))) (dlist (ddims t)) kd p3 ->
  are_labels (vdims t) kc -> (by_position ko \/ origins_named t) -> (by_position kd \/ ages_named t) ->
  p0 <> [] -> p1 <> [] -> p2 <> [] -> p3 <> [] -> NoDup p0 -> NoDup p1 -> progression p2 -> progression p3 ->
  exists w u, loc t ki kc ko kd = Ok u /\ taken t w p0 p1 p2 p3 /\ (no_ultimate t -> latest_left t w p2 p3) /\ without_shared_label w u.
Proof.
  intros W (Uk & Uv) Nm A0 A1 A2 A3 Ac Ao Ad E0 E1 E2 E3 N0 N1 G2 G3.
  assert (N2 : NoDup p2) by (destruct G2 as (a & s & Hs & H); apply NoDup_nth with (d := 0%nat); intros i j Hi Hj E; pose proof (H i Hi); pose proof (H j Hj); rewrite E in *; nia).
  assert (N3 : NoDup p3) by (destruct G3 as (a & s & Hs & H); apply NoDup_nth with (d := 0%nat); intros i j Hi Hj E; pose proof (H i Hi); pose proof (H j Hj); rewrite E in *; nia).
  assert (I0 : forall x, In x p0 -> (x < ax0 (values t))%nat) by (intros x Hx; rewrite (wf_k _ W); eapply index_in; eauto).
  assert (I1 : forall x, In x p1 -> (x < ax1 (values t))%nat) by (intros x Hx; rewrite (wf_v _ W); eapply labels_in; eauto; apply names_lt).
  assert (I2 : forall x, In x p2 -> (x < ax2 (values t))%nat) by (intros x Hx; rewrite (wf_o _ W); eapply labels_in; eauto; apply dates_lt).
  assert (I3 : forall x, In x p3 -> (x < ax3 (values t))%nat) by (intros x Hx; rewrite (wf_d _ W); eapply labels_in; eauto; apply dates_lt).
  destruct (as_pos_ok _ _ kc p1 _ (wf_v _ W) A1 I1 E1 N1) as (B1 & C1 & _ & F1).
  destruct (as_pos_ok _ _ ko p2 _ (wf_o _ W) A2 I2 E2 N2) as (B2 & C2 & D2 & F2).
  destruct (as_pos_ok _ _ kd p3 _ (wf_d _ W) A3 I3 E3 N3) as (B3 & C3 & D3 & F3).
  destruct (iloc_ok t (KList (map Z.of_nat p0)) (as_pos kc p1) (as_pos ko p2) (as_pos kd p3) p0 p1 p2 p3 W) as (w & Ew & Tw & Lw); auto using asks_list, plain_list.
  exists w, (drop_first w). split; [|split; [auto|split; [auto|]]].
  - unfold loc. rewrite (index_key_ok t ki p0) by auto. cbn [rbind].
    rewrite (other_key_ok String.eqb String.eqb_eq str_ltb (vdims t) (names_from_to (vdims t)) kc p1) by (auto; intros a b ->; apply names_ok; auto).
    assert (K2 : origin_key t ko = match ko with LAll => Ok all_slice | _ => contig_slice (map Z.of_nat p2) end).
    { rewrite <- (other_key_ok Z.eqb Z.eqb_eq Z.ltb (odims t) (dates_from_to (odims t)) ko p2) by (auto using sorted_Z_NoDup, wf_osort; intros; apply dates_ok; apply W).
      unfold origin_key. destruct ko; auto; destruct Ao as [[]|[->|Ho]]; auto;
      (replace (List.length (odims t) =? 1)%nat with false; [rewrite andb_false_r; auto|]; rewrite <- (wf_o _ W); destruct (Nat.eqb_spec (ax2 (values t)) 1); auto; lia). }
    assert (K3 : dev_key t kd = match kd with LAll => Ok all_slice | _ => contig_slice (map Z.of_nat p3) end).
    { rewrite <- (other_key_ok Z.eqb Z.eqb_eq Z.ltb (dlist (ddims t)) (dates_from_to (dlist (ddims t))) kd p3) by (auto using sorted_Z_NoDup, wf_dsort; intros; apply dates_ok; apply W).
      unfold dev_key. destruct kd; auto; destruct Ad as [[]|(Hp & Hd)]; destruct (ddims t); try contradiction; rewrite Hp; auto. }
    rewrite K2, K3. unfold iloc in Ew. rewrite norm_list, F1, F2, F3 in Ew by auto. destruct (contig_slice (map Z.of_nat p0)); cbn [rbind] in *.
    + destruct (match kc with LAll => _ | _ => _ end); cbn [rbind] in *; [|discriminate]. destruct (match ko with LAll => _ | _ => _ end); cbn [rbind] in *; [|discriminate].
      destruct (match kd with LAll => _ | _ => _ end); cbn [rbind] in *; [|discriminate]. rewrite Ew. reflexivity.
    + discriminate.
  - apply drop_first_ok. intros k Hk. rewrite (tk_k _ _ _ _ _ _ Tw) in Hk. apply in_map_iff in Hk. destruct Hk as (p & <- & Hp). apply Nm. apply nth_In. rewrite <- (wf_k _ W). auto.
Qed.
