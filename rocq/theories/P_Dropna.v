From Coq Require Import List ZArith QArith Qcanon Bool Lia String Sorting.Sorted.
From Verif Require Import Num NumFacts Arr Tri ArrFacts Spec TriFacts SliceFacts P_Core Arith Pandas SpecPandas.
Import ListNotations.
Local Open Scope Z_scope.

Lemma first_true_some l k : first_true l = Some k ->
  (k < List.length l)%nat /\ nth k l false = true /\ forall j, (j < k)%nat -> nth j l false = false.
Proof.
  revert k; induction l as [|b l IH]; intros k H; [discriminate|]. destruct b; cbn in H.
  - injection H as <-. cbn. split; [lia|]. split; [reflexivity|]. intros; lia.
  - destruct (first_true l) as [m|] eqn:E; [|discriminate]. injection H as <-. destruct (IH m eq_refl) as (A & B & C).
    cbn. repeat split; auto; try lia. intros [|j] Hj; auto. apply C; lia.
Qed.
Lemma first_true_none l : first_true l = None -> forall j, nth j l false = false.
Proof.
  induction l as [|b l IH]; intros H j; [destruct j; auto|]. destruct b; cbn in H; [discriminate|].
  destruct (first_true l) eqn:E; [discriminate|]. destruct j; auto. apply IH; auto.
Qed.
Lemma last_true_some l k : last_true l = Some k ->
  (k < List.length l)%nat /\ nth k l false = true /\ forall j, (k < j)%nat -> nth j l false = false.
Proof.
  unfold last_true. destruct (first_true (rev l)) as [m|] eqn:E; [|discriminate]. cbn. intros [= <-].
  destruct (first_true_some _ _ E) as (A & B & C). rewrite rev_length in A. repeat split; try lia.
  - rewrite rev_nth in B by lia. replace (List.length l - 1 - m)%nat with (List.length l - S m)%nat by lia. auto.
  - intros j Hj. destruct (Nat.ltb_spec j (List.length l)); [|apply nth_overflow; lia].
    specialize (C (List.length l - S j)%nat). rewrite rev_nth in C by lia.
    replace (List.length l - S (List.length l - S j))%nat with j in C by lia. apply C. lia.
Qed.
Lemma last_true_none l : last_true l = None -> forall j, nth j l false = false.
Proof.
  unfold last_true. destruct (first_true (rev l)) as [m|] eqn:E; [discriminate|]. intros _ j.
  destruct (Nat.ltb_spec j (List.length l)); [|apply nth_overflow; lia].
  pose proof (first_true_none _ E (List.length l - S j)%nat) as C. rewrite rev_nth in C by lia.
  replace (List.length l - S (List.length l - S j))%nat with j in C by lia. auto.
Qed.
Lemma filter_false {A} (f : A -> bool) l : (forall x, In x l -> f x = false) -> filter f l = [].
Proof. induction l as [|x l IH]; intros H; auto. cbn. rewrite H by (left; auto). apply IH. intros; apply H; right; auto. Qed.
Lemma filter_true {A} (f : A -> bool) l : (forall x, In x l -> f x = true) -> filter f l = l.
Proof. induction l as [|x l IH]; intros H; auto. cbn. rewrite H by (left; auto). f_equal. apply IH. intros; apply H; right; auto. Qed.
Lemma filter_block key lo m n : (lo + m <= n)%nat ->
  (forall k, (k < n)%nat -> key k = ((lo <=? k) && (k <? lo + m))%nat) -> filter key (seq 0 n) = seq lo m.
Proof.
  intros H K. replace n with (lo + (m + (n - lo - m)))%nat by lia.
  rewrite !seq_app, !filter_app. cbn [Nat.add].
  rewrite (filter_false key (seq 0 lo)), (filter_true key (seq lo m)), (filter_false key (seq (lo + m) (n - lo - m))).
  - cbn. apply app_nil_r.
  - intros x Hx. apply in_seq in Hx. rewrite K by lia. destruct (Nat.leb_spec lo x), (Nat.ltb_spec x (lo + m)); auto; lia.
  - intros x Hx. apply in_seq in Hx. rewrite K by lia. destruct (Nat.leb_spec lo x), (Nat.ltb_spec x (lo + m)); auto; lia.
  - intros x Hx. apply in_seq in Hx. rewrite K by lia. destruct (Nat.leb_spec lo x), (Nat.ltb_spec x (lo + m)); auto; lia.
Qed.
Lemma contig_block lo m : (1 <= m)%nat -> exists s, contig_slice (map Z.of_nat (seq lo m)) = Ok s /\ is_slice s = true.
Proof.
  intros H. destruct (contig_ap lo 1 m ltac:(lia) H) as (s & E & I). exists s. split; auto. rewrite <- E. f_equal. f_equal.
  clear. revert lo; induction m as [|m IH]; intros lo; auto. cbn [seq map]. f_equal; [lia|].
  rewrite IH, <- seq_shift, map_map. apply map_ext. intros; lia.
Qed.
Lemma slice_origin_block t key lo m : (1 <= m)%nat -> (lo + m <= ax2 (values t))%nat ->
  (forall k, (k < ax2 (values t))%nat -> key k = ((lo <=? k) && (k <? lo + m))%nat) ->
  slice_origin t key = Ok (sel_tri t (seq 0 (ax0 (values t))) (seq 0 (ax1 (values t))) (seq lo m) (seq 0 (ax3 (values t)))).
Proof.
  intros Hm Hl K. unfold slice_origin. rewrite (filter_block key lo m) by auto.
  destruct (contig_block lo m Hm) as (s & E & I). rewrite E. cbn [rbind]. destruct s; [|discriminate].
  rewrite (contig_slice_positions (seq lo m) (ax2 (values t)) _ E); [reflexivity|apply seq_NoDup|].
  intros x Hx. apply in_seq in Hx. lia.
Qed.
Lemma slice_dev_block t key lo m : (1 <= m)%nat -> (lo + m <= ax3 (values t))%nat ->
  (forall k, (k < ax3 (values t))%nat -> key k = ((lo <=? k) && (k <? lo + m))%nat) ->
  slice_dev t key = Ok (sel_tri t (seq 0 (ax0 (values t))) (seq 0 (ax1 (values t))) (seq 0 (ax2 (values t))) (seq lo m)).
Proof.
  intros Hm Hl K. unfold slice_dev. rewrite (filter_block key lo m) by auto.
  destruct (contig_block lo m Hm) as (s & E & I). rewrite E. cbn [rbind].
  rewrite (contig_slice_positions (seq lo m) (ax3 (values t)) _ E); [reflexivity|apply seq_NoDup|].
  intros x Hx. apply in_seq in Hx. lia.
Qed.
Lemma sel_block {A} (l : list A) d lo m : (lo + m <= List.length l)%nat -> sel l d (seq lo m) = firstn m (skipn lo l).
Proof.
  intros H. rewrite <- (firstn_skipn lo l) at 1. unfold sel.
  rewrite <- (sel_firstn (skipn lo l) d m) by (rewrite skipn_length; lia). unfold sel.
  replace (seq lo m) with (map (fun k => lo + k)%nat (seq 0 m)).
  - rewrite map_map. apply map_ext. intros k. rewrite app_nth2; rewrite firstn_length_le by lia; [|lia]. f_equal. lia.
  - clear. revert lo; induction m as [|m IH]; intros lo; auto. cbn [seq map]. f_equal; [lia|].
    rewrite <- (IH (S lo)), <- seq_shift, map_map. apply map_ext. intros; lia.
Qed.
Lemma sel_tri_block t lo m dlo dm : wf t -> (lo + m <= ax2 (values t))%nat -> (dlo + dm <= ax3 (values t))%nat ->
  block_of t (sel_tri t (seq 0 (ax0 (values t))) (seq 0 (ax1 (values t))) (seq lo m) (seq dlo dm)) lo m dlo dm.
Proof.
  intros W H2 H3. constructor; cbn [sel_tri values kdims key_labels vdims odims ddims vdate is_cumulative is_pattern ograin dgrain]; auto.
  - intros i c o d (Hi & Hc & Ho & Hd). cbn in Hi, Hc, Ho, Hd. rewrite !seq_length in *. unfold cel. cbn.
    rewrite !seq_nth by auto. reflexivity.
  - cbn. apply seq_length.
  - cbn. apply seq_length.
  - cbn. apply seq_length.
  - cbn. apply seq_length.
  - apply sel_seq_all. apply W.
  - apply sel_seq_all. apply W.
  - apply sel_block. rewrite <- (wf_o _ W); auto.
  - pose proof (wf_d _ W) as L. destruct (ddims t) as [l|l]; cbn in *; f_equal; apply sel_block; rewrite <- L; auto.
Qed.

Definition dsum (t : tri) := values (sum_axis (sum_axis t AxIndex) AxColumn).
Lemma dsum_2 t : ax2 (dsum t) = ax2 (values t).
Proof. unfold dsum, sum_axis. repeat match goal with |- context [if ?b then _ else _] => destruct b end; reflexivity. Qed.
Lemma dsum_3 t : ax3 (dsum t) = ax3 (values t).
Proof. unfold dsum, sum_axis. repeat match goal with |- context [if ?b then _ else _] => destruct b end; reflexivity. Qed.
Lemma dsum_av t o d : nz (av (dsum t) 0%nat 0%nat o d) = sumn (ax1 (values t)) (fun c => sumn (ax0 (values t)) (fun i => amount t i c o d)).
Proof.
  unfold dsum, sum_axis. repeat match goal with |- context [if ?b then _ else _] => destruct b end; cbn [values set_values set_kdims set_vdims set_odims];
    cbn -[nansum n2n]; rewrite nz_n2n; cbn [nz]; unfold nansum; apply sumn_ext; intros c Hc; rewrite nz_n2n; cbn [nz]; reflexivity.
Qed.
Lemma swap3 n m p (f : nat -> nat -> nat -> Qc) :
  sumn n (fun d => sumn m (fun c => sumn p (fun i => f i c d))) = sumn p (fun i => sumn m (fun c => sumn n (fun d => f i c d))).
Proof.
  rewrite (sumn_ext n _ (fun d => sumn p (fun i => sumn m (fun c => f i c d)))) by (intros; apply sumn_swap).
  rewrite sumn_swap. apply sumn_ext. intros i Hi. apply sumn_swap.
Qed.
Lemma dsum_origin t o : nansum (ax3 (dsum t)) (fun d => av (dsum t) 0%nat 0%nat o d) = origin_total t o.
Proof. unfold nansum, origin_total. rewrite dsum_3. rewrite (sumn_ext _ _ _ (fun d _ => dsum_av t o d)). apply swap3. Qed.
Lemma dsum_age t d : nansum (ax2 (dsum t)) (fun o => av (dsum t) 0%nat 0%nat o d) = age_total t d.
Proof. unfold nansum, age_total. rewrite dsum_2. rewrite (sumn_ext _ _ _ (fun o _ => dsum_av t o d)). apply swap3. Qed.

(** What the bounds on the labels select. *)
Lemma label_block (l : list Z) n lo hi k : StronglySorted Z.lt l -> n = List.length l -> (lo <= hi < n)%nat -> (k < n)%nat ->
  (nth lo l 0 <=? nth k l 0) && (nth k l 0 <=? nth hi l 0) = ((lo <=? k) && (k <? lo + (hi - lo + 1)))%nat.
Proof.
  intros S -> H Hk.
  assert (A : (nth lo l 0 <=? nth k l 0) = (lo <=? k)%nat).
  { destruct (Nat.leb_spec lo k).
    - apply Z.leb_le, sorted_nth_le; auto.
    - apply Z.leb_gt, sorted_nth_lt; auto. lia. }
  assert (B : (nth k l 0 <=? nth hi l 0) = (k <? lo + (hi - lo + 1))%nat).
  { destruct (Nat.ltb_spec k (lo + (hi - lo + 1))).
    - apply Z.leb_le, sorted_nth_le; auto. lia.
    - apply Z.leb_gt, sorted_nth_lt; auto. lia. }
  rewrite A, B. reflexivity.
Qed.
Lemma nth_map0 {A} (f : nat -> A) n k d : (k < n)%nat -> nth k (map f (seq 0 n)) d = f k.
Proof. intros H. rewrite (nth_indep _ _ (f 0%nat)) by (rewrite map_length, seq_length; auto). rewrite map_nth, seq_nth; auto. Qed.

Lemma dropna_ok t : wf t -> is_pattern t = false -> (2 <= ax2 (values t) \/ 2 <= ax3 (values t))%nat ->
  (exists o, (o < ax2 (values t))%nat /\ origin_total t o <> 0%Qc) ->
  (exists d, (d < ax3 (values t))%nat /\ age_total t d <> 0%Qc) ->
  exists u lo no dlo nd, dropna t = Ok u /\ block_of t u lo no dlo nd /\
    trims (origin_total t) (ax2 (values t)) lo no /\ trims (age_total t) (ax3 (values t)) dlo nd.
Proof.
  intros W NP N (o1 & Ho1 & To1) (d1 & Hd1 & Td1). unfold dropna. fold (dsum t). rewrite NP. cbn [negb].
  rewrite dsum_2, dsum_3.
  replace ((ax2 (values t) =? 1)%nat && (ax3 (values t) =? 1)%nat) with false
    by (destruct (Nat.eqb_spec (ax2 (values t)) 1), (Nat.eqb_spec (ax3 (values t)) 1); auto; lia).
  set (orow := map _ (seq 0 (ax2 (values t)))).
  assert (R : forall o, (o < ax2 (values t))%nat -> nth o orow false = negb (Qc_eqb (origin_total t o) 0%Qc)).
  { intros o Ho. unfold orow. rewrite nth_map0 by auto. rewrite <- (dsum_3 t), dsum_origin. reflexivity. }
  assert (Lr : List.length orow = ax2 (values t)) by (unfold orow; rewrite map_length, seq_length; auto).
  assert (RN : forall o, (o < ax2 (values t))%nat -> (nth o orow false = true <-> origin_total t o <> 0%Qc)).
  { intros o Ho. rewrite R by auto. destruct (Qc_eqb_spec (origin_total t o) 0%Qc); cbn; split; congruence. }
  assert (RZ : forall o, (o < ax2 (values t))%nat -> nth o orow false = false -> origin_total t o = 0%Qc).
  { intros o Ho. rewrite R by auto. destruct (Qc_eqb_spec (origin_total t o) 0%Qc); cbn; congruence. }
  clearbody orow.
  destruct (first_true orow) as [lo|] eqn:Ef; [|exfalso; apply To1, RZ; auto; apply first_true_none; auto].
  destruct (last_true orow) as [hi|] eqn:El; [|exfalso; apply To1, RZ; auto; apply last_true_none; auto].
  destruct (first_true_some _ _ Ef) as (Hlo & Tlo & Zlo). destruct (last_true_some _ _ El) as (Hhi & Thi & Zhi).
  rewrite Lr in Hlo, Hhi.
  assert (Hlh : (lo <= hi)%nat).
  { destruct (Nat.leb_spec lo hi); auto. rewrite Zlo in Thi by auto. discriminate. }
  assert (TO : trims (origin_total t) (ax2 (values t)) lo (hi - lo + 1)).
  { split; [lia|]. split; [apply RN; auto|]. replace (lo + (hi - lo + 1) - 1)%nat with hi by lia. split; [apply RN; auto|].
    intros k Hk [Hl|Hl]; apply RZ; auto. apply Zhi. lia. }
  set (okey := fun o => (nth lo (odims t) 0 <=? nth o (odims t) 0) && (nth o (odims t) 0 <=? nth hi (odims t) 0)).
  assert (KO : forall k, (k < ax2 (values t))%nat -> okey k = ((lo <=? k) && (k <? lo + (hi - lo + 1)))%nat).
  { intros k Hk. unfold okey. apply label_block with (n := ax2 (values t)); auto; try apply W; lia. }
  clearbody okey.
  destruct (Nat.eqb_spec (ax3 (values t)) 1) as [E1|E1].
  - rewrite (slice_origin_block t okey lo (hi - lo + 1)) by (auto; lia).
    eexists _, lo, (hi - lo + 1)%nat, 0%nat, (ax3 (values t)). split; [reflexivity|]. split; [apply sel_tri_block; auto; lia|]. split; auto.
    assert (d1 = 0%nat) by lia. subst. rewrite E1. split; [lia|]. split; auto. split; auto. intros; lia.
  - set (dcol := filter _ (seq 0 (ax3 (values t)))).
    assert (D : forall d, In d dcol <-> ((d < ax3 (values t))%nat /\ age_total t d <> 0%Qc)).
    { intros d. unfold dcol. rewrite filter_In, in_seq. rewrite <- (dsum_2 t), dsum_age.
      destruct (Qc_eqb_spec (age_total t d) 0%Qc); cbn; split; intros []; split; try lia; congruence. }
    clearbody dcol. destruct dcol as [|d0 ds]; [destruct (proj2 (D d1) (conj Hd1 Td1))|].
    set (l := dlist (ddims t)).
    assert (Im : exists dm, In dm (d0 :: ds) /\ zminl (map (fun d => nth d l 0) ds) (nth d0 l 0) = nth dm l 0).
    { destruct (zminl_in (map (fun d => nth d l 0) ds) (nth d0 l 0)) as [E|E]; [exists d0; split; [left|]; auto|].
      apply in_map_iff in E. destruct E as (dm & E & I). exists dm. split; [right|]; auto. }
    assert (IM : exists dm, In dm (d0 :: ds) /\ zmaxl (map (fun d => nth d l 0) ds) (nth d0 l 0) = nth dm l 0).
    { destruct (zmaxl_in (map (fun d => nth d l 0) ds) (nth d0 l 0)) as [E|E]; [exists d0; split; [left|]; auto|].
      apply in_map_iff in E. destruct E as (dm & E & I). exists dm. split; [right|]; auto. }
    assert (Am : forall d, In d (d0 :: ds) -> zminl (map (fun d => nth d l 0) ds) (nth d0 l 0) <= nth d l 0).
    { intros d Hd. apply zminl_le. destruct Hd as [<-|Hd]; [left; auto|right]. apply in_map_iff. eauto. }
    assert (AM : forall d, In d (d0 :: ds) -> nth d l 0 <= zmaxl (map (fun d => nth d l 0) ds) (nth d0 l 0)).
    { intros d Hd. apply zmaxl_ge. destruct Hd as [<-|Hd]; [left; auto|right]. apply in_map_iff. eauto. }
    destruct Im as (a & Ia & Ea), IM as (b & Ib & Eb). rewrite Ea in *. rewrite Eb in *.
    assert (Sl : StronglySorted Z.lt l) by apply W. assert (Ll : ax3 (values t) = List.length l) by apply W.
    pose proof (proj1 (D a) Ia) as (Ha & Ta). pose proof (proj1 (D b) Ib) as (Hb & Tb).
    assert (Hab : (a <= b)%nat).
    { destruct (Nat.leb_spec a b); auto. pose proof (sorted_nth_lt l b a 0 Sl ltac:(lia)). specialize (Am b Ib). lia. }
    rewrite (slice_dev_block t _ a (b - a + 1)); [|lia|lia|].
    2: { intros k Hk. apply label_block with (n := ax3 (values t)); auto; lia. }
    cbn [rbind]. set (v := sel_tri t _ _ _ _).
    assert (V0 : ax0 (values v) = ax0 (values t)) by (cbn; apply seq_length).
    assert (V1 : ax1 (values v) = ax1 (values t)) by (cbn; apply seq_length).
    assert (V2 : ax2 (values v) = ax2 (values t)) by (cbn; apply seq_length).
    assert (V3 : ax3 (values v) = (b - a + 1)%nat) by (cbn; apply seq_length).
    rewrite (slice_origin_block v okey lo (hi - lo + 1)) by (rewrite ?V2; auto; lia).
    rewrite V0, V1, V3. eexists _, lo, (hi - lo + 1)%nat, a, (b - a + 1)%nat. split; [reflexivity|].
    assert (EV : sel_tri v (seq 0 (ax0 (values t))) (seq 0 (ax1 (values t))) (seq lo (hi - lo + 1)) (seq 0 (b - a + 1)) =
                 sel_tri v (seq 0 (ax0 (values v))) (seq 0 (ax1 (values v))) (seq lo (hi - lo + 1)) (seq 0 (ax3 (values v)))) by (rewrite V0, V1, V3; auto).
    pose proof (sel_tri_block t 0 (ax2 (values t)) a (b - a + 1) W ltac:(lia) ltac:(lia)) as B. fold v in B.
    split.
    + constructor.
      * intros i c o d (Hi & Hc & Ho & Hd). cbn in Hi, Hc, Ho, Hd. rewrite !seq_length in *. unfold cel. cbn.
        rewrite !seq_nth by (rewrite ?seq_nth by auto; lia). rewrite ?seq_nth by lia. f_equal.
      * cbn. rewrite seq_length. auto.
      * cbn. rewrite seq_length. auto.
      * cbn. rewrite seq_length. auto.
      * cbn. rewrite seq_length. auto.
      * cbn [sel_tri kdims]. rewrite sel_seq_all; [apply B|]. rewrite (bo_k _ _ _ _ _ _ B). apply W.
      * cbn. apply B.
      * cbn [sel_tri vdims]. rewrite sel_seq_all; [apply B|]. rewrite (bo_v _ _ _ _ _ _ B). apply W.
      * cbn [sel_tri odims]. rewrite sel_block; rewrite (bo_o _ _ _ _ _ _ B); cbn [skipn]; rewrite (firstn_all2 (odims t)) by (rewrite (wf_o _ W); auto); auto.
        rewrite <- (wf_o _ W). lia.
      * cbn [sel_tri ddims]. rewrite (bo_d _ _ _ _ _ _ B). unfold l in Ll. destruct (ddims t) as [q|q]; cbn in *; f_equal; apply sel_seq_all;
          rewrite firstn_length_le; auto; rewrite skipn_length; lia.
      * cbn. auto.
      * cbn. auto.
      * cbn. auto.
      * cbn. auto.
      * cbn. auto.
    + split; auto. split; [lia|]. split; auto. replace (a + (b - a + 1) - 1)%nat with b by lia. split; auto.
      intros k Hk HH. destruct (Qc_eqb_spec (age_total t k) 0%Qc) as [|T]; auto. exfalso.
      pose proof (proj2 (D k) (conj Hk T)) as I. specialize (Am k I). specialize (AM k I). destruct HH as [HH|HH].
      * pose proof (sorted_nth_lt l k a 0 Sl ltac:(lia)). lia.
      * pose proof (sorted_nth_lt l b k 0 Sl ltac:(lia)). lia.
Qed.

(** With no negative amount nothing is lost. *)
Lemma origin_total_pos t i c o d : nonnegative t -> in_range t i c o d -> amount t i c o d <> 0%Qc -> origin_total t o <> 0%Qc.
Proof.
  intros NN (Hi & Hc & Ho & Hd) A E.
  assert (P : (0 < amount t i c o d)%Qc).
  { destruct (Qcle_lt_or_eq _ _ (NN i c o d (conj Hi (conj Hc (conj Ho Hd))))); auto. congruence. }
  apply (Qclt_not_eq 0 (origin_total t o)); [|auto]. unfold origin_total.
  apply (sumn_pos _ _ i); auto.
  - apply (sumn_pos _ _ c); auto; [apply (sumn_pos _ _ d); auto|].
    + intros; apply NN; repeat split; auto.
    + intros; apply sumn_nonneg; intros; apply NN; repeat split; auto.
  - intros; apply sumn_nonneg; intros; apply sumn_nonneg; intros; apply NN; repeat split; auto.
Qed.
Lemma age_total_pos t i c o d : nonnegative t -> in_range t i c o d -> amount t i c o d <> 0%Qc -> age_total t d <> 0%Qc.
Proof.
  intros NN (Hi & Hc & Ho & Hd) A E.
  assert (P : (0 < amount t i c o d)%Qc).
  { destruct (Qcle_lt_or_eq _ _ (NN i c o d (conj Hi (conj Hc (conj Ho Hd))))); auto. congruence. }
  apply (Qclt_not_eq 0 (age_total t d)); [|auto]. unfold age_total.
  apply (sumn_pos _ _ i); auto.
  - apply (sumn_pos _ _ c); auto; [apply (sumn_pos _ _ o); auto|].
    + intros; apply NN; repeat split; auto.
    + intros; apply sumn_nonneg; intros; apply NN; repeat split; auto.
  - intros; apply sumn_nonneg; intros; apply sumn_nonneg; intros; apply NN; repeat split; auto.
Qed.
Lemma zero_total t : (forall i c o d, in_range t i c o d -> amount t i c o d = 0%Qc) ->
  forall o, (o < ax2 (values t))%nat -> origin_total t o = 0%Qc.
Proof.
  intros Z o Ho. unfold origin_total. apply sumn_zero. intros i Hi. apply sumn_zero. intros c Hc. apply sumn_zero. intros d Hd.
  apply Z. repeat split; auto.
Qed.
Lemma dropna_keeps t : wf t -> is_pattern t = false -> (2 <= ax2 (values t) \/ 2 <= ax3 (values t))%nat ->
  nonnegative t -> (exists i c o d, in_range t i c o d /\ amount t i c o d <> 0%Qc) ->
  exists u lo no dlo nd, dropna t = Ok u /\ block_of t u lo no dlo nd /\
    (forall i c o d, in_range t i c o d -> amount t i c o d <> 0%Qc -> (lo <= o < lo + no /\ dlo <= d < dlo + nd)%nat) /\
    (exists i c d, in_range t i c lo d /\ amount t i c lo d <> 0%Qc) /\
    (exists i c d, in_range t i c (lo + no - 1)%nat d /\ amount t i c (lo + no - 1)%nat d <> 0%Qc) /\
    (exists i c o, in_range t i c o dlo /\ amount t i c o dlo <> 0%Qc) /\
    (exists i c o, in_range t i c o (dlo + nd - 1)%nat /\ amount t i c o (dlo + nd - 1)%nat <> 0%Qc).
Proof.
  intros W NP N NN (i & c & o & d & R & A).
  assert (SN : forall n (f : nat -> Qc), sumn n f <> 0%Qc -> exists k, (k < n)%nat /\ f k <> 0%Qc).
  { induction n as [|n IH]; intros f H; [exfalso; apply H; reflexivity|]. destruct (Qc_eqb_spec (f n) 0%Qc) as [E|E]; [|exists n; auto].
    destruct (IH f) as (k & Hk & F).
    - intros E'. apply H. cbn. rewrite E, E'. reflexivity.
    - exists k. auto. }
  destruct (dropna_ok t W NP N) as (u & lo & no & dlo & nd & E & B & TO & TD).
  - exists o. split; [apply R|]. eapply origin_total_pos; eauto.
  - exists d. split; [apply R|]. eapply age_total_pos; eauto.
  - exists u, lo, no, dlo, nd. split; auto. split; auto.
    destruct TO as ((H1 & H2) & O1 & O2 & O3), TD as ((H3 & H4) & D1 & D2 & D3). split.
    + intros i' c' o' d' R' A'. pose proof R' as (_ & _ & Ro & Rd). split.
      * pose proof (origin_total_pos _ _ _ _ _ NN R' A'). specialize (O3 o' Ro).
        destruct (Nat.ltb_spec o' lo); [exfalso; auto|]. destruct (Nat.ltb_spec o' (lo + no)); [lia|exfalso; auto].
      * pose proof (age_total_pos _ _ _ _ _ NN R' A'). specialize (D3 d' Rd).
        destruct (Nat.ltb_spec d' dlo); [exfalso; auto|]. destruct (Nat.ltb_spec d' (dlo + nd)); [lia|exfalso; auto].
    + unfold origin_total in O1, O2. unfold age_total in D1, D2.
      split; [|split; [|split]].
      * apply SN in O1. destruct O1 as (i1 & Hi1 & O1). apply SN in O1. destruct O1 as (c1 & Hc1 & O1). apply SN in O1. destruct O1 as (x & Hx & O1).
        exists i1, c1, x. split; auto. repeat split; auto; lia.
      * apply SN in O2. destruct O2 as (i1 & Hi1 & O2). apply SN in O2. destruct O2 as (c1 & Hc1 & O2). apply SN in O2. destruct O2 as (x & Hx & O2).
        exists i1, c1, x. split; auto. repeat split; auto; lia.
      * apply SN in D1. destruct D1 as (i1 & Hi1 & D1). apply SN in D1. destruct D1 as (c1 & Hc1 & D1). apply SN in D1. destruct D1 as (x & Hx & D1).
        exists i1, c1, x. split; auto. repeat split; auto; lia.
      * apply SN in D2. destruct D2 as (i1 & Hi1 & D2). apply SN in D2. destruct D2 as (c1 & Hc1 & D2). apply SN in D2. destruct D2 as (x & Hx & D2).
        exists i1, c1, x. split; auto. repeat split; auto; lia.
Qed.
Lemma dropna_zero t : is_pattern t = false -> (2 <= ax2 (values t) \/ 2 <= ax3 (values t))%nat ->
  (forall i c o d, in_range t i c o d -> amount t i c o d = 0%Qc) -> dropna t = Err ValueError.
Proof.
  intros NP N Z. unfold dropna. fold (dsum t). rewrite NP. cbn [negb].
  rewrite dsum_2, dsum_3.
  replace ((ax2 (values t) =? 1)%nat && (ax3 (values t) =? 1)%nat) with false
    by (destruct (Nat.eqb_spec (ax2 (values t)) 1), (Nat.eqb_spec (ax3 (values t)) 1); auto; lia).
  match goal with |- match first_true ?r with _ => _ end = _ => destruct (first_true r) as [k|] eqn:E; [|reflexivity] end.
  exfalso. destruct (first_true_some _ _ E) as (Hk & T & _). rewrite map_length, seq_length in Hk.
  rewrite nth_map0 in T by auto. rewrite <- (dsum_3 t), dsum_origin in T.
  rewrite (zero_total t Z k Hk) in T. destruct (Qc_eqb_spec 0 0); [discriminate|]. congruence.
Qed.
