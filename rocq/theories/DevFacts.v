(** Facts about the Development model. *)
From Coq Require Import Lia Field.
From Verif Require Export SpecDev P_Core P_Filter P_Arith.
Local Open Scope Z_scope.

Definition dims (a : arr) (n0 n1 n2 n3 : nat) : Prop := ax0 a = n0 /\ ax1 a = n1 /\ ax2 a = n2 /\ ax3 a = n3.
Definition cell01 (c : cell) : Prop := c = None \/ c = Some 0%Qc \/ c = Some 1%Qc.
Definition all01 (a : arr) : Prop := forall i c o d, cell01 (av a i c o d).

Lemma cell01_mul a b : cell01 a -> cell01 b -> cell01 (cmul a b).
Proof.
  intros [-> | [-> | ->]] [-> | [-> | ->]]; cbn [cmul]; unfold cell01;
    rewrite ?Qcmult_0_l, ?Qcmult_0_r, ?Qcmult_1_l; auto.
Qed.
Lemma known_cases c : known c = match c with Some _ => Some 1%Qc | None => None end.
Proof. destruct c as [q|]; [|reflexivity]. unfold known, cmul, cadd. f_equal. ring. Qed.
Lemma cell01_known c : cell01 (known c).
Proof. rewrite known_cases. destruct c; unfold cell01; auto. Qed.
Lemma cell01_nan t o d : cell01 (nan_triangle t o d).
Proof. unfold nan_triangle, cell01. destruct (_ =? 1)%nat; auto. destruct (_ <? _); auto. Qed.

Lemma bdim_cases m n r : bdim m n = Ok r -> (m = n /\ r = m) \/ (m = 1%nat /\ r = n) \/ (n = 1%nat /\ r = m).
Proof.
  unfold bdim. destruct (Nat.eqb_spec m n); [intros [= <-]; auto|].
  destruct (Nat.eqb_spec m 1); [intros [= <-]; auto|]. destruct (Nat.eqb_spec n 1); [intros [= <-]; auto|discriminate].
Qed.
Lemma bdim_sub m n : n = m \/ n = 1%nat -> bdim m n = Ok m.
Proof.
  intros [->| ->]; unfold bdim; [rewrite Nat.eqb_refl; auto|]. destruct (Nat.eqb_spec m 1); auto.
Qed.
Lemma bdim_sub_r m n : m = n \/ m = 1%nat -> bdim m n = Ok n.
Proof.
  intros [->| ->]; unfold bdim; [rewrite Nat.eqb_refl; auto|]. destruct (Nat.eqb_spec 1 n); auto.
Qed.
Lemma bidx_lt n i : (i < n)%nat -> bidx n i = i.
Proof. unfold bidx. intros H. destruct (Nat.eqb_spec n 1); lia. Qed.

(** [b] broadcasts against [a]. *)
Definition sub_dims (b a : arr) : Prop :=
  (ax0 b = ax0 a \/ ax0 b = 1%nat) /\ (ax1 b = ax1 a \/ ax1 b = 1%nat) /\ (ax2 b = ax2 a \/ ax2 b = 1%nat) /\ (ax3 b = ax3 a \/ ax3 b = 1%nat).
Lemma bmap2_l f a b : sub_dims b a -> exists r, bmap2 f a b = Ok r /\ dims r (ax0 a) (ax1 a) (ax2 a) (ax3 a) /\
  (forall i c o d, exists i' c' o' d' i2 c2 o2 d2, av r i c o d = f (av a i' c' o' d') (av b i2 c2 o2 d2)) /\
  forall i c o d, (i < ax0 a)%nat -> (c < ax1 a)%nat -> (o < ax2 a)%nat -> (d < ax3 a)%nat ->
    av r i c o d = f (av a i c o d) (av b (bidx (ax0 b) i) (bidx (ax1 b) c) (bidx (ax2 b) o) (bidx (ax3 b) d)).
Proof.
  intros (H0 & H1 & H2 & H3). unfold bmap2. rewrite !bdim_sub by auto. cbn [rbind].
  eexists. split; [reflexivity|]. split; [repeat split|]. split.
  - intros. cbn [av]. repeat eexists.
  - intros i c o d Hi Hc Ho Hd. cbn [av]. rewrite (bidx_lt (ax0 a)), (bidx_lt (ax1 a)), (bidx_lt (ax2 a)), (bidx_lt (ax3 a)) by auto. reflexivity.
Qed.
Lemma bmap2_r f a b : sub_dims a b -> exists r, bmap2 f a b = Ok r /\ dims r (ax0 b) (ax1 b) (ax2 b) (ax3 b) /\
  (forall i c o d, exists i' c' o' d' i2 c2 o2 d2, av r i c o d = f (av a i' c' o' d') (av b i2 c2 o2 d2)) /\
  forall i c o d, (i < ax0 b)%nat -> (c < ax1 b)%nat -> (o < ax2 b)%nat -> (d < ax3 b)%nat ->
    av r i c o d = f (av a (bidx (ax0 a) i) (bidx (ax1 a) c) (bidx (ax2 a) o) (bidx (ax3 a) d)) (av b i c o d).
Proof.
  intros (H0 & H1 & H2 & H3). unfold bmap2. rewrite !bdim_sub_r by auto. cbn [rbind].
  eexists. split; [reflexivity|]. split; [repeat split|]. split.
  - intros. cbn [av]. repeat eexists.
  - intros i c o d Hi Hc Ho Hd. cbn [av]. rewrite (bidx_lt (ax0 b)), (bidx_lt (ax1 b)), (bidx_lt (ax2 b)), (bidx_lt (ax3 b)) by auto. reflexivity.
Qed.
Lemma bmap2_inv f a b r : bmap2 f a b = Ok r ->
  bdim (ax0 a) (ax0 b) = Ok (ax0 r) /\ bdim (ax1 a) (ax1 b) = Ok (ax1 r) /\ bdim (ax2 a) (ax2 b) = Ok (ax2 r) /\ bdim (ax3 a) (ax3 b) = Ok (ax3 r) /\
  forall i c o d, av r i c o d = f (av a (bidx (ax0 a) i) (bidx (ax1 a) c) (bidx (ax2 a) o) (bidx (ax3 a) d))
                                   (av b (bidx (ax0 b) i) (bidx (ax1 b) c) (bidx (ax2 b) o) (bidx (ax3 b) d)).
Proof.
  unfold bmap2. intros H.
  destruct (bdim (ax0 a) (ax0 b)) eqn:E0; [|discriminate]. cbn [rbind] in H.
  destruct (bdim (ax1 a) (ax1 b)) eqn:E1; [|discriminate]. cbn [rbind] in H.
  destruct (bdim (ax2 a) (ax2 b)) eqn:E2; [|discriminate]. cbn [rbind] in H.
  destruct (bdim (ax3 a) (ax3 b)) eqn:E3; [|discriminate]. cbn [rbind] in H.
  injection H as <-. cbn [ax0 ax1 ax2 ax3 av]. auto.
Qed.
Lemma all01_bmap2 a b r : bmap2 cmul a b = Ok r -> all01 a -> all01 b -> all01 r.
Proof. intros H A B i c o d. destruct (bmap2_inv _ _ _ _ H) as (_ & _ & _ & _ & E). rewrite E. apply cell01_mul; auto. Qed.

Ltac inv_do H := match type of H with
  | rbind ?e ?k = Ok _ => let E := fresh "E" in destruct e eqn:E; [cbn [rbind] in H|discriminate H]
  end.

Lemma filter_len {A} (f : A -> bool) l : (List.length (filter f l) <= List.length l)%nat.
Proof. induction l as [|x l IH]; cbn; [lia|]. destruct (f x); cbn; lia. Qed.

(** ** Slices used by n_periods *)
Lemma div_self w q : wf w -> tri_op ODiv w w = Ok q -> forall i c o d, av (values q) i c o d = None \/ av (values q) i c o d = Some 1%Qc.
Proof.
  intros W H i c o d. unfold tri_op in H. rewrite validate_same in H by (auto; constructor; auto).
  cbn [rbind op_arr] in H. unfold div_arr in H. inv_do H. injection H as <-. cbn [values set_values].
  destruct (lhs_fields w w) as (_ & _ & _ & _ & _ & L & _). rewrite L in E.
  destruct (bmap2_inv _ _ _ _ E) as (_ & _ & _ & _ & C). rewrite C. unfold cdiv.
  destruct (av (values w) _ _ _ _) as [x|]; [|auto]. destruct (Qc_eqb_spec x 0%Qc); [auto|].
  right. f_equal. field; auto.
Qed.
Lemma div_self_dims w q : wf w -> tri_op ODiv w w = Ok q -> dims (values q) (ax0 (values w)) (ax1 (values w)) (ax2 (values w)) (ax3 (values w)).
Proof.
  intros W H. unfold tri_op in H. rewrite validate_same in H by (auto; constructor; auto).
  cbn [rbind op_arr] in H. unfold div_arr in H. inv_do H. injection H as <-. cbn [values set_values].
  destruct (lhs_fields w w) as (_ & _ & _ & _ & _ & L & _). rewrite L in E.
  destruct (bmap2_l cdiv (values w) (values w)) as (r & Er & D & _); [repeat split; auto|].
  rewrite Er in E. injection E as ->. exact D.
Qed.

Lemma sort_distinct_in l x : In x (sort_distinct l) <-> In x l.
Proof.
  unfold sort_distinct. induction l as [|y l IH]; [tauto|]. cbn [fold_right In].
  assert (G : forall m, In x (zinsert y m) <-> x = y \/ In x m).
  { clear. induction m as [|z m IH]; cbn [zinsert]; [cbn; intuition|].
    destruct (Z.ltb_spec y z); [cbn; intuition|]. destruct (Z.eqb_spec y z); [subst; cbn; intuition|]. cbn [In]. rewrite IH. tauto. }
  rewrite G, IH. intuition.
Qed.
Lemma py_nth_in l z x : py_nth l z = Ok x -> In x l.
Proof.
  unfold py_nth. destruct (_ || _) eqn:E; [discriminate|]. intros [= <-]. apply nth_In.
  apply orb_false_iff in E. destruct E as [E1 E2]. apply Z.ltb_ge in E1. apply Z.leb_gt in E2. destruct (Z.ltb_spec z 0); lia.
Qed.

Lemma slice_from t v : wf t -> (2 <= ax3 (values t))%nat -> In v (valuations t) ->
  exists u, getitem_valuation t (fun o d => v <=? valuation t o d) = Ok u /\ sliced t (fun o d => v <=? valuation t o d) u.
Proof.
  intros W Hn Hv. apply getitem_valuation_ok; auto.
  - apply in_valuations in Hv. destruct Hv as (o & d & Ho & Hd & E). rewrite <- (wf_o _ W) in Ho. rewrite <- (wf_d _ W) in Hd.
    exists o, d. split; [auto|]. split; [auto|]. apply Z.leb_le. lia.
  - pose proof (valuation_after_evenly t (v - 1) W) as [A _]. eapply evenly_ext; [|exact A]. intros x Hx. cbv beta.
    split; intros (d & Hd & E); exists d; (split; [auto|]); apply Z.leb_le || apply Z.ltb_lt; (apply Z.leb_le in E || apply Z.ltb_lt in E); lia.
  - pose proof (valuation_after_evenly t (v - 1) W) as [_ A]. eapply evenly_ext; [|exact A]. intros x Hx. cbv beta.
    split; intros (d & Hd & E); exists d; (split; [auto|]); apply Z.leb_le || apply Z.ltb_lt; (apply Z.leb_le in E || apply Z.ltb_lt in E); lia.
Qed.

(** ** Weights: shape and range *)
Definition tdims (a : arr) (t : tri) : Prop := dims a (ax0 (values t)) (ax1 (values t)) (ax2 (values t)) (ax3 (values t)).
(** Position of the earliest valuation used with [n] periods, if [n] restricts at all. *)
Definition np_all (t : tri) (n : Z) : bool := (n <? 1) || (Z.of_nat (ax2 (values t)) - 1 <=? n).
Definition np_cut (t : tri) (n : Z) : result Z :=
  do off <- val_offset (dgrain t) (ograin t);
  py_nth (sort_distinct (filter (fun v => v <=? vdate t) (valuations t))) (- n * off - 1).

Lemma np_int_unfold t n : n_periods_int t n =
  if np_all t n then Ok (map_arr known (values t))
  else do v <- np_cut t n;
    do w <- getitem_valuation t (fun o d => v <=? valuation t o d);
    do q <- tri_op ODiv w w;
    bmap2 cmul (map_arr (fun x => Some (nz x)) (values q)) (nan_arr t).
Proof.
  unfold n_periods_int, np_all, np_cut. destruct (_ || _); [reflexivity|].
  destruct (val_offset _ _); cbn [rbind]; reflexivity.
Qed.
Lemma np_cut_in t n v : np_cut t n = Ok v -> In v (valuations t) /\ v <= vdate t.
Proof.
  unfold np_cut. intros H. inv_do H. apply py_nth_in in H. apply (proj1 (sort_distinct_in _ _)) in H.
  apply filter_In in H. destruct H as [H1 H2]. apply Z.leb_le in H2. auto.
Qed.

Lemma np_int_facts t n a : wf t -> (2 <= ax3 (values t))%nat -> n_periods_int t n = Ok a -> tdims a t /\ all01 a.
Proof.
  intros W Hn. rewrite np_int_unfold. destruct (np_all t n).
  - intros [= <-]. split; [repeat split|]. intros i c o d. apply cell01_known.
  - intros H. inv_do H. destruct (np_cut_in _ _ _ E) as [Hin Hle].
    destruct (slice_from t a0 W Hn Hin) as (u & Eu & Su). rewrite Eu in H. cbn [rbind] in H. inv_do H.
    pose proof (sl_wf _ _ _ Su) as Wu.
    destruct (div_self_dims _ _ Wu E0) as (D0 & D1 & D2 & D3). pose proof (div_self _ _ Wu E0) as V.
    destruct (bmap2_inv _ _ _ _ H) as (B0 & B1 & B2 & B3 & C).
    cbn [map_arr ax0 ax1 ax2 ax3 nan_arr] in *. rewrite D0, (sl_0 _ _ _ Su) in B0. rewrite D1, (sl_1 _ _ _ Su) in B1.
    rewrite bdim_sub in B0, B1 by auto. injection B0 as B0. injection B1 as B1.
    pose proof (wf_o1 _ W) as Ho1. pose proof (wf_d1 _ W) as Hd1.
    split; [split; [auto|split; [auto|]]|].
    + rewrite D2, (sl_2 _ _ _ Su) in B2. rewrite D3, (sl_3 _ _ _ Su) in B3.
      assert (L2 : (List.length (kept_rows t (fun o d => (a0 <=? valuation t o d)%Z)) <= ax2 (values t))%nat).
      { unfold kept_rows. eapply Nat.le_trans; [apply filter_len|]. rewrite seq_length. lia. }
      assert (L3 : (List.length (kept_cols t (fun o d => (a0 <=? valuation t o d)%Z)) <= ax3 (values t))%nat).
      { unfold kept_cols. eapply Nat.le_trans; [apply filter_len|]. rewrite seq_length. lia. }
      assert (P2 : (1 <= List.length (kept_rows t (fun o d => (a0 <=? valuation t o d)%Z)))%nat) by (rewrite <- (sl_2 _ _ _ Su); apply (wf_o1 _ Wu)).
      assert (P3 : (1 <= List.length (kept_cols t (fun o d => (a0 <=? valuation t o d)%Z)))%nat) by (rewrite <- (sl_3 _ _ _ Su); apply (wf_d1 _ Wu)).
      apply bdim_cases in B2. apply bdim_cases in B3. lia.
    + intros i c o d. rewrite C. apply cell01_mul; [|apply cell01_nan]. cbn [av map_arr].
      destruct (V (bidx (ax0 (values a1)) i) (bidx (ax1 (values a1)) c) (bidx (ax2 (values a1)) o) (bidx (ax3 (values a1)) d)) as [-> | ->]; unfold cell01; cbn [nz]; auto.
Qed.

Lemma cat_cols n0 n1 n2 l : forall a, dims a n0 n1 n2 1 -> (forall b, In b l -> dims b n0 n1 n2 1) ->
  exists r, cat_all 3 a l = Ok r /\ dims r n0 n1 n2 (S (List.length l)) /\
    forall i c o d, (d <= List.length l)%nat -> av r i c o d = av (nth d (a :: l) a) i c o 0%nat.
Proof.
  induction l as [|b l IH]; intros a Da Dl.
  - exists a. split; [reflexivity|]. split; [exact Da|]. intros i c o d Hd. cbn in Hd. assert (d = 0%nat) as -> by lia. reflexivity.
  - cbn [cat_all]. destruct (IH b) as (r & -> & Dr & Vr); [apply Dl; left; auto|intros; apply Dl; right; auto|]. cbn [rbind].
    destruct Da as (A0 & A1 & A2 & A3), Dr as (R0 & R1 & R2 & R3).
    assert (Hok : cat_ok 3 a r = true) by (unfold cat_ok; rewrite A0, A1, A2, R0, R1, R2, !Nat.eqb_refl, !orb_true_r; reflexivity).
    rewrite Hok. eexists. split; [reflexivity|]. split.
    + cbn [cat2]. repeat split; auto. cbn [ax3]. rewrite A3, R3. reflexivity.
    + intros i c o d Hd. cbn [cat2 av]. rewrite A3. destruct (Nat.ltb_spec d 1).
      * assert (d = 0%nat) as -> by lia. reflexivity.
      * destruct d as [|d]; [lia|]. replace (S d - 1)%nat with d by lia. rewrite Vr by (cbn in Hd; lia). cbn [nth].
        cbn in Hd. change (av (nth d (b :: l) b) i c o 0 = av (nth d (b :: l) a) i c o 0)%nat.
        f_equal. apply nth_indep. cbn. lia.
Qed.

Lemma mapm_inv {A B} (f : A -> result B) l r : mapm f l = Ok r ->
  List.length r = List.length l /\ forall k d d', (k < List.length l)%nat -> f (nth k l d) = Ok (nth k r d').
Proof.
  revert r. induction l as [|x l IH]; intros r H; cbn [mapm] in H.
  - injection H as <-. split; auto. intros k d d' Hk. cbn in Hk. lia.
  - inv_do H. inv_do H. injection H as <-. destruct (IH _ eq_refl) as [L V]. split; [cbn; lia|].
    intros k d d' Hk. destruct k; cbn [nth]; [auto|]. apply V. cbn in Hk. lia.
Qed.
Lemma mapm_fwd {A B} (f : A -> result B) l : (forall x, In x l -> exists b, f x = Ok b) -> exists r, mapm f l = Ok r.
Proof.
  induction l as [|x l IH]; intros H; [exists []; auto|]. destruct (H x) as [b Eb]; [left; auto|]. destruct IH as [r Er]; [intros; apply H; right; auto|].
  exists (b :: r). cbn [mapm]. rewrite Eb. cbn [rbind]. rewrite Er. reflexivity.
Qed.

Lemma np_weight_facts t ns w : wf t -> (2 <= ax3 (values t))%nat -> (List.length ns <= ax3 (values t))%nat ->
  n_periods_weight t ns = Ok w ->
  (1 <= List.length ns)%nat /\ dims w (ax0 (values t)) (ax1 (values t)) (ax2 (values t)) (List.length ns) /\
  forall d, (d < List.length ns)%nat -> exists a, n_periods_int t (nth d ns 0) = Ok a /\ tdims a t /\ all01 a /\
    forall i c o, av w i c o d = av a i c o d.
Proof.
  intros W Hn Hl H. unfold n_periods_weight in H. inv_do H.
  destruct (mapm_inv _ _ _ E) as [L V]. rewrite combine_length, seq_length, Nat.min_id in L, V.
  destruct a as [|a0 r]; [discriminate|].
  assert (G : forall d, (d < List.length ns)%nat -> exists a, n_periods_int t (nth d ns 0) = Ok a /\ tdims a t /\ all01 a /\ nth d (a0 :: r) a0 = col3 a d).
  { intros d Hd. specialize (V d (0%nat, 0) a0 Hd). rewrite combine_nth in V by (rewrite seq_length; auto). cbn [fst snd] in V.
    rewrite seq_nth in V by auto. inv_do V. injection V as V. exists a. destruct (np_int_facts t _ _ W Hn E0) as [D1 D2].
    split; [auto|]. split; [auto|]. split; [auto|]. symmetry. exact V. }
  assert (Dall : forall b, In b (a0 :: r) -> dims b (ax0 (values t)) (ax1 (values t)) (ax2 (values t)) 1).
  { intros b Hb. destruct (In_nth _ _ a0 Hb) as (k & Hk & Ek). rewrite L in Hk. destruct (G k Hk) as (a & _ & (D0 & D1 & D2 & D3) & _ & Ec).
    rewrite <- Ek, Ec. unfold col3, dims. cbn [ax0 ax1 ax2 ax3]. destruct (Nat.ltb_spec k (ax3 a)); [auto|]. exfalso. rewrite D3 in H0. lia. }
  destruct (cat_cols (ax0 (values t)) (ax1 (values t)) (ax2 (values t)) r a0) as (w' & Ew & Dw & Vw); [apply Dall; left; auto|intros; apply Dall; right; auto|].
  rewrite Ew in H. injection H as <-. cbn [List.length] in L. split; [lia|]. split; [rewrite <- L; exact Dw|].
  intros d Hd. destruct (G d Hd) as (a & E1 & D & A & Ec). exists a. split; [auto|]. split; [auto|]. split; [auto|].
  intros i c o. rewrite Vw by lia. rewrite Ec. reflexivity.
Qed.
Lemma all01_np t ns w : wf t -> (2 <= ax3 (values t))%nat -> (List.length ns <= ax3 (values t))%nat ->
  n_periods_weight t ns = Ok w -> forall i c o d, (d < List.length ns)%nat -> cell01 (av w i c o d).
Proof.
  intros W Hn Hl H i c o d Hd. destruct (np_weight_facts t ns w W Hn Hl H) as (_ & _ & G).
  destruct (G d Hd) as (a & _ & _ & A & V). rewrite V. apply A.
Qed.

Lemma slice_valuation_inv t key u : wf t -> slice_valuation t key = Ok u -> sliced t key u.
Proof.
  intros W H. pose proof H as H0. unfold slice_valuation in H.
  fold (kept_rows t key) (kept_cols t key) in H.
  destruct (map _ (filter _ _)) as [|v vs] eqn:Em; [discriminate|].
  inv_do H. inv_do H. unfold get_idx in H.
  destruct (is_slice a && is_slice a0) eqn:Es; [|discriminate]. apply andb_true_iff in Es. destruct Es as [S1 S2].
  assert (Hex : exists o d, (o < ax2 (values t))%nat /\ (d < ax3 (values t))%nat /\ key o d = true).
  { destruct (filter _ (flat_map _ _)) as [|[o d] l] eqn:Ef; [discriminate Em|].
    assert (Hin : In (o, d) (filter (fun p => key (fst p) (snd p)) (flat_map (fun o => map (fun d => (o, d)) (seq 0 (ax3 (values t)))) (seq 0 (ax2 (values t)))))).
    { rewrite Ef. left; auto. }
    apply filter_In in Hin. destruct Hin as [Hin Hk]. apply in_flat_map in Hin. destruct Hin as (x & Hx & Hy).
    apply in_map_iff in Hy. destruct Hy as (y & Ey & Hy). injection Ey as -> ->. apply in_seq in Hx, Hy. exists o, d. repeat split; auto; lia. }
  destruct (slice_valuation_ok t key a a0 W Hex E S1 E0 S2) as (u' & Eu & Su). rewrite Eu in H0. injection H0 as <-. exact Su.
Qed.
Lemma getitem_inv t key u : wf t -> (2 <= ax3 (values t))%nat -> getitem_valuation t key = Ok u -> sliced t key u.
Proof.
  intros W Hn. unfold getitem_valuation. destruct (Nat.ltb_spec 1 (ax3 (values t))); [|lia]. apply slice_valuation_inv; auto.
Qed.
Lemma kept_rows_le t key : (List.length (kept_rows t key) <= ax2 (values t))%nat.
Proof. unfold kept_rows. eapply Nat.le_trans; [apply filter_len|]. rewrite seq_length. lia. Qed.
Lemma kept_cols_le t key : (List.length (kept_cols t key) <= ax3 (values t))%nat.
Proof. unfold kept_cols. eapply Nat.le_trans; [apply filter_len|]. rewrite seq_length. lia. Qed.

Definition wshape (t : tri) (a : arr) : Prop :=
  (ax0 a = 1%nat \/ ax0 a = ax0 (values t)) /\ (ax1 a = 1%nat \/ ax1 a = ax1 (values t)) /\
  ax2 a = ax2 (values t) /\ ax3 a = (ax3 (values t) - 1)%nat.

Lemma wshape_mul f t a b r : wshape t a -> wshape t b -> bmap2 f a b = Ok r -> wshape t r.
Proof.
  intros (A0 & A1 & A2 & A3) (B0 & B1 & B2 & B3) H. destruct (bmap2_inv _ _ _ _ H) as (E0 & E1 & E2 & E3 & _).
  apply bdim_cases in E0, E1, E2, E3. unfold wshape. repeat split; lia.
Qed.
Lemma wshape_ok f t a b : wshape t a -> wshape t b -> exists r, bmap2 f a b = Ok r.
Proof.
  intros (A0 & A1 & A2 & A3) (B0 & B1 & B2 & B3). unfold bmap2, bdim. rewrite A2, B2, A3, B3, !Nat.eqb_refl.
  destruct A0 as [-> | ->], B0 as [-> | ->], A1 as [-> | ->], B1 as [-> | ->]; rewrite ?Nat.eqb_refl; cbn [rbind];
    repeat (destruct (_ =? _)%nat; cbn [rbind]); eauto.
Qed.

Lemma wshape_nan t : wshape t (init3 (nan_arr t)).
Proof. unfold wshape; cbn; auto. Qed.
Lemma all01_nan t : all01 (init3 (nan_arr t)).
Proof. intros i c o d. apply cell01_nan. Qed.
Lemma drop_cells_facts t items a : drop_cells t items = Ok a -> wshape t a /\ all01 a.
Proof.
  unfold drop_cells. intros H. inv_do H. injection H as <-. split; [unfold wshape; cbn; auto|].
  intros i c o d. cbn [init3 av]. destruct (existsb _ _); [unfold cell01; auto|apply cell01_nan].
Qed.
Lemma drop_valuation_facts t vs a : wf t -> (2 <= ax3 (values t))%nat -> drop_valuation t vs = Ok a -> wshape t a /\ all01 a.
Proof.
  unfold drop_valuation. intros W Hn H. inv_do H. injection H as <-. pose proof (getitem_inv _ _ _ W Hn E) as S.
  pose proof (kept_rows_le t (fun o d => isin_val (ograin t) vs (valuation t o d))).
  pose proof (kept_cols_le t (fun o d => isin_val (ograin t) vs (valuation t o d))).
  split.
  - unfold wshape. cbn [init3 ax0 ax1 ax2 ax3]. rewrite (sl_2 _ _ _ S), (sl_3 _ _ _ S). repeat split; auto; lia.
  - intros i c o d. cbn [init3 av]. destruct (_ && _); [|unfold cell01; auto]. rewrite known_cases.
    destruct (av (values a0) 0 0 o d); unfold cell01; cbn [nz]; right; [left|right]; f_equal; ring.
Qed.
Lemma drop_n_facts p t lr a : wshape t lr -> drop_n p t lr = Ok a -> wshape t a /\ all01 a.
Proof.
  unfold drop_n. intros W H. inv_do H. inv_do H. inv_do H. injection H as <-. split; [exact W|].
  intros i c o d. cbn [av]. destruct (_ && _); unfold cell01; auto.
Qed.
Lemma drop_x_facts p t lr a : wshape t lr -> drop_x p lr = Ok a -> wshape t a /\ all01 a.
Proof.
  unfold drop_x. intros W H. inv_do H. inv_do H. injection H as <-. split; [exact W|].
  intros i c o d. cbn [av]. match goal with |- context [if ?b then 1%Qc else 0%Qc] => destruct b end; unfold cell01; auto.
Qed.

Lemma length_removelast {A} (l : list A) : List.length (removelast l) = (List.length l - 1)%nat.
Proof.
  induction l as [|x l IH]; [reflexivity|]. destruct l as [|y l]; [reflexivity|].
  change (S (List.length (removelast (y :: l))) = (List.length (x :: y :: l) - 1)%nat). rewrite IH. cbn. lia.
Qed.
Lemma fits_len {A} t (v : per_age A) : wf t -> fits_ages t v -> (List.length (validate_assumption t v) <= ax3 (values t))%nat.
Proof.
  intros W H. destruct v; cbn [validate_assumption]; rewrite ?repeat_length, ?map_length; auto. rewrite (wf_d _ W). auto.
Qed.

Lemma drop_adj_facts p t lr a : wf t -> (2 <= ax3 (values t))%nat -> wshape t lr -> fits_ages t (p_n_periods p) ->
  drop_adjustment p t lr = Ok a -> wshape t a /\ all01 a.
Proof.
  intros W Hn Wl Hf H. unfold drop_adjustment in H.
  inv_do H. assert (F1 : wshape t a0 /\ all01 a0).
  { destruct (p_drop p); [|injection E as <-; split; [apply wshape_nan|apply all01_nan]].
    inv_do E. destruct (drop_cells_facts _ _ _ E0) as [S1 S2].
    split; [exact (wshape_mul _ _ _ _ _ (wshape_nan t) S1 E)|exact (all01_bmap2 _ _ _ E (all01_nan t) S2)]. }
  clear E. inv_do H. assert (F2 : wshape t a1 /\ all01 a1).
  { destruct F1 as [F1 F1']. destruct (p_drop_val p); [|injection E as <-; split; auto].
    inv_do E. destruct (drop_valuation_facts _ _ _ W Hn E0) as [S1 S2]. 
    split; [exact (wshape_mul _ _ _ _ _ F1 S1 E)|exact (all01_bmap2 _ _ _ E F1' S2)]. }
  clear E F1. inv_do H. assert (F3 : wshape t a2 /\ all01 a2).
  { destruct F2 as [F2 F2']. destruct (n_active p); [|injection E as <-; split; auto].
    inv_do E. inv_do E. inv_do E.
    assert (S : wshape t a4).
    { destruct (bmap2_inv _ _ _ _ E1) as (B0 & B1 & B2 & B3 & _).
      destruct Wl as (L0 & L1 & L2 & L3).
      assert (G : (List.length (removelast (validate_assumption t (p_n_periods p))) <= ax3 (values t) - 1)%nat).
      { rewrite length_removelast. pose proof (fits_len t _ W Hf). lia. }
      assert (G' : (List.length (removelast (validate_assumption t (p_n_periods p))) <= ax3 (values t))%nat) by lia.
      destruct (np_weight_facts t _ a3 W Hn G' E0) as (K1 & (D0 & D1 & D2 & D3) & _).
      apply bdim_cases in B0, B1, B2, B3. cbn [map_arr ax0 ax1 ax2 ax3] in *. unfold wshape. repeat split; lia. }
    destruct (drop_n_facts p t a4 a5 S E2) as [S1 S2]. split; [exact (wshape_mul _ _ _ _ _ F2 S1 E)|exact (all01_bmap2 _ _ _ E F2' S2)]. }
  destruct F3 as [F3 F3']. destruct (x_active p); [|injection H as <-; split; auto].
  inv_do H. destruct (drop_x_facts p t lr a3 Wl E0) as [S1 S2].
  split; [exact (wshape_mul _ _ _ _ _ F3 S1 H)|exact (all01_bmap2 _ _ _ H F3' S2)].
Qed.

(** ** The regression *)
Lemma thru_orig_ok x y w n0 n1 n2 n3 : dims x n0 n1 n2 n3 -> dims y n0 n1 n2 n3 -> dims w n0 n1 n2 n3 ->
  exists r, thru_orig x y w = Ok r /\ dims (wls_slope r) n0 n1 1 n3 /\ dims (wls_d r) n0 n1 1 n3 /\ dims (wls_mse r) n0 n1 1 n3 /\
   forall i c d, (i < n0)%nat -> (c < n1)%nat -> (d < n3)%nat ->
     let N := sumn n2 (fun o => nz (cmul (cmul (av w i c o d) (av x i c o d)) (av y i c o d))) in
     let D := sumn n2 (fun o => nz (cmul (cmul (cmul (av w i c o d) (av x i c o d)) (av x i c o d)) (known (av y i c o d)))) in
     let coef := cdiv (n2n (Some N)) (n2n (Some D)) in
     av (wls_slope r) i c 0 d = coef /\ av (wls_d r) i c 0 d = n2n (Some D) /\
     av (wls_mse r) i c 0 d =
       cdiv (Some (sumn n2 (fun o => nz (sq_resid (av w i c o d)
               (csub (av y i c o d) (cmul (cmul coef (av x i c o d)) (known (av y i c o d))))))))
            (n2n (Some (sumn n2 (fun o => nz (cmul (known (av y i c o d)) (nonzero_flag (av w i c o d)))) - 1)%Qc)).
Proof.
  intros (X0 & X1 & X2 & X3) (Y0 & Y1 & Y2 & Y3) (W0 & W1 & W2 & W3). unfold thru_orig.
  destruct (bmap2_same cmul w x) as (wx & -> & A0 & A1 & A2 & A3 & Av); [congruence..|]. cbn [rbind].
  destruct (bmap2_same cmul wx x) as (wxx & -> & B0 & B1 & B2 & B3 & Bv); [congruence..|]. cbn [rbind].
  destruct (bmap2_same cmul wxx (map_arr known y)) as (wxxk & -> & C0 & C1 & C2 & C3 & Cv); [cbn [map_arr ax0 ax1 ax2 ax3]; congruence..|]. cbn [rbind].
  destruct (bmap2_same cmul wx y) as (wxy & -> & D0 & D1 & D2 & D3 & Dv); [congruence..|]. cbn [rbind].
  destruct (bmap2_same cdiv (map_arr n2n (nansum_axis 2 wxy)) (map_arr n2n (nansum_axis 2 wxxk))) as (cf & -> & F0 & F1 & F2 & F3 & Fv);
    [cbn [map_arr nansum_axis ax0 ax1 ax2 ax3]; congruence..|]. cbn [rbind].
  cbn [map_arr nansum_axis ax0 ax1 ax2 ax3] in F0, F1, F2, F3, Fv.
  destruct (bmap2_r cmul cf x) as (fx & -> & (G0 & G1 & G2 & G3) & _ & Gv); [unfold sub_dims; repeat split; [left|left|right|left]; congruence|]. cbn [rbind].
  destruct (bmap2_same cmul fx (map_arr known y)) as (ft & -> & H0 & H1 & H2 & H3 & Hv); [cbn [map_arr ax0 ax1 ax2 ax3]; congruence..|]. cbn [rbind].
  destruct (bmap2_same csub y ft) as (r & -> & I0 & I1 & I2 & I3 & Iv); [congruence..|]. cbn [rbind].
  destruct (bmap2_same sq_resid w r) as (r2 & -> & J0 & J1 & J2 & J3 & Jv); [congruence..|]. cbn [rbind].
  destruct (bmap2_same cmul (map_arr known y) (map_arr nonzero_flag w)) as (cn & -> & K0 & K1 & K2 & K3 & Kv); [cbn [map_arr ax0 ax1 ax2 ax3]; congruence..|]. cbn [rbind].
  destruct (bmap2_same cdiv (nansum_axis 2 r2) (map_arr (fun c : cell => n2n (csub c (Some 1%Qc))) (nansum_axis 2 cn))) as (ms & -> & L0 & L1 & L2 & L3 & Lv);
    [cbn [map_arr nansum_axis ax0 ax1 ax2 ax3] in *; congruence..|]. cbn [rbind].
  cbn [map_arr nansum_axis ax0 ax1 ax2 ax3 av] in *.
  eexists. split; [reflexivity|]. cbn [wls_slope wls_mse wls_d]. split; [unfold dims; repeat split; congruence|].
  split; [unfold dims; cbn; repeat split; congruence|]. split; [unfold dims; repeat split; congruence|].
  intros i c d Hi Hc Hd.
  set (N := sumn n2 (fun o => nz (cmul (cmul (av w i c o d) (av x i c o d)) (av y i c o d)))).
  set (D := sumn n2 (fun o => nz (cmul (cmul (cmul (av w i c o d) (av x i c o d)) (av x i c o d)) (known (av y i c o d))))).
  set (coef := cdiv (n2n (Some N)) (n2n (Some D))).
  assert (EN : nansum (ax2 wxy) (fun k => av wxy i c k d) = N).
  { unfold nansum, N. rewrite D2, A2, W2. apply sumn_ext. intros o Ho. rewrite Dv, Av by congruence. reflexivity. }
  assert (ED : nansum (ax2 wxxk) (fun k => av wxxk i c k d) = D).
  { unfold nansum, D. rewrite C2, B2, A2, W2. apply sumn_ext. intros o Ho. rewrite Cv, Bv, Av by congruence. reflexivity. }
  assert (Ec : av cf i c 0 d = coef).
  { rewrite Fv by (rewrite ?F0, ?F1, ?F2, ?F3, ?C0; congruence || lia). rewrite EN, ED. reflexivity. }
  split; [exact Ec|]. split; [cbn [map_arr nansum_axis av]; rewrite <- ED; reflexivity|].
  rewrite Lv by (congruence || lia). f_equal.
  - f_equal. unfold nansum. rewrite J2, W2. apply sumn_ext. intros o Ho. rewrite Jv by congruence. rewrite Iv by congruence. rewrite Hv by congruence.
    rewrite Gv by congruence. rewrite (bidx_lt (ax0 cf)), (bidx_lt (ax1 cf)), (bidx_lt (ax3 cf)) by congruence.
    unfold bidx at 1. rewrite F2. cbn [Nat.eqb]. rewrite Ec. reflexivity.
  - cbn [csub]. do 3 f_equal. unfold nansum. rewrite K2, Y2. apply sumn_ext. intros o Ho. rewrite Kv by congruence. reflexivity.
Qed.
