(** Proofs about the test for correlated development factors: the triangles it compares. *)
From Coq Require Import Lia.
From Verif Require Import Spec TriFacts ArrFacts ConvFacts SliceFacts P_Core P_Filter P_Arith P_Agg P_Olf3 P_Corr P_Corr2 P_Corr3 P_Corr4 NumFacts SpecCorr.
Local Open Scope nat_scope.

Lemma square_month t n o0 a0 h o d : square t n o0 a0 h -> o < n -> d < n -> month_of t o d = (o0 + a0 - 1 + Z.of_nat h * Z.of_nat (o + d))%Z.
Proof. intros (R & E2 & E3) Ho Hd. rewrite (regular_month _ _ _ _ _ _ _ _ R) by lia. nia. Qed.
Lemma square_vdate t n o0 a0 h : square t n o0 a0 h -> vdate t = (o0 + a0 - 1 + Z.of_nat h * Z.of_nat (n - 1))%Z.
Proof. intros ((_ & _ & _ & _ & _ & V & _) & E2 & E3). rewrite V, E2. nia. Qed.
Lemma square_future t n o0 a0 h o d : square t n o0 a0 h -> o < n -> d < n -> (future t o d <-> n - 1 < o + d).
Proof.
  intros Q Ho Hd. unfold future. rewrite (square_month _ _ _ _ _ _ _ Q Ho Hd), (square_vdate _ _ _ _ _ Q).
  assert (1 <= h) by apply Q. nia.
Qed.

(** Dropping the latest diagonal gives the triangle one period earlier. *)
Lemma drop_diagonal t n o0 a0 h : wf t -> blank_future t -> square t n o0 a0 h -> complete t -> 2 <= n ->
  exists u, getitem_valuation t (fun o d => (valuation t o d <? vdate t)%Z) = Ok u /\ wf u /\ blank_future u /\ is_pattern u = is_pattern t /\
    square u (n - 1) o0 a0 h /\ complete u /\ ax0 (values u) = ax0 (values t) /\ ax1 (values u) = ax1 (values t) /\
    (forall i c o d, i < ax0 (values t) -> c < ax1 (values t) -> o + d <= n - 2 -> amount u i c o d = amount t i c o d).
Proof.
  intros W B Q Cm Hn. pose proof Q as (R & E2 & E3). set (key := fun o d => (valuation t o d <? vdate t)%Z).
  assert (H1 : 1 <= h) by apply R.
  assert (K : forall o d, o < n -> d < n -> (key o d = true <-> o + d <= n - 2)).
  { intros o d Ho Hd. unfold key. rewrite valuation_month by (auto; lia). rewrite (square_month _ _ _ _ _ _ _ Q Ho Hd), (square_vdate _ _ _ _ _ Q), Z.ltb_lt. nia. }
  assert (Rw : kept_rows t key = seq 0 (n - 1)).
  { unfold kept_rows. rewrite E2. replace (seq 0 n) with (seq 0 (n - 1) ++ [n - 1]) by (replace n with (S (n - 1)) at 3 by lia; rewrite seq_S; reflexivity).
    rewrite filter_app. cbn [filter]. destruct (existsb _ _) eqn:E.
    - exfalso. apply existsb_exists in E. destruct E as (d & Hd & Kd). apply in_seq in Hd. apply K in Kd; lia.
    - rewrite app_nil_r. apply filter_all. intros o Ho. apply in_seq in Ho. apply existsb_exists. exists 0. split; [apply in_seq; lia|]. apply K; lia. }
  assert (Cl : kept_cols t key = seq 0 (n - 1)).
  { unfold kept_cols. rewrite E3. replace (seq 0 n) with (seq 0 (n - 1) ++ [n - 1]) by (replace n with (S (n - 1)) at 3 by lia; rewrite seq_S; reflexivity).
    rewrite filter_app. cbn [filter]. destruct (existsb _ _) eqn:E.
    - exfalso. apply existsb_exists in E. destruct E as (o & Ho & Kd). apply in_seq in Ho. apply K in Kd; lia.
    - rewrite app_nil_r. apply filter_all. intros d Hd. apply in_seq in Hd. apply existsb_exists. exists 0. split; [apply in_seq; lia|]. apply K; lia. }
  destruct (getitem_valuation_ok t key W ltac:(lia)) as (u & Eu & Su).
  - exists 0, 0. split; [lia|]. split; [lia|]. apply K; lia.
  - apply (evenly_interval _ _ 0 (n - 1)). intros o Ho. split; [intros (d & Hd & Kd); apply K in Kd; lia|]. intros L. exists 0. split; [lia|]. apply K; lia.
  - apply (evenly_interval _ _ 0 (n - 1)). intros d Hd. split; [intros (o & Ho & Kd); apply K in Kd; lia|]. intros L. exists 0. split; [lia|]. apply K; lia.
  - assert (L2 : ax2 (values u) = n - 1) by (rewrite (sl_2 _ _ _ Su), Rw, seq_length; auto).
    assert (L3 : ax3 (values u) = n - 1) by (rewrite (sl_3 _ _ _ Su), Cl, seq_length; auto).
    assert (V : vdate u = (o0 + a0 - 1 + Z.of_nat h * Z.of_nat (n - 2))%Z).
    { destruct (sl_vub _ _ _ Su) as (o & d & Ho & Hd & Kd & Le). rewrite E2 in Ho. rewrite E3 in Hd. apply K in Kd; auto.
      rewrite (square_month _ _ _ _ _ _ _ Q Ho Hd) in Le.
      pose proof (sl_vge _ _ _ Su 0 (n - 2) ltac:(lia) ltac:(lia) ltac:(apply K; lia)) as Ge.
      rewrite (square_month _ _ _ _ _ 0 (n - 2) Q ltac:(lia) ltac:(lia)), (square_vdate _ _ _ _ _ Q), Nat.add_0_l in Ge. nia. }
    destruct R as (_ & _ & Ro & Rd & R9 & Rv & Rr).
    assert (Qu : square u (n - 1) o0 a0 h).
    { split; [|auto]. split; [auto|]. split; [auto|]. rewrite L2, L3. split; [|split; [|split; [|split]]].
      - rewrite (sl_o _ _ _ Su), Rw, Ro, E2. unfold sel. apply map_ext_in. intros k Hk. apply in_seq in Hk. rewrite nth_map_seq by lia. reflexivity.
      - rewrite (sl_d _ _ _ Su), Cl, Rd, E3. cbn [dmap]. f_equal. unfold sel. apply map_ext_in. intros k Hk. apply in_seq in Hk. rewrite nth_map_seq by lia. reflexivity.
      - intros k Hk. apply R9. lia.
      - rewrite V. nia.
      - lia. }
    assert (C : forall i c o d, i < ax0 (values t) -> c < ax1 (values t) -> o < n - 1 -> d < n - 1 -> cel u i c o d = if o + d <=? n - 2 then n2n (cel t i c o d) else None).
    { intros i c o d Hi Hc Ho Hd. rewrite (sl_cell _ _ _ Su) by (rewrite ?Rw, ?Cl, ?seq_length; auto). rewrite Rw, Cl, !seq_nth by lia. cbn [Nat.add].
      destruct (Nat.leb_spec (o + d) (n - 2)) as [L|L]; destruct (key o d) eqn:Kd; auto; [|apply K in Kd; lia]. exfalso. assert (key o d = true) by (apply K; lia). congruence. }
    assert (Cam : forall i c o d, i < ax0 (values t) -> c < ax1 (values t) -> o + d <= n - 2 -> amount u i c o d = amount t i c o d).
    { intros i c o d Hi Hc L. unfold amount. rewrite C by lia. destruct (Nat.leb_spec (o + d) (n - 2)); [|lia].
      unfold n2n. destruct (cel t i c o d) as [q|]; auto. cbn [nz]. destruct (Qc_eqb_spec q 0%Qc); auto. }
    exists u. split; [exact Eu|]. split; [apply Su|]. split; [|split; [apply Su|split; [exact Qu|split; [|split; [apply Su|split; [apply Su|exact Cam]]]]]].
    + intros i c o d (Ri & Rc & Ro' & Rd') F. rewrite L2 in Ro'. rewrite L3 in Rd'. rewrite (sl_0 _ _ _ Su) in Ri. rewrite (sl_1 _ _ _ Su) in Rc.
      apply (square_future _ _ _ _ _ _ _ Qu) in F; auto. rewrite C by auto. destruct (Nat.leb_spec (o + d) (n - 2)); auto. lia.
    + intros i c o d (Ri & Rc & Ro' & Rd') F. rewrite L2 in Ro'. rewrite L3 in Rd'. rewrite (sl_0 _ _ _ Su) in Ri. rewrite (sl_1 _ _ _ Su) in Rc.
      rewrite (square_future _ _ _ _ _ _ _ Qu) in F by auto. rewrite Cam by (auto; lia). apply Cm; [repeat split; auto; lia|].
      rewrite (square_future _ _ _ _ _ _ _ Q) by lia. lia.
Qed.

(** The link ratios of a complete triangle. *)
Lemma square_links t n o0 a0 h : wf t -> blank_future t -> is_pattern t = false -> square t n o0 a0 h -> complete t -> 2 <= n ->
  exists u, link_ratio t = Ok u /\ wf u /\ blank_future u /\ ax0 (values u) = ax0 (values t) /\ ax1 (values u) = ax1 (values t) /\
    n - 1 <= ax2 (values u) <= n /\ ax3 (values u) = n - 1 /\
    (forall i c o d, in_range u i c o d -> cel u i c o d = if o + d <? n - 1 then Some (ratio t i c o d) else None).
Proof.
  intros W B Hp Q Cm Hn. pose proof Q as (R & E2 & E3).
  assert (Ex : exists o d, o < ax2 (values t) /\ S d < ax3 (values t) /\ (month_of t o (S d) <= vdate t)%Z).
  { exists 0, 0. split; [lia|]. split; [lia|]. assert (~ future t 0 1) by (rewrite (square_future _ _ _ _ _ _ _ Q) by lia; lia). unfold future in *. lia. }
  destruct (link_ratio_ok t W B Hp Ex) as (u & no & nd & Eu & K & V & Eo & Ed & Hno & Hnd & D0 & D1 & D2 & D3 & Pt & Cells & Out).
  destruct (link_ratio_frame t W B Hp Ex) as (u' & Eu' & Wu & Bu & _). assert (u' = u) by congruence. subst u'.
  assert (N1 : nd = n - 1).
  { destruct (Nat.ltb_spec (n - 2) nd); [lia|]. exfalso. assert (F : future t 0 (S (n - 2))) by (apply Out; lia). rewrite (square_future _ _ _ _ _ _ _ Q) in F by lia. lia. }
  assert (N2 : n - 1 <= no).
  { destruct (Nat.ltb_spec (n - 2) no); [lia|]. exfalso. assert (F : future t (n - 2) 1) by (apply Out; lia). rewrite (square_future _ _ _ _ _ _ _ Q) in F by lia. lia. }
  exists u. split; [exact Eu|]. split; [auto|]. split; [auto|]. split; [auto|]. split; [auto|]. split; [lia|]. split; [lia|].
  intros i c o d Rg. pose proof (Cells i c o d Rg) as (C1 & C2). destruct Rg as (Ri & Rc & Ro & Rd).
  destruct (Nat.ltb_spec (o + d) (n - 1)) as [L|L].
  - apply C1; apply Cm; try (repeat split; lia); rewrite (square_future _ _ _ _ _ _ _ Q) by lia; lia.
  - apply C2. right. rewrite (B i c o (S d)); auto; [repeat split; lia|]. rewrite (square_future _ _ _ _ _ _ _ Q) by lia. lia.
Qed.

(** Ranks of a column whose first [k] cells are known and all different. *)
Lemma rank_column (f : nat -> Qc) k : (forall a b, a < k -> b < k -> f a = f b -> a = b) -> forall o, o < k -> rank_in (map f (seq 0 k)) (f o) = rank_of k f o.
Proof.
  intros Inj o Ho. unfold rank_in, rank_of.
  assert (G : forall P l, List.length (filter P (map f l)) = List.length (filter (fun x => P (f x)) l)).
  { intros P l. induction l as [|x l IH]; auto. cbn [map filter]. destruct (P (f x)); cbn [List.length]; auto. }
  rewrite !G. assert (E : filter (fun x => Qc_eqb (f x) (f o)) (seq 0 k) = [o]).
  { assert (S1 : seq 0 k = seq 0 o ++ o :: seq (S o) (k - S o)).
    { replace k with (o + S (k - S o)) at 1 by lia. rewrite seq_app. cbn [seq Nat.add]. reflexivity. }
    rewrite S1, filter_app. cbn [filter]. destruct (Qc_eqb_spec (f o) (f o)); [|congruence].
    assert (Z : forall l, (forall x, In x l -> x < k /\ x <> o) -> filter (fun x => Qc_eqb (f x) (f o)) l = []).
    { induction l as [|x l IH]; intros H; auto. cbn [filter]. destruct (Qc_eqb_spec (f x) (f o)) as [Ex|Ex].
      - exfalso. destruct (H x (or_introl eq_refl)) as (A & A'). apply A', Inj; auto.
      - apply IH. intros y Hy. apply H. right; auto. }
    rewrite !Z; auto; intros x Hx; apply in_seq in Hx; lia. }
  rewrite E. cbn [List.length]. change (qc (Z.of_nat 1)) with 1%Qc. rewrite Nat2Z.inj_add, qcZ_plus. change (qc (Z.of_nat 1)) with 1%Qc. change (qc 2) with (1 + 1)%Qc. field. exact two_ne.
Qed.
Lemma present_prefix (g : nat -> cell) (f : nat -> Qc) k m : k <= m -> (forall o, o < m -> g o = if o <? k then Some (f o) else None) -> present (map g (seq 0 m)) = map f (seq 0 k).
Proof.
  intros Hk H. replace m with (k + (m - k)) in * by lia. rewrite seq_app, map_app, present_app.
  assert (E1 : present (map g (seq 0 k)) = map f (seq 0 k)).
  { clear Hk. assert (H' : forall o, In o (seq 0 k) -> g o = Some (f o)) by (intros o Ho; apply in_seq in Ho; rewrite H by lia; destruct (Nat.ltb_spec o k); auto; lia).
    induction (seq 0 k) as [|x l IH]; auto. cbn [map]. rewrite present_cons, (H' x) by (left; auto). cbn [present flat_map app]. f_equal. apply IH. intros; apply H'; right; auto. }
  assert (E2 : present (map g (seq (0 + k) (m - k))) = []).
  { assert (H' : forall o, In o (seq (0 + k) (m - k)) -> g o = None) by (intros o Ho; apply in_seq in Ho; rewrite H by lia; destruct (Nat.ltb_spec o k); auto; lia).
    induction (seq (0 + k) (m - k)) as [|x l IH]; auto. cbn [map]. rewrite present_cons, (H' x) by (left; auto). cbn [present flat_map app]. apply IH. intros; apply H'; right; auto. }
  rewrite E1, E2, app_nil_r. auto.
Qed.

(** * The test *)

Definition spearman_of (t : tri) (n i c d : nat) : Qc :=
  let k := n - 2 - d in
  (1 - qc 6 * sumn k (fun o => (rank_of k (fun o => ratio t i c o (S d)) o - rank_of k (fun o => ratio t i c o d) o) * (rank_of k (fun o => ratio t i c o (S d)) o - rank_of k (fun o => ratio t i c o d) o)) / (qn k * qn k * qn k - qn k))%Qc.
Lemma untied_inj t n o0 a0 h i c d k : square t n o0 a0 h -> untied t -> i < ax0 (values t) -> c < ax1 (values t) -> k + d < n ->
  forall a b, a < k -> b < k -> ratio t i c a d = ratio t i c b d -> a = b.
Proof.
  intros Q U Hi Hc Hk a b Ha Hb E. pose proof Q as (R & E2 & E3).
  apply (U i c a b d); auto; try (repeat split; lia); rewrite (square_future _ _ _ _ _ _ _ Q) by lia; lia.
Qed.
Lemma rank_of_ext k f g : (forall o, o < k -> f o = g o) -> forall o, o < k -> rank_of k f o = rank_of k g o.
Proof.
  intros H o Ho. unfold rank_of. do 3 f_equal. rewrite (H o Ho). f_equal. apply filter_ext_in. intros x Hx. apply in_seq in Hx. rewrite H by lia. auto.
Qed.
Lemma links_rank t n o0 a0 h u : square t n o0 a0 h -> untied t -> 2 <= n -> ax0 (values u) = ax0 (values t) -> ax1 (values u) = ax1 (values t) ->
  n - 1 <= ax2 (values u) <= n -> ax3 (values u) = n - 1 ->
  (forall i c o d, in_range u i c o d -> cel u i c o d = if o + d <? n - 1 then Some (ratio t i c o d) else None) ->
  forall i c o d, in_range u i c o d -> av (ranks (values u)) i c o d = if o + d <? n - 1 then Some (rank_of (n - 1 - d) (fun o => ratio t i c o d) o) else None.
Proof.
  intros Q U Hn D0 D1 D2 D3 C i c o d Rg. cbn [ranks av]. pose proof (C i c o d Rg) as Co. unfold cel in Co. rewrite Co. destruct Rg as (Ri & Rc & Ro & Rd).
  destruct (Nat.ltb_spec (o + d) (n - 1)) as [L|L]; auto. cbn [option_map]. f_equal. unfold line.
  rewrite (present_prefix (fun j => av (values u) i c j d) (fun o => ratio t i c o d) (n - 1 - d) (ax2 (values u))).
  - apply (rank_column (fun o => ratio t i c o d)); [|lia]. eapply untied_inj; eauto; lia.
  - lia.
  - intros j Hj. pose proof (C i c j d ltac:(repeat split; lia)) as Cj. unfold cel in Cj. rewrite Cj.
    destruct (Nat.ltb_spec (j + d) (n - 1)), (Nat.ltb_spec j (n - 1 - d)); auto; lia.
Qed.

Lemma development_ok t n o0 a0 h : wf t -> blank_future t -> is_pattern t = false -> square t n o0 a0 h -> complete t -> untied t -> 4 <= n ->
  exists r, development_correlation t = Ok r /\
    (forall i c, i < ax0 (values t) -> c < ax1 (values t) ->
       dt_t r i c = map (spearman_of t n i c) (seq 0 (n - 3)) /\
       dt_mean r i c = (sumn (n - 3) (fun d => (qn (n - 2 - d) - 1) * spearman_of t n i c d) / sumn (n - 3) (fun d => qn (n - 2 - d) - 1))%Qc) /\
    dt_weights r = map (fun d => qn (n - 2 - d) - 1)%Qc (seq 0 (n - 3)) /\
    dt_variance r = (qc 2 / ((qn n - qc 2) * (qn n - qc 3)))%Qc.
Proof.
  intros W B Hp Q Cm U Hn. pose proof Q as (R & E2 & E3). unfold development_correlation.
  destruct (square_links t n o0 a0 h W B Hp Q Cm ltac:(lia)) as (l1 & -> & W1 & B1 & A10 & A11 & A12 & A13 & C1). cbn [rbind].
  destruct (drop_diagonal t n o0 a0 h W B Q Cm ltac:(lia)) as (t2 & -> & W2 & B2 & P2 & Q2 & Cm2 & T0 & T1 & Am). cbn [rbind].
  destruct (square_links t2 (n - 1) o0 a0 h W2 B2 ltac:(congruence) Q2 Cm2 ltac:(lia)) as (l2 & -> & Wl & Bl & L0 & L1 & L2 & L3 & C2). cbn [rbind].
  assert (Rt : forall i c o d, i < ax0 (values t) -> c < ax1 (values t) -> o + S d <= n - 2 -> ratio t2 i c o d = ratio t i c o d) by (intros i c o d Hi Hc L; unfold ratio; rewrite !Am by (auto; lia); auto).
  assert (U2 : untied t2).
  { intros i c o o' d Rg Rg' F F' E. pose proof Q2 as (_ & E22 & E23). destruct Rg as (Ri & Rc & Ro & Rd). destruct Rg' as (_ & _ & Ro' & _).
    rewrite (square_future _ _ _ _ _ _ _ Q2) in F by lia. rewrite (square_future _ _ _ _ _ _ _ Q2) in F' by lia. rewrite !Rt in E by (try congruence; lia).
    apply (U i c o o' d); auto; try (repeat split; try congruence; lia); rewrite (square_future _ _ _ _ _ _ _ Q) by lia; lia. }
  set (m2 := set_values l2 (ranks (values l2))). set (r1 := ranks (values l1)).
  set (m1 := set_values m2 (Arr (ax0 r1) (ax1 r1) (Nat.min (ax2 r1) (ax2 (values m2))) (ax3 r1 - 1) (fun i c o d => av r1 i c o (S d)))).
  assert (X2 : ax2 (values m1) = ax2 (values l2)) by (unfold m1, r1, m2; cbn; lia).
  assert (X3 : ax3 (values m1) = n - 2) by (unfold m1, r1; cbn; lia).
  assert (X0 : ax0 (values m1) = ax0 (values t)) by (unfold m1, r1; cbn; lia).
  assert (X1 : ax1 (values m1) = ax1 (values t)) by (unfold m1, r1; cbn; lia).
  assert (Wm2 : wf m2) by (apply wf_set_values; auto).
  assert (Wm1 : wf m1) by (apply wf_set_values; auto; unfold m2, r1; cbn; lia).
  set (f := fun i c d o => ratio t i c o d).
  assert (V2 : forall i c o d, i < ax0 (values t) -> c < ax1 (values t) -> o < ax2 (values l2) -> d < n - 2 ->
            cel m2 i c o d = if o + d <? n - 2 then Some (rank_of (n - 2 - d) (f i c d) o) else None).
  { intros i c o d Hi Hc Ho Hd. unfold cel, m2. cbn [set_values values].
    rewrite (links_rank t2 (n - 1) o0 a0 h l2 Q2 U2 ltac:(lia) L0 L1 L2 L3 C2) by (repeat split; lia). replace (n - 1 - 1) with (n - 2) by lia.
    destruct (Nat.ltb_spec (o + d) (n - 2)); auto. f_equal. apply rank_of_ext; [|lia]. intros o' Ho'. apply Rt; auto; lia. }
  assert (V1 : forall i c o d, i < ax0 (values t) -> c < ax1 (values t) -> o < ax2 (values l2) -> d < n - 2 ->
            cel m1 i c o d = if o + d <? n - 2 then Some (rank_of (n - 2 - d) (f i c (S d)) o) else None).
  { intros i c o d Hi Hc Ho Hd. unfold cel, m1. cbn [set_values values av]. unfold r1.
    rewrite (links_rank t n o0 a0 h l1 Q U ltac:(lia) A10 A11 A12 A13 C1) by (repeat split; lia).
    destruct (Nat.ltb_spec (o + S d) (n - 1)), (Nat.ltb_spec (o + d) (n - 2)); auto; try lia. replace (n - 1 - S d) with (n - 2 - d) by lia. reflexivity. }
  assert (M : forall v, (forall o d, month_of (set_values l2 v) o d = month_of l2 o d) /\ vdate (set_values l2 v) = vdate l2) by (intros v; split; reflexivity).
  assert (Fut : forall i c o d, i < ax0 (values t) -> c < ax1 (values t) -> o < ax2 (values l2) -> d < n - 2 -> o + d < n - 2 -> ~ future l2 o d).
  { intros i c o d Hi Hc Ho Hd L F. assert (N : cel l2 i c o d = None) by (apply Bl; auto; repeat split; lia).
    rewrite C2 in N by (repeat split; lia). destruct (Nat.ltb_spec (o + d) (n - 1 - 1)); [discriminate|lia]. }
  assert (Bm2 : blank_future m2).
  { intros i c o d (Ri & Rc & Ro & Rd) F. cbn in Ri, Rc, Ro, Rd. rewrite V2 by lia. destruct (Nat.ltb_spec (o + d) (n - 2)) as [L|L]; auto. exfalso. eapply (Fut i c o d); auto; lia. }
  assert (Bm1 : blank_future m1).
  { intros i c o d (Ri & Rc & Ro & Rd) F. rewrite X0 in Ri. rewrite X1 in Rc. rewrite X2 in Ro. rewrite X3 in Rd. rewrite V1 by lia. destruct (Nat.ltb_spec (o + d) (n - 2)) as [L|L]; auto. exfalso. eapply (Fut i c o d); auto; lia. }
  destruct (addsub_same OSub m1 m2 (or_intror eq_refl) Wm1 Wm2 ltac:(constructor; reflexivity) Bm1 Bm2) as (df & -> & Wd & _ & Sx & _ & Cd). cbn [rbind].
  set (sq := set_values df (map_arr (fun x => Some (nz x * nz x)%Qc) (values df))).
  destruct (same_axes_shape m1 df Wm1 Wd Sx) as (Y0 & Y1 & Y2 & Y3).
  rewrite E3. destruct (Z.eqb_spec (Z.of_nat n) 2); [lia|]. destruct (Z.eqb_spec (Z.of_nat n) 3); [lia|]. cbn [orb].
  assert (N3 : ax3 (values (agg_axis ASum sq AxOrigin)) = n - 2) by (rewrite (af_3 _ _ _ (agg_frame_ok ASum sq AxOrigin)); unfold sq; cbn; lia).
  rewrite N3. replace (n - 2 - 1) with (n - 3) by lia.
  assert (Pr : forall d, d < n - 3 -> qc (Z.of_nat n - (Z.of_nat d + 2))%Z = qn (n - 2 - d)) by (intros d Hd; unfold qn; f_equal; lia).
  assert (Wt : forall d, d < n - 3 -> qc (Z.of_nat n - (Z.of_nat d + 2) - 1)%Z = (qn (n - 2 - d) - 1)%Qc) by (intros d Hd; rewrite qcZ_minus, Pr by auto; reflexivity).
  assert (Dn : forall d, d < n - 3 -> let p := (Z.of_nat n - (Z.of_nat d + 2))%Z in qc (p * p * p - p)%Z = (qn (n - 2 - d) * qn (n - 2 - d) * qn (n - 2 - d) - qn (n - 2 - d))%Qc) by (intros d Hd p; unfold p; rewrite qcZ_minus, !qcZ_mult, !Pr by auto; reflexivity).
  assert (Nm : forall i c d, i < ax0 (values t) -> c < ax1 (values t) -> d < n - 3 ->
     nz (av (values (agg_axis ASum sq AxOrigin)) i c 0 d) = sumn (n - 2 - d) (fun o => (rank_of (n - 2 - d) (f i c (S d)) o - rank_of (n - 2 - d) (f i c d) o) * (rank_of (n - 2 - d) (f i c (S d)) o - rank_of (n - 2 - d) (f i c d) o))%Qc).
  { intros i c d Hi Hc Hd. destruct (agg_cell_ok ASum sq AxOrigin i c 0 d ltac:(split; discriminate)) as (_ & G). destruct G as (x & Ex & Sx'); [auto|].
    apply stores_nz in Sx'. unfold cel in Sx' at 1. rewrite Sx', Ex. unfold axis_length. cbn [axis_num axn along].
    change (ax2 (values sq)) with (ax2 (values df)). rewrite Y2, X2. replace (ax2 (values l2)) with ((n - 2 - d) + (ax2 (values l2) - (n - 2 - d))) by lia. rewrite sumn_app.
    rewrite (sumn_zero (ax2 (values l2) - (n - 2 - d))).
    - rewrite Qcplus_0_r. apply sumn_ext. intros o Ho. unfold sq, cel. cbn [set_values values map_arr av nz].
      pose proof (Cd i c o d ltac:(repeat split; lia)) as Sd. apply stores_nz in Sd. unfold cel in Sd. rewrite Sd. cbn [qop]. unfold amount. rewrite V1, V2 by lia.
      destruct (Nat.ltb_spec (o + d) (n - 2)); [reflexivity|lia].
    - intros o Ho. unfold sq, cel. cbn [set_values values map_arr av nz].
      pose proof (Cd i c (n - 2 - d + o) d ltac:(repeat split; lia)) as Sd. apply stores_nz in Sd. unfold cel in Sd. rewrite Sd. cbn [qop]. unfold amount. rewrite V1, V2 by lia.
      destruct (Nat.ltb_spec (n - 2 - d + o + d) (n - 2)); [lia|]. cbn [nz]. ring. }
  assert (Tk : forall i c d, i < ax0 (values t) -> c < ax1 (values t) -> d < n - 3 ->
     (1 - qc 6 * nz (av (values (agg_axis ASum sq AxOrigin)) i c 0 d) / (qc ((Z.of_nat n - (Z.of_nat d + 2)) * (Z.of_nat n - (Z.of_nat d + 2)) * (Z.of_nat n - (Z.of_nat d + 2)) - (Z.of_nat n - (Z.of_nat d + 2)))%Z))%Qc = spearman_of t n i c d).
  { intros i c d Hi Hc Hd. rewrite Nm, Dn by auto. reflexivity. }
  eexists. split; [reflexivity|]. cbn [dt_t dt_mean dt_weights dt_variance]. split; [|split].
  - intros i c Hi Hc. split.
    + apply map_ext_in. intros d Hd. apply in_seq in Hd. apply Tk; auto; lia.
    + rewrite !qsum_map_seq. rewrite (sumn_ext (n - 3) _ (fun d => (qn (n - 2 - d) - 1) * spearman_of t n i c d)%Qc) by (intros d Hd; rewrite Wt, Tk by auto; reflexivity).
      rewrite (sumn_ext (n - 3) _ (fun d => qn (n - 2 - d) - 1)%Qc Wt). reflexivity.
  - apply map_ext_in. intros d Hd. apply in_seq in Hd. apply Wt. lia.
  - rewrite qcZ_mult, !qcZ_minus. reflexivity.
Qed.

(** * What the numbers mean *)

Lemma spearman_correlation t n o0 a0 h i c d : square t n o0 a0 h -> untied t -> i < ax0 (values t) -> c < ax1 (values t) -> d < n - 3 ->
  correlation (n - 2 - d) (rank_of (n - 2 - d) (fun o => ratio t i c o d)) (rank_of (n - 2 - d) (fun o => ratio t i c o (S d))) (spearman_of t n i c d).
Proof.
  intros Q U Hi Hc Hd. apply spearman; [eapply untied_inj; eauto; lia|eapply untied_inj; eauto; lia|lia|reflexivity].
Qed.
Lemma weight_sum n : sumn n (fun d => qn (n + 1 - d) - 1)%Qc = (qn (n + 1) * qn n / (1 + 1))%Qc.
Proof.
  assert (G : ((1 + 1) * sumn n (fun d => qn (n + 1 - d) - 1) = qn (n + 1) * qn n)%Qc).
  { induction n as [|n IH]; [cbn [sumn]; change (qn 0) with 0%Qc; ring|].
    rewrite sumn_S_l. replace (S n + 1 - 0) with (S (S n)) by lia. rewrite (sumn_ext n _ (fun d => qn (n + 1 - d) - 1)%Qc) by (intros d Hd; do 2 f_equal; lia).
    rewrite Qcmult_plus_distr_r, IH. replace (S n + 1) with (S (S n)) by lia. replace (n + 1) with (S n) by lia. rewrite !qn_S. ring. }
  rewrite <- G. field. exact two_ne.
Qed.
Lemma weights_total n : 4 <= n -> sumn (n - 3) (fun d => qn (n - 2 - d) - 1)%Qc = ((qn n - qc 2) * (qn n - qc 3) / qc 2)%Qc.
Proof.
  intros Hn. rewrite (sumn_ext (n - 3) _ (fun d => qn (n - 3 + 1 - d) - 1)%Qc) by (intros d Hd; do 2 f_equal; lia). rewrite weight_sum.
  replace (qn (n - 3 + 1)) with (qn n - qc 2)%Qc by (unfold qn; rewrite <- qcZ_minus; f_equal; lia).
  replace (qn (n - 3)) with (qn n - qc 3)%Qc by (unfold qn; rewrite <- qcZ_minus; f_equal; lia). reflexivity.
Qed.
Lemma weights_pos n : 4 <= n -> (0 < sumn (n - 3) (fun d => qn (n - 2 - d) - 1))%Qc.
Proof.
  intros Hn. replace (n - 3) with (S (n - 4)) by lia. rewrite sumn_S_l.
  assert (P : forall d, d < n - 3 -> (0 < qn (n - 2 - d) - 1)%Qc).
  { intros d Hd. change 1%Qc with (qc 1). unfold qn. rewrite <- qcZ_minus. apply qcZ_pos. lia. }
  pose proof (P 0 ltac:(lia)) as P0. assert (N : (0 <= sumn (n - 4) (fun i => qn (n - 2 - S i) - 1))%Qc) by (apply sumn_nonneg; intros d Hd; apply Qclt_le_weak, P; lia). qlra.
Qed.

Lemma mean_between k w x s : (forall d, d < k -> (0 <= w d)%Qc) -> (0 < sumn k w)%Qc -> (forall d, d < k -> (- (1) <= x d /\ x d <= 1)%Qc) ->
  (s = sumn k (fun d => w d * x d) / sumn k w)%Qc -> (- (1) <= s /\ s <= 1)%Qc.
Proof.
  intros Hw Hp Hx ->. set (v := sumn k w) in *. set (z := sumn k (fun d => (w d * x d)%Qc)).
  assert (A1 : (0 <= v - z)%Qc).
  { unfold v, z. rewrite <- sumn_minus. apply sumn_nonneg. intros d Hd. destruct (Hx d Hd) as (_ & B). specialize (Hw d Hd). replace (w d - w d * x d)%Qc with (w d * (1 - x d))%Qc by ring. set (a := w d) in *. set (b := x d) in *. clearbody a b. qnra. }
  assert (A2 : (0 <= v + z)%Qc).
  { unfold v, z. rewrite <- sumn_plus. apply sumn_nonneg. intros d Hd. destruct (Hx d Hd) as (B & _). specialize (Hw d Hd). replace (w d + w d * x d)%Qc with (w d * (1 + x d))%Qc by ring. set (a := w d) in *. set (b := x d) in *. clearbody a b. qnra. }
  assert (V0 : v <> 0%Qc) by (intros E; rewrite E in Hp; exact (Qlt_irrefl _ Hp)).
  assert (E : (z / v * v = z)%Qc) by (field; auto). set (s := (z / v)%Qc) in *. clearbody s z v. rewrite <- E in A1, A2. clear E Hx Hw w x V0.
  split.
  - destruct (Qc_leb_spec (- (1)) s) as [L|L]; auto. exfalso. assert (L2 : (s < - (1))%Qc) by qlra. qnra.
  - destruct (Qc_leb_spec s 1) as [L|L]; auto. exfalso. assert (L2 : (1 < s)%Qc) by qlra. qnra.
Qed.

(** Two orders that agree have the correlation 1, opposite orders the correlation -1. *)
Lemma covariation_ext k r s r' s' : (forall o, o < k -> r o = r' o) -> (forall o, o < k -> s o = s' o) -> covariation k r s = covariation k r' s'.
Proof.
  intros Hr Hs. unfold covariation, mean_of_n. rewrite (sumn_ext k r r' Hr), (sumn_ext k s s' Hs). apply sumn_ext. intros o Ho. rewrite Hr, Hs by auto. reflexivity.
Qed.
Lemma correlation_unique k r s x y : correlation k r s x -> (y * covariation k r r = covariation k r s)%Qc -> x = y.
Proof.
  intros (_ & P & X) Y. assert (V0 : covariation k r r <> 0%Qc) by (intros E; rewrite E in P; exact (Qlt_irrefl _ P)).
  assert (Ex : (x = x * covariation k r r / covariation k r r)%Qc) by (field; auto). rewrite Ex, X, <- Y. field; auto.
Qed.
Lemma same_order k f g x : (forall o o', o < k -> o' < k -> (f o < f o' <-> g o < g o')%Qc) -> correlation k (rank_of k f) (rank_of k g) x -> x = 1%Qc.
Proof.
  intros H C. apply (correlation_unique _ _ _ _ _ C). rewrite Qcmult_1_l. apply covariation_ext; auto.
  intros o Ho. unfold rank_of. do 4 f_equal. apply filter_ext_in. intros o' Ho'. apply in_seq in Ho'.
  specialize (H o' o ltac:(lia) Ho). destruct (Qc_ltb_spec (f o') (f o)), (Qc_ltb_spec (g o') (g o)); auto; tauto.
Qed.
Lemma reversed_rank k f g : (forall a b, a < k -> b < k -> f a = f b -> a = b) -> (forall o o', o < k -> o' < k -> (f o < f o' <-> g o' < g o)%Qc) ->
  forall o, o < k -> (rank_of k g o = qn k + 1 - rank_of k f o)%Qc.
Proof.
  intros Inj H o Ho. unfold rank_of.
  assert (E : filter (fun o' => Qc_ltb (g o') (g o)) (seq 0 k) = filter (fun o' => Qc_ltb (f o) (f o')) (seq 0 k)).
  { apply filter_ext_in. intros o' Ho'. apply in_seq in Ho'. specialize (H o o' Ho ltac:(lia)). destruct (Qc_ltb_spec (f o) (f o')), (Qc_ltb_spec (g o') (g o)); auto; tauto. }
  rewrite E.
  assert (N : S (List.length (filter (fun o' => Qc_ltb (f o') (f o)) (seq 0 k)) + List.length (filter (fun o' => Qc_ltb (f o) (f o')) (seq 0 k))) = k).
  { assert (S1 : seq 0 k = seq 0 o ++ o :: seq (S o) (k - S o)).
    { replace k with (o + S (k - S o)) at 1 by lia. rewrite seq_app. cbn [seq Nat.add]. reflexivity. }
    assert (Z : forall l, (forall x, In x l -> x < k /\ x <> o) -> List.length (filter (fun o' => Qc_ltb (f o') (f o)) l) + List.length (filter (fun o' => Qc_ltb (f o) (f o')) l) = List.length l).
    { induction l as [|x l IH]; intros Hl; auto. cbn [filter]. assert (Hx : f x <> f o) by (intros E0; destruct (Hl x (or_introl eq_refl)) as (A & A'); apply A', Inj; auto).
      specialize (IH (fun z Hz => Hl z (or_intror Hz))). destruct (Qc_ltb_spec (f x) (f o)), (Qc_ltb_spec (f o) (f x)); cbn [List.length]; try lia.
      - exfalso. qlra.
      - exfalso. apply Hx, Qcle_antisym; apply Qcnot_lt_le; auto. }
    rewrite S1, !filter_app. cbn [filter]. destruct (Qc_ltb_spec (f o) (f o)); [exfalso; qlra|]. rewrite !app_length.
    pose proof (Z (seq 0 o)) as Z1. pose proof (Z (seq (S o) (k - S o))) as Z2. rewrite !seq_length in *.
    rewrite <- Nat.add_succ_l. specialize (Z1 ltac:(intros x Hx; apply in_seq in Hx; lia)). specialize (Z2 ltac:(intros x Hx; apply in_seq in Hx; lia)). lia. }
  set (a := List.length (filter (fun o' => Qc_ltb (f o') (f o)) (seq 0 k))) in *. set (b := List.length (filter (fun o' => Qc_ltb (f o) (f o')) (seq 0 k))) in *.
  unfold qn. change 1%Qc with (qc 1). rewrite <- qcZ_plus, <- qcZ_minus. f_equal. lia.
Qed.
Lemma opposite_order k f g x : (forall a b, a < k -> b < k -> f a = f b -> a = b) -> (forall o o', o < k -> o' < k -> (f o < f o' <-> g o' < g o)%Qc) ->
  correlation k (rank_of k f) (rank_of k g) x -> x = (- (1))%Qc.
Proof.
  intros Inj H C. apply (correlation_unique _ _ _ _ _ C).
  destruct (Nat.eq_dec k 0) as [->|K0]; [unfold covariation; cbn; ring|].
  rewrite (covariation_ext k (rank_of k f) (rank_of k g) (rank_of k f) (fun o => qn k + 1 - rank_of k f o)%Qc); auto; [|intros; apply reversed_rank; auto].
  rewrite !covariation_eq by lia. set (r := rank_of k f).
  rewrite (sumn_ext k (fun o => r o * (qn k + 1 - r o))%Qc (fun o => (qn k + 1) * r o - r o * r o)%Qc) by (intros; ring).
  rewrite !sumn_minus, sumn_scal.
  assert (Cs : forall n z, sumn n (fun _ => z) = (qn n * z)%Qc) by (clear; intros n z; induction n as [|n IH]; [change (qn 0) with 0%Qc; cbn [sumn]; ring|]; cbn [sumn]; rewrite IH, qn_S; ring).
  rewrite Cs. field. apply qn_ne. lia.
Qed.

Lemma three_ages t n o0 a0 h : wf t -> blank_future t -> is_pattern t = false -> square t n o0 a0 h -> complete t -> n = 3 -> exists e, development_correlation t = Err e.
Proof.
  intros W B Hp Q Cm ->. pose proof Q as (_ & E2 & E3). unfold development_correlation. destruct (link_ratio t); cbn [rbind]; eauto. destruct (getitem_valuation _ _); cbn [rbind]; eauto.
  destruct (link_ratio _); cbn [rbind]; eauto. destruct (tri_op _ _ _); cbn [rbind]; eauto. rewrite E3. cbn. eauto.
Qed.
