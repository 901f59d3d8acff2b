(** Proofs about the two views of a triangle. *)
From Verif Require Import Num NumFacts Arr Tri ArrFacts Spec TriFacts ConvFacts SliceFacts P_Core P_Filter UnionFacts SpecView.
From Coq Require Import Lia ZArith List Arith Psatz.
Import ListNotations.
Local Open Scope Z_scope.

Lemma dstep_grain f c h m : grain_months f = Z.of_nat h -> grain_months c = Z.of_nat (h * m) -> dstep f c = Ok m.
Proof.
  intros Hf Hc. destruct f, c; cbn in Hf, Hc |- *; try (f_equal; nia); exfalso; assert (m = 0 \/ 1 <= m)%nat by lia; nia.
Qed.
Lemma dstep_month g : dstep GM g = Ok (Z.to_nat (grain_months g)).
Proof. destruct g; reflexivity. Qed.

Lemma in_stored a o d : In (o, d) (stored_coords a) <->
  exists i c, (i < ax0 a)%nat /\ (c < ax1 a)%nat /\ (o < ax2 a)%nat /\ (d < ax3 a)%nat /\ av a i c o d <> None.
Proof.
  unfold stored_coords. rewrite in_flat_map. split.
  - intros (i & Hi & H). apply in_flat_map in H. destruct H as (c & Hc & H). apply in_flat_map in H.
    destruct H as (o' & Ho & H). apply in_map_iff in H. destruct H as (d' & E & H). injection E as -> ->.
    apply filter_In in H. destruct H as (Hd & H). apply in_seq in Hi, Hc, Ho, Hd.
    exists i, c. repeat split; try lia. destruct (av a i c o d); cbn in H; congruence.
  - intros (i & c & Hi & Hc & Ho & Hd & H). exists i. split; [apply in_seq; lia|].
    apply in_flat_map. exists c. split; [apply in_seq; lia|]. apply in_flat_map. exists o. split; [apply in_seq; lia|].
    apply in_map_iff. exists d. split; auto. apply filter_In. split; [apply in_seq; lia|].
    destruct (av a i c o d); cbn; congruence.
Qed.

Definition vd_fo (t : tri) := forallb (fun p => (fst p =? 0)%nat) (stored_coords (values t)).
Definition vd_off sign scale t o := if vd_fo t then Z.of_nat ((ax2 (values t) - 1) * scale) else sign * Z.of_nat (o * scale).
Definition vd_cols sign scale t := map (fun p => Z.of_nat (snd p) + vd_off sign scale t (fst p)) (stored_coords (values t)).
Definition vd_n1 sign t := let n0 := List.length (known_valuations t) in
  if (n0 =? 1)%nat && (sign =? -1) then List.length (odims t) else n0.

Lemma val_dev_eq sign t scale adj n : dstep (dgrain t) (ograin t) = Ok scale ->
  match vd_cols sign scale t with
  | [] => (0, vd_n1 sign t)
  | z :: zs => if zminl zs z <? 0
               then let k := - Z.min (zminl zs z) (- Z.of_nat ((ax2 (values t) - 1) * scale)) in
                    (k, Nat.max (Z.to_nat (zmaxl zs z + k + 1)) (vd_n1 sign t))
               else (0, vd_n1 sign t)
  end = (adj, n) ->
  (forall z, In z (vd_cols sign scale t) -> z + adj < Z.of_nat n) ->
  exists f, val_dev sign t = Ok (set_values t (Arr (ax0 (values t)) (ax1 (values t)) (ax2 (values t)) n f)) /\
    forall i c o d, f i c o d = let k := Z.of_nat d - vd_off sign scale t o - adj in
      if (0 <=? k) && (k <? Z.of_nat (ax3 (values t))) then cel t i c o (Z.to_nat k) else None.
Proof.
  intros Es Em Hb. unfold val_dev. rewrite Es. cbn [rbind]. unfold vd_cols, vd_off, vd_n1, vd_fo in *.
  cbv zeta in *. rewrite Em.
  match goal with |- context[forallb ?f ?l] => lazymatch f with context[adj] => replace (forallb f l) with true end end.
  2:{ symmetry. apply forallb_forall. intros z Hz. apply Z.ltb_lt. apply Hb. exact Hz. }
  eexists. split; [reflexivity|]. intros. reflexivity.
Qed.

Lemma vd_cols_in sign scale t z : In z (vd_cols sign scale t) ->
  exists i c o d, in_range t i c o d /\ cel t i c o d <> None /\ z = Z.of_nat d + vd_off sign scale t o.
Proof.
  intros Hz. apply in_map_iff in Hz. destruct Hz as ((o & d) & <- & H). apply in_stored in H.
  destruct H as (i & c & Hi & Hc & Ho & Hd & H). exists i, c, o, d. repeat split; auto.
Qed.
Lemma vd_cols_has sign scale t i c o d : in_range t i c o d -> cel t i c o d <> None ->
  In (Z.of_nat d + vd_off sign scale t o) (vd_cols sign scale t).
Proof.
  intros (H1 & H2 & H3 & H4) H. apply in_map_iff. exists (o, d). split; auto. apply in_stored. exists i, c. repeat split; auto.
Qed.
Lemma vd_off_beyond sign scale t o : data_beyond_first t -> (o < ax2 (values t))%nat ->
  vd_off sign scale t o = sign * Z.of_nat (o * scale).
Proof.
  intros B Ho. unfold vd_off. destruct (vd_fo t) eqn:E; auto. destruct B as [B|(i & c & o' & d & R & H1 & H2)].
  - replace o with 0%nat by lia. rewrite B. cbn. lia.
  - exfalso. unfold vd_fo in E. rewrite forallb_forall in E. specialize (E (o', d)).
    destruct R as (R1 & R2 & R3 & R4). rewrite in_stored in E.
    assert (H : (fst (o', d) =? 0)%nat = true) by (apply E; exists i, c; repeat split; auto).
    cbn in H. apply Nat.eqb_eq in H. lia.
Qed.

(** The plain shift: no cell leaves the array. *)
Lemma val_dev_plain sign t scale n : dstep (dgrain t) (ograin t) = Ok scale ->
  data_beyond_first t ->
  n = List.length (known_valuations t) -> (sign = 1 \/ n <> 1%nat \/ List.length (odims t) = 1%nat) ->
  (forall i c o d, in_range t i c o d -> cel t i c o d <> None ->
     0 <= Z.of_nat d + sign * Z.of_nat (o * scale) < Z.of_nat n) ->
  exists f, val_dev sign t = Ok (set_values t (Arr (ax0 (values t)) (ax1 (values t)) (ax2 (values t)) n f)) /\
    forall i c o d, (o < ax2 (values t))%nat ->
      f i c o d = let k := Z.of_nat d - sign * Z.of_nat (o * scale) in
                  if (0 <=? k) && (k <? Z.of_nat (ax3 (values t))) then cel t i c o (Z.to_nat k) else None.
Proof.
  intros Es B En Hs Hr.
  assert (Ecol : forall z, In z (vd_cols sign scale t) -> 0 <= z < Z.of_nat n).
  { intros z Hz. apply vd_cols_in in Hz. destruct Hz as (i & c & o & d & R & H & ->).
    rewrite vd_off_beyond by (auto; apply R). apply (Hr i c o d); auto. }
  assert (E1 : vd_n1 sign t = n).
  { unfold vd_n1. cbv zeta. rewrite <- En.
    destruct (Nat.eqb_spec n 1), (Z.eqb_spec sign (-1)); cbn; auto. destruct Hs as [ | [ | ]]; lia. }
  destruct (val_dev_eq sign t scale 0 n Es) as (f & Ef & Hf).
  - rewrite E1. destruct (vd_cols sign scale t) as [|z zs]; auto. destruct (Z.ltb_spec (zminl zs z) 0) as [H|H]; auto.
    pose proof (Ecol _ (zminl_in zs z)). lia.
  - intros z Hz. specialize (Ecol z Hz). lia.
  - exists f. split; auto. intros i c o d Ho. rewrite Hf. rewrite vd_off_beyond by auto.
    replace (Z.of_nat d - sign * Z.of_nat (o * scale) - 0) with (Z.of_nat d - sign * Z.of_nat (o * scale)) by lia. reflexivity.
Qed.

(** ** From ages to valuations *)
Lemma grid_month t o0 a0 h m o d : age_grid t o0 a0 h m -> (o < ax2 (values t))%nat -> (d < ax3 (values t))%nat ->
  month_of t o d = o0 + a0 - 1 + Z.of_nat (h * (d + m * o)).
Proof.
  intros (Hh & Hm & Eo & Ed & H9 & _) Ho Hd. unfold month_of. rewrite Eo, Ed.
  rewrite !nth_map_seq by auto. unfold age_month. specialize (H9 d Hd).
  destruct (Z.eqb_spec (a0 + Z.of_nat (h * d)) 9999); nia.
Qed.

Lemma sorted_ap v h n : (1 <= h)%nat -> StronglySorted Z.lt (map (fun k => v + Z.of_nat (h * k)) (seq 0 n)).
Proof.
  intros Hh. assert (G : forall s, StronglySorted Z.lt (map (fun k => v + Z.of_nat (h * k)) (seq s n))); auto.
  induction n; intros s; cbn; constructor; auto. apply Forall_forall. intros x Hx. apply in_map_iff in Hx.
  destruct Hx as (k & <- & Hk). apply in_seq in Hk. nia.
Qed.

Lemma ap_count v h K vd : (1 <= h)%nat -> exists n, (n <= K)%nat /\ forall k, (k < K)%nat -> (v + Z.of_nat (h * k) <= vd <-> (k < n)%nat).
Proof.
  intros Hh. exists (Nat.min K (Z.to_nat ((vd - v) / Z.of_nat h + 1))). split; [lia|]. intros k Hk.
  pose proof (Z.div_mod (vd - v) (Z.of_nat h)) as E. pose proof (Z.mod_pos_bound (vd - v) (Z.of_nat h)) as B.
  set (q := (vd - v) / Z.of_nat h) in *. set (r := (vd - v) mod Z.of_nat h) in *. clearbody q r. split; nia.
Qed.

Lemma known_in t v : wf t -> In v (known_valuations t) <->
  exists o d, (o < ax2 (values t))%nat /\ (d < ax3 (values t))%nat /\ month_of t o d = v /\ v <= vdate t.
Proof.
  intros W. unfold known_valuations. rewrite zunion_In, filter_In, in_valuations, <- (wf_o _ W), <- (wf_d _ W). split.
  - intros [((o & d & Ho & Hd & E) & Hv) | [] ]. exists o, d. rewrite valuation_month in E by auto.
    repeat split; auto. apply Z.leb_le in Hv; auto.
  - intros (o & d & Ho & Hd & E & Hv). left. split; [|apply Z.leb_le; auto]. exists o, d. rewrite valuation_month by auto. auto.
Qed.

Lemma known_grid t o0 a0 h m : wf t -> age_grid t o0 a0 h m -> no_gap t h m ->
  exists n, known_valuations t = map (fun k => o0 + a0 - 1 + Z.of_nat (h * k)) (seq 0 n) /\
    forall o d, (o < ax2 (values t))%nat -> (d < ax3 (values t))%nat -> (month_of t o d <= vdate t <-> (d + m * o < n)%nat).
Proof.
  intros W G Hg. destruct (ap_count (o0 + a0 - 1) h (ax3 (values t) + m * (ax2 (values t) - 1)) (vdate t)) as (n & Hn & Hk); [apply G|].
  assert (M : forall o d, (o < ax2 (values t))%nat -> (d < ax3 (values t))%nat -> (month_of t o d <= vdate t <-> (d + m * o < n)%nat)).
  { intros o d Ho Hd. rewrite (grid_month t o0 a0 h m) by auto. apply Hk. nia. }
  exists n. split; auto.
  apply sorted_Z_ext; [apply zunion_sorted|apply sorted_ap; apply G|]. intros v. rewrite known_in by auto. split.
  - intros (o & d & Ho & Hd & E & Hv). rewrite <- E in Hv. apply M in Hv; auto. rewrite (grid_month t o0 a0 h m) in E by auto.
    apply in_map_iff. exists (d + m * o)%nat. split; auto. apply in_seq. lia.
  - intros H. apply in_map_iff in H. destruct H as (k & <- & Hk'). apply in_seq in Hk'.
    pose proof (wf_o1 _ W) as W2. pose proof (wf_d1 _ W) as W3.
    assert (Hm : (1 <= m)%nat) by apply G.
    assert (X : exists o d, (o < ax2 (values t))%nat /\ (d < ax3 (values t))%nat /\ (d + m * o = k)%nat).
    { assert (Hkn : (k < ax3 (values t) + m * (ax2 (values t) - 1))%nat) by lia.
      destruct (Nat.lt_ge_cases k (ax3 (values t))) as [Hlt|Hge].
      { exists 0%nat, k. repeat split; auto; lia. }
      destruct Hg as [H1 | [H1 | H1]].
      - rewrite H1 in Hkn. lia.
      - set (o := Nat.min (k / m) (ax2 (values t) - 1)).
        pose proof (Nat.div_mod k m ltac:(lia)) as E. pose proof (Nat.mod_upper_bound k m ltac:(lia)) as B.
        exists o, (k - m * o)%nat. unfold o.
        destruct (Nat.min_spec (k / m) (ax2 (values t) - 1)) as [(L & ->) | (L & ->)]; repeat split; nia.
      - exfalso. rewrite (grid_month t o0 a0 h m) in H1 by (auto; lia).
        assert (o0 + a0 - 1 + Z.of_nat (h * k) <= vdate t) by (apply Hk; lia). nia. }
    destruct X as (o & d & Ho & Hd & <-). exists o, d. repeat split; auto.
    + apply (grid_month t o0 a0 h m); auto.
    + rewrite <- (grid_month t o0 a0 h m) by auto. apply M; auto. lia.
Qed.

Definition shifted (t u : tri) (m : nat) : Prop :=
  same_rows t u /\
  forall i c o k, (o < ax2 (values t))%nat -> (k < ax3 (values u))%nat ->
    cel u i c o k = if ((m * o <=? k) && (k - m * o <? ax3 (values t)))%nat then cel t i c o (k - m * o) else None.

Lemma shift_to_val_ok t o0 a0 h m : wf t -> age_grid t o0 a0 h m -> no_gap t h m -> blank_future t -> data_beyond_first t ->
  exists u, shift_to_val t = Ok u /\ shifted t u m /\ val_grid u o0 a0 h m /\
    ax3 (values u) = List.length (known_valuations t) /\ ddims u = Vals (known_valuations t) /\
    (forall o d, (o < ax2 (values t))%nat -> (d < ax3 (values t))%nat ->
       (month_of t o d <= vdate t <-> (d + m * o < ax3 (values u))%nat)).
Proof.
  intros W G Hg B D. destruct (known_grid t o0 a0 h m W G Hg) as (n & Ek & M).
  destruct G as (Hh & Hm & Eo & Ed & H9 & Gd & Go).
  assert (El : List.length (known_valuations t) = n) by (rewrite Ek, map_length, seq_length; auto).
  destruct (val_dev_plain 1 t m n) as (f & Ef & Hf); auto.
  { apply (dstep_grain _ _ h); auto. }
  { intros i c o d R H. split; [nia|]. destruct (Z.le_gt_cases (month_of t o d) (vdate t)) as [L|L].
    - apply M in L; [nia|apply R|apply R].
    - exfalso. apply H. apply B; auto. }
  unfold shift_to_val. rewrite Ef. cbn [rbind]. eexists. split; [reflexivity|].
  change (known_valuations (set_values t _)) with (known_valuations t).
  split; [split; [constructor; reflexivity|]|].
  2:{ split; [|split; [|split; [reflexivity|]]]; [|cbn; auto|cbn; auto].
      repeat split; cbn; auto. rewrite Ek; reflexivity. }
  - intros i c o k Ho Hk. change (ax3 (values _)) with n in Hk. change (cel (set_ddims _ _) i c o k) with (f i c o k).
    rewrite Hf by auto. cbv zeta.
    replace (Z.of_nat k - 1 * Z.of_nat (o * m)) with (Z.of_nat k - Z.of_nat (m * o)) by nia.
    generalize (m * o)%nat. intros x.
    destruct (Nat.leb_spec x k), (Nat.ltb_spec (k - x) (ax3 (values t))),
      (Z.leb_spec 0 (Z.of_nat k - Z.of_nat x)), (Z.ltb_spec (Z.of_nat k - Z.of_nat x) (Z.of_nat (ax3 (values t))));
      cbn [andb]; try reflexivity; try lia.
    replace (Z.to_nat (Z.of_nat k - Z.of_nat x)) with (k - x)%nat by lia. reflexivity.
Qed.

Lemma shifted_data t u o0 a0 h m : wf t -> age_grid t o0 a0 h m -> val_grid u o0 a0 h m -> shifted t u m -> blank_future t ->
  (forall o d, (o < ax2 (values t))%nat -> (d < ax3 (values t))%nat ->
       (month_of t o d <= vdate t -> (d + m * o < ax3 (values u))%nat)) ->
  same_data_by_date t u.
Proof.
  intros W G V (S & C) B M. split; auto.
  assert (Mu : forall o k, (k < ax3 (values u))%nat -> month_of u o k = o0 + a0 - 1 + Z.of_nat (h * k)).
  { intros o k Hk. unfold month_of. destruct V as (_ & _ & _ & -> & _). rewrite nth_map_seq by auto. auto. }
  split.
  - intros i c o d q R Hq. destruct R as (R1 & R2 & R3 & R4).
    assert (L : (d + m * o < ax3 (values u))%nat).
    { apply M; auto. destruct (Z.le_gt_cases (month_of t o d) (vdate t)) as [L|L]; auto. rewrite B in Hq; try discriminate; [repeat split|]; auto. }
    exists (d + m * o)%nat. split; auto. rewrite Mu, (grid_month t o0 a0 h m) by auto. split; auto.
    rewrite C by auto. replace (d + m * o - m * o)%nat with d by lia.
    destruct (Nat.leb_spec (m * o) (d + m * o)), (Nat.ltb_spec d (ax3 (values t))); cbn; auto; lia.
  - intros i c o k q (R1 & R2 & R3 & R4) Hq. rewrite (sr_2 _ _ S) in R3. rewrite C in Hq by auto.
    destruct (Nat.leb_spec (m * o) k) as [L1|]; [|discriminate]. destruct (Nat.ltb_spec (k - m * o) (ax3 (values t))) as [L2|]; [|discriminate].
    exists (k - m * o)%nat. split; auto. split; auto. rewrite Mu, (grid_month t o0 a0 h m) by auto. do 3 f_equal. lia.
Qed.

Lemma is_full_spec t : wf t -> is_full t = true <->
  Nat.min (ax2 (values t)) (ax3 (values t)) = 1%nat \/ no_future t.
Proof.
  intros W. unfold is_full. rewrite forallb_forall. split.
  - intros H. destruct (Nat.eq_dec (Nat.min (ax2 (values t)) (ax3 (values t))) 1) as [|E]; auto. right.
    intros o d Ho Hd F. assert (X := H o). rewrite forallb_forall in X. specialize (X ltac:(apply in_seq; lia) d ltac:(apply in_seq; lia)).
    rewrite nan_triangle_cases in X by auto. apply Nat.eqb_neq in E. rewrite E in X.
    unfold future in F. apply Z.ltb_lt in F. rewrite F in X. discriminate.
  - intros H o Ho. apply in_seq in Ho. apply forallb_forall. intros d Hd. apply in_seq in Hd.
    rewrite nan_triangle_cases by (auto; lia). destruct H as [->|H]; [reflexivity|].
    destruct (_ =? 1)%nat; [reflexivity|]. specialize (H o d ltac:(lia) ltac:(lia)). unfold future in H.
    destruct (Z.ltb_spec (vdate t) (month_of t o d)); [lia|reflexivity].
Qed.
Lemma is_ultimate_no t : wf t -> before_ultimate t -> is_ultimate t = false.
Proof.
  intros W H. unfold is_ultimate. destruct (existsb _ _) eqn:E; auto. apply existsb_exists in E.
  destruct E as (v & Hv & L). apply in_valuations in Hv. rewrite <- (wf_o _ W), <- (wf_d _ W) in Hv.
  destruct Hv as (o & d & Ho & Hd & Ev). rewrite valuation_month in Ev by auto. specialize (H o d Ho Hd).
  apply Z.leb_le in L. lia.
Qed.

Lemma to_valuation t o0 a0 h m : wf t -> age_grid t o0 a0 h m -> no_gap t h m -> blank_future t -> data_beyond_first t ->
  before_ultimate t -> not_full_cumulative t ->
  exists u, dev_to_val t = Ok u /\ shifted t u m /\ val_grid u o0 a0 h m /\ same_data_by_date t u /\
    ax3 (values u) = List.length (known_valuations t) /\ ddims u = Vals (known_valuations t).
Proof.
  intros W G Hg B D U F. destruct (shift_to_val_ok t o0 a0 h m W G Hg B D) as (u & Eu & S & V & L & Ed & M).
  assert (SD : same_data_by_date t u).
  { apply (shifted_data t u o0 a0 h m); auto. intros; apply M; auto. }
  exists u. split; auto. unfold dev_to_val. replace (is_val_tri t) with false.
  2:{ unfold is_val_tri. destruct G as (_ & _ & _ & -> & _). reflexivity. }
  destruct (is_full t) eqn:Ef; auto.
  rewrite is_ultimate_no by auto. apply is_full_spec in Ef; auto.
  assert (Hc : is_cumulative t <> Some true).
  { destruct F as [F|(H2 & H3 & o & d & Ho & Hd & Hf)]; auto. exfalso. destruct Ef as [Ef|Ef]; [lia|apply (Ef o d); auto]. }
  destruct (is_cumulative t) as [[|]|]; try congruence; cbn [rbind]; rewrite Eu; reflexivity.
Qed.

(** ** From valuations to ages *)
Lemma known_vals t l : wf t -> ddims t = Vals l -> (forall v, In v l -> v <= vdate t) -> known_valuations t = l.
Proof.
  intros W E H. apply sorted_Z_ext; [apply zunion_sorted| |].
  - pose proof (wf_dsort _ W) as S. rewrite E in S. auto.
  - intros v. rewrite known_in by auto. split.
    + intros (o & d & Ho & Hd & <- & _). unfold month_of. rewrite E. apply nth_In. rewrite (wf_d _ W), E in Hd. auto.
    + intros Hv. destruct (In_nth _ _ 0 Hv) as (d & Hd & Ev). exists 0%nat, d. pose proof (wf_o1 _ W).
      rewrite (wf_d _ W), E. unfold month_of. rewrite E. repeat split; auto.
Qed.

Lemma vgrid_month t o0 a0 h m o k : val_grid t o0 a0 h m -> (k < ax3 (values t))%nat ->
  month_of t o k = o0 + a0 - 1 + Z.of_nat (h * k).
Proof. intros (_ & _ & _ & E & _) Hk. unfold month_of. rewrite E, nth_map_seq by auto. auto. Qed.

Lemma hd_map_seq {A} (f : nat -> A) n d : (1 <= n)%nat -> hd d (map f (seq 0 n)) = f 0%nat.
Proof. destruct n; [lia|reflexivity]. Qed.
Lemma last_map_seq {A} (f : nat -> A) n d : (1 <= n)%nat -> last (map f (seq 0 n)) d = f (n - 1)%nat.
Proof. intros H. rewrite last_nth, map_length, seq_length. apply nth_map_seq. lia. Qed.

(** What [val_to_dev] does when no column is ultimate. *)
Lemma val_to_dev_plain t l : wf t -> ddims t = Vals l -> before_ultimate t ->
  val_to_dev t = shift_to_dev ((List.length l =? 1)%nat && (hd 0 l =? vdate t)) t.
Proof. intros W E U. unfold val_to_dev. rewrite E, is_ultimate_no by auto. reflexivity. Qed.

Lemma to_ages t o0 a0 h m : wf t -> val_grid t o0 a0 h m -> no_future t -> before_ultimate t -> short_history t ->
  (2 <= ax3 (values t) \/ ax2 (values t) = 1)%nat -> nothing_before t a0 -> data_beyond_first t ->
  exists u, val_to_dev t = Ok u /\ same_rows t u /\ age_grid u o0 a0 h m /\ ax3 (values u) = ax3 (values t) /\
    same_data_by_date t u /\
    forall i c o d, (o < ax2 (values t))%nat -> (d < ax3 (values t))%nat ->
      cel u i c o d = if (d + m * o <? ax3 (values t))%nat then cel t i c o (d + m * o) else None.
Proof.
  intros W G NF U SH N2 NB D. pose proof G as (Hh & Hm & Eo & Ed & Gd & Go).
  pose proof (wf_o1 _ W) as W2. pose proof (wf_d1 _ W) as W3.
  assert (LV : forall v, In v (dlist (ddims t)) -> v <= vdate t).
  { intros v Hv. destruct (In_nth _ _ 0 Hv) as (d & Hd & Ev). rewrite <- (wf_d _ W) in Hd.
    specialize (NF 0%nat d ltac:(lia) Hd). unfold future, month_of in NF. rewrite Ed in NF, Ev. cbn [dlist] in Ev. rewrite Ev in NF. lia. }
  assert (Ek : known_valuations t = dlist (ddims t)) by (apply known_vals; rewrite ?Ed in *; auto).
  assert (El : List.length (known_valuations t) = ax3 (values t)) by (rewrite Ek, (wf_d _ W); auto).
  destruct (val_dev_plain (-1) t m (ax3 (values t))) as (f & Ef & Hf); auto.
  { apply (dstep_grain _ _ h); auto. }
  { rewrite <- (wf_o _ W). lia. }
  { intros i c o d R H. specialize (NB i c o d R H). destruct R as (R1 & R2 & R3 & R4).
    rewrite (vgrid_month t o0 a0 h m), Eo, nth_map_seq in NB by auto. nia. }
  assert (Hf' : forall i c o d, (o < ax2 (values t))%nat -> f i c o d = if (d + m * o <? ax3 (values t))%nat then cel t i c o (d + m * o) else None).
  { intros i c o d Ho. rewrite Hf by auto. cbv zeta. replace (Z.of_nat d - -1 * Z.of_nat (o * m)) with (Z.of_nat (d + m * o)) by nia.
    rewrite Nat2Z.id. destruct (Nat.ltb_spec (d + m * o) (ax3 (values t))), (Z.leb_spec 0 (Z.of_nat (d + m * o))),
      (Z.ltb_spec (Z.of_nat (d + m * o)) (Z.of_nat (ax3 (values t)))); cbn [andb]; auto; lia. }
  rewrite (val_to_dev_plain t _ W Ed U). unfold shift_to_dev. rewrite Ef. cbn [rbind].
  change (dgrain (set_values t _)) with (dgrain t). rewrite dstep_month. cbn [rbind].
  change (ddims (set_values t _)) with (ddims t). change (odims (set_values t _)) with (odims t).
  change (ax3 (values (set_values t _))) with (ax3 (values t)).
  rewrite Ed. cbn [dlist].
  match goal with |- context[if ?b then last (odims t) 0 else hd 0 (odims t)] => replace (if b then last (odims t) 0 else hd 0 (odims t)) with o0 end.
  2:{ rewrite map_length, seq_length. destruct (Nat.eqb_spec (ax3 (values t)) 1) as [H1|H1]; cbn [andb].
      - rewrite Eo, hd_map_seq, last_map_seq by lia. replace (ax2 (values t)) with 1%nat by lia. cbn [Nat.sub].
        cbn [seq map hd]. destruct (_ =? _); lia.
      - rewrite Eo, hd_map_seq by lia. lia. }
  rewrite hd_map_seq by auto.
  replace (o0 + a0 - 1 + Z.of_nat (h * 0) - o0 + 1) with a0 by lia.
  rewrite Gd, Nat2Z.id.
  set (u := set_ddims _ _). exists u. split; [reflexivity|].
  assert (S : same_rows t u) by (constructor; reflexivity).
  assert (A : age_grid u o0 a0 h m).
  { repeat split; auto.
    - unfold u. cbn. f_equal. apply map_ext. intros k. nia.
    - change (ax3 (values u)) with (ax3 (values t)). intros k Hk.
      assert (o0 + a0 - 1 + Z.of_nat (h * k) <= vdate t).
      { rewrite <- (vgrid_month t o0 a0 h m 0) by auto. specialize (NF 0%nat k ltac:(lia) Hk). unfold future in NF. lia. }
      unfold short_history in SH. rewrite Eo, hd_map_seq in SH by auto. lia. }
  assert (C : forall i c o d, (o < ax2 (values t))%nat -> cel u i c o d = if (d + m * o <? ax3 (values t))%nat then cel t i c o (d + m * o) else None).
  { intros. apply Hf'; auto. }
  split; [auto|]. split; [auto|]. split; [reflexivity|]. split; [|intros; apply C; auto].
  split; auto. split.
  - intros i c o d q R Hq. assert (Hn : cel t i c o d <> None) by congruence. pose proof (NB i c o d R Hn) as L.
    destruct R as (R1 & R2 & R3 & R4). rewrite (vgrid_month t o0 a0 h m), Eo, nth_map_seq in L by auto.
    exists (d - m * o)%nat. change (ax3 (values u)) with (ax3 (values t)). split; [lia|].
    rewrite (grid_month u o0 a0 h m), (vgrid_month t o0 a0 h m), C by (auto; change (ax3 (values u)) with (ax3 (values t)); lia).
    replace (d - m * o + m * o)%nat with d by nia. split; auto. destruct (Nat.ltb_spec d (ax3 (values t))); auto; lia.
  - intros i c o d q (R1 & R2 & R3 & R4) Hq. change (ax3 (values u)) with (ax3 (values t)) in R4. change (ax2 (values u)) with (ax2 (values t)) in R3.
    rewrite C in Hq by auto. destruct (Nat.ltb_spec (d + m * o) (ax3 (values t))) as [L|]; [|discriminate].
    exists (d + m * o)%nat. split; auto. rewrite (grid_month u o0 a0 h m), (vgrid_month t o0 a0 h m) by auto. auto.
Qed.

Lemma same_rows_trans t u w : same_rows t u -> same_rows u w -> same_rows t w.
Proof. intros [] []. constructor; congruence. Qed.
Lemma found_in_trans t u w : same_rows t u -> found_in t u -> found_in u w -> found_in t w.
Proof.
  intros S H1 H2 i c o d q R Hq. pose proof R as (R1 & R2 & R3 & R4). destruct (H1 i c o d q R Hq) as (e & He & Me & Ce).
  destruct (H2 i c o e q) as (g & Hg & Mg & Cg); auto.
  { rewrite <- (sr_0 _ _ S) in R1. rewrite <- (sr_1 _ _ S) in R2. rewrite <- (sr_2 _ _ S) in R3. repeat split; auto. }
  exists g. repeat split; auto. congruence.
Qed.
Lemma same_rows_sym t u : same_rows t u -> same_rows u t.
Proof. intros []. constructor; congruence. Qed.
Lemma same_data_trans t u w : same_data_by_date t u -> same_data_by_date u w -> same_data_by_date t w.
Proof.
  intros (S1 & F1 & B1) (S2 & F2 & B2). split; [eapply same_rows_trans; eauto|]. split.
  - apply (found_in_trans t u w); auto.
  - apply (found_in_trans w u t); auto. apply same_rows_sym; auto.
Qed.

Lemma view_round_trip_len t o0 a0 h m : wf t -> age_grid t o0 a0 h m -> no_gap t h m -> blank_future t -> data_beyond_first t ->
  before_ultimate t -> not_full_cumulative t -> short_history t -> ~ future t 0 0 ->
  exists u w, dev_to_val t = Ok u /\ val_to_dev u = Ok w /\ same_data_by_date t w /\ age_grid w o0 a0 h m /\
    wf u /\ val_grid u o0 a0 h m /\ ddims u = Vals (known_valuations t) /\ ax3 (values w) = ax3 (values u).
Proof.
  intros W G Hg B D U F SH NF. destruct (to_valuation t o0 a0 h m W G Hg B D U F) as (u & Eu & Sh & V & SD & L & Ed).
  pose proof (wf_o1 _ W) as W2. pose proof (wf_d1 _ W) as W3.
  pose proof Sh as (S & C). pose proof SD as (_ & FI & _).
  assert (D' : data_beyond_first u).
  { destruct D as [D|(i & c & o & d & R & H1 & H2)]; [left; rewrite (sr_2 _ _ S); auto|].
    right. destruct (cel t i c o d) as [q|] eqn:E; [|congruence]. destruct (FI i c o d q R E) as (e & He & _ & Ce).
    destruct R as (R1 & R2 & R3 & R4). exists i, c, o, e. rewrite <- (sr_0 _ _ S) in R1. rewrite <- (sr_1 _ _ S) in R2. rewrite <- (sr_2 _ _ S) in R3.
    repeat split; auto. congruence. }
  assert (Wd : (1 <= ax3 (values u))%nat).
  { rewrite L. assert (K : In (month_of t 0 0) (known_valuations t)).
    { apply known_in; auto. exists 0%nat, 0%nat. unfold future in NF. repeat split; auto; lia. }
    destruct (known_valuations t); [destruct K|cbn; lia]. }
  assert (Wu : wf u).
  { constructor.
    - rewrite (sr_0 _ _ S), (sr_k _ _ S). apply W.
    - rewrite (sr_1 _ _ S), (sr_v _ _ S). apply W.
    - rewrite (sr_2 _ _ S), (sr_o _ _ S). apply W.
    - rewrite L, Ed. reflexivity.
    - rewrite (sr_2 _ _ S). auto.
    - auto.
    - rewrite (sr_o _ _ S). apply W.
    - rewrite Ed. apply zunion_sorted.
    - rewrite (sr_vd _ _ S). apply W.
    - rewrite Ed. intros v Hv. apply known_in in Hv; auto. destruct Hv as (o & d & _ & _ & _ & Hv). pose proof (wf_vd _ W). lia. }
  assert (Lu : forall o k, (k < ax3 (values u))%nat -> exists o' d, (o' < ax2 (values t))%nat /\ (d < ax3 (values t))%nat /\ month_of u o k = month_of t o' d /\ month_of u o k <= vdate t).
  { intros o k Hk. unfold month_of at 1 3. rewrite Ed. rewrite L in Hk.
    destruct (proj1 (known_in t (nth k (known_valuations t) 0) W)) as (o' & d & Ho & Hd & E & Hv); [apply nth_In; auto|].
    exists o', d. auto. }
  destruct (to_ages u o0 a0 h m) as (w & Ew & Sw & Gw & Lw & SDw & _); auto.
  - intros o k Ho Hk Fu. destruct (Lu o k Hk) as (o' & d & _ & _ & _ & Hv). unfold future in Fu. rewrite (sr_vd _ _ S) in Fu. lia.
  - intros o k Ho Hk. destruct (Lu o k Hk) as (o' & d & Ho' & Hd & -> & Hv). apply U; auto.
  - unfold short_history. rewrite (sr_vd _ _ S), (sr_o _ _ S). auto.
  - rewrite (sr_2 _ _ S). destruct (Nat.eq_dec (ax2 (values t)) 1) as [H1|H1]; [auto|left].
    destruct D' as [D'|(i & c & o & k & R & Ho & Hc)]; [rewrite (sr_2 _ _ S) in D'; lia|].
    destruct R as (R1 & R2 & R3 & R4). rewrite (sr_2 _ _ S) in R3. rewrite C in Hc by auto.
    destruct (Nat.leb_spec (m * o) k); [|cbn in Hc; congruence]. destruct G as (_ & Hm & _). nia.
  - intros i c o k (R1 & R2 & R3 & R4) Hc. rewrite (sr_2 _ _ S) in R3. rewrite C in Hc by auto.
    destruct (Nat.leb_spec (m * o) k); [|cbn in Hc; congruence].
    rewrite (vgrid_month u o0 a0 h m) by auto. rewrite (sr_o _ _ S). destruct G as (_ & _ & -> & _). rewrite nth_map_seq by auto. nia.
  - exists u, w. split; [auto|]. split; [auto|]. split; [|auto]. apply (same_data_trans t u w); auto.
Qed.
Lemma view_round_trip t o0 a0 h m : wf t -> age_grid t o0 a0 h m -> no_gap t h m -> blank_future t -> data_beyond_first t ->
  before_ultimate t -> not_full_cumulative t -> short_history t -> ~ future t 0 0 ->
  exists u w, dev_to_val t = Ok u /\ val_to_dev u = Ok w /\ same_data_by_date t w /\ age_grid w o0 a0 h m.
Proof.
  intros W G Hg B D U F SH NF. destruct (view_round_trip_len t o0 a0 h m W G Hg B D U F SH NF) as (u & w & ? & ? & ? & ? & _). exists u, w. auto.
Qed.

(** ** A diagonal back to ages *)
Lemma diagonal_ages t o0 h m : wf t -> ddims t = Vals [vdate t] ->
  (1 <= h)%nat -> (1 <= m)%nat ->
  odims t = map (fun k => o0 + Z.of_nat (h * m * k))%Z (seq 0 (ax2 (values t))) ->
  grain_months (dgrain t) = Z.of_nat h -> grain_months (ograin t) = Z.of_nat (h * m) ->
  before_ultimate t -> short_history t -> m = 1%nat \/ data_beyond_first t ->
  exists u, val_to_dev t = Ok u /\ same_data_by_date t u /\
    age_grid u o0 (vdate t - last (odims t) 0 + 1) h m.
Proof.
  intros W Ed Hh Hm Eo Gd Go U SH D.
  pose proof (wf_o1 _ W) as W2. pose proof (wf_d _ W) as W3. rewrite Ed in W3. cbn in W3.
  set (no := ax2 (values t)) in *.
  assert (Ek : known_valuations t = [vdate t]).
  { apply known_vals; auto. intros v [ <- | [] ]; lia. }
  assert (En : vd_n1 (-1) t = no) by (unfold vd_n1; rewrite Ek; cbn; symmetry; apply (wf_o _ W)).
  assert (Es : dstep (dgrain t) (ograin t) = Ok m) by (apply (dstep_grain _ _ h); auto).
  assert (X : exists n f, val_dev (-1) t = Ok (set_values t (Arr (ax0 (values t)) (ax1 (values t)) no n f)) /\
     (n <= m * (no - 1) + 1)%nat /\
     (forall i c o d, in_range t i c o 0 -> f i c o d = if (d =? m * (no - 1 - o))%nat then cel t i c o 0 else None) /\
     (forall i c o, in_range t i c o 0 -> cel t i c o 0 <> None -> (m * (no - 1 - o) < n)%nat)).
  { destruct (vd_fo t) eqn:Efo.
    - assert (Hst : forall i c o, in_range t i c o 0 -> cel t i c o 0 <> None -> o = 0%nat).
      { intros i c o (R1 & R2 & R3 & R4) H. unfold vd_fo in Efo. rewrite forallb_forall in Efo. specialize (Efo (o, 0%nat)).
        apply Nat.eqb_eq. apply Efo. apply in_stored. exists i, c. repeat split; auto. }
      assert (Hoff : forall o, vd_off (-1) m t o = Z.of_nat ((no - 1) * m)) by (intros o; unfold vd_off; rewrite Efo; auto).
      assert (Hsl : forall i c o, in_range t i c o 0 -> cel t i c o 0 <> None -> ((no - 1) * m < no)%nat).
      { intros i c o R H. destruct D as [->|[D|(i' & c' & o' & d' & R' & H1 & H2)]]; [lia|fold no in D; rewrite D; lia|].
        exfalso. destruct R' as (R1 & R2 & R3 & R4). rewrite W3 in R4. replace d' with 0%nat in * by lia.
        assert (o' = 0)%nat by (apply (Hst i' c' o'); auto; repeat split; auto; lia). lia. }
      destruct (val_dev_eq (-1) t m 0 no Es) as (f & Ef & Hf).
      { rewrite En. destruct (vd_cols (-1) m t) as [|z zs] eqn:Ec; auto.
        assert (Hz : forall x, In x (z :: zs) -> 0 <= x).
        { rewrite <- Ec. intros x Hx. apply vd_cols_in in Hx. destruct Hx as (i & c & o & d & R & H & ->). rewrite Hoff. apply Z.add_nonneg_nonneg; apply Nat2Z.is_nonneg. }
        pose proof (Hz _ (zminl_in zs z)). destruct (Z.ltb_spec (zminl zs z) 0); auto; lia. }
      { intros z Hz. apply vd_cols_in in Hz. destruct Hz as (i & c & o & d & R & H & ->). rewrite Hoff.
        assert (d = 0)%nat by (destruct R as (_ & _ & _ & R4); lia). subst d. specialize (Hsl i c o R H). lia. }
      exists no, f. split; [auto|]. split; [nia|]. split.
      + intros i c o d R. rewrite Hf, Hoff, W3. cbv zeta. destruct (cel t i c o 0) as [q|] eqn:Ec.
        * assert (o = 0)%nat by (apply (Hst i c o); auto; congruence). subst o. rewrite Nat.sub_0_r, (Nat.mul_comm m).
          destruct (Nat.eqb_spec d ((no - 1) * m)), (Z.leb_spec 0 (Z.of_nat d - Z.of_nat ((no - 1) * m) - 0)),
            (Z.ltb_spec (Z.of_nat d - Z.of_nat ((no - 1) * m) - 0) (Z.of_nat 1)); cbn [andb]; try lia; auto.
          replace (Z.to_nat (Z.of_nat d - Z.of_nat ((no - 1) * m) - 0)) with 0%nat by lia. auto.
        * destruct (Z.leb_spec 0 (Z.of_nat d - Z.of_nat ((no - 1) * m) - 0)),
            (Z.ltb_spec (Z.of_nat d - Z.of_nat ((no - 1) * m) - 0) (Z.of_nat 1)); cbn [andb]; try (destruct (_ =? _)%nat; auto; fail).
          replace (Z.to_nat (Z.of_nat d - Z.of_nat ((no - 1) * m) - 0)) with 0%nat by lia. rewrite Ec. destruct (_ =? _)%nat; auto.
      + intros i c o R H. pose proof (Hsl i c o R H). pose proof (Hst i c o R H). subst o. nia.
    - assert (Hex : exists i c o, in_range t i c o 0 /\ (1 <= o)%nat /\ cel t i c o 0 <> None).
      { unfold vd_fo in Efo. rewrite <- Bool.not_true_iff_false, forallb_forall in Efo.
        destruct (existsb (fun p => negb (fst p =? 0)%nat) (stored_coords (values t))) eqn:Ex.
        - apply existsb_exists in Ex. destruct Ex as ((o & d) & Hin & Hp). apply in_stored in Hin.
          destruct Hin as (i & c & R1 & R2 & R3 & R4 & H). rewrite W3 in R4. replace d with 0%nat in * by lia.
          exists i, c, o. repeat split; auto; try lia. cbn in Hp. destruct (Nat.eqb_spec o 0); [discriminate|lia].
        - exfalso. apply Efo. intros p Hp. destruct (fst p =? 0)%nat eqn:Ep; auto. exfalso.
          rewrite <- Bool.not_true_iff_false, existsb_exists in Ex. apply Ex. exists p. rewrite Ep. auto. }
      destruct Hex as (i0 & c0 & o1 & R0 & Ho1 & H0).
      assert (Hoff : forall o, vd_off (-1) m t o = - Z.of_nat (o * m)) by (intros o; unfold vd_off; rewrite Efo; lia).
      assert (Hin : forall z, In z (vd_cols (-1) m t) -> - Z.of_nat ((no - 1) * m) <= z <= 0).
      { intros z Hz. apply vd_cols_in in Hz. destruct Hz as (i & c & o & d & (R1 & R2 & R3 & R4) & H & ->). rewrite Hoff. fold no in R3. nia. }
      pose proof (vd_cols_has (-1) m t i0 c0 o1 0%nat R0 H0) as Hc0. rewrite Hoff in Hc0.
      set (k := Z.of_nat ((no - 1) * m)) in *.
      destruct (vd_cols (-1) m t) as [|z zs] eqn:Ec; [destruct Hc0|].
      assert (Hneg : zminl zs z < 0).
      { pose proof (zminl_le zs z _ Hc0). nia. }
      pose proof (Hin _ (zminl_in zs z)) as Hmin. pose proof (Hin _ (zmaxl_in zs z)) as Hmax.
      set (n := Nat.max (Z.to_nat (zmaxl zs z + k + 1)) no).
      destruct (val_dev_eq (-1) t m k n Es) as (f & Ef & Hf).
      { rewrite Ec, En. fold no. fold k. apply Z.ltb_lt in Hneg. rewrite Hneg. cbv zeta.
        replace (- Z.min (zminl zs z) (- k)) with k by lia. reflexivity. }
      { rewrite Ec. intros x Hx. pose proof (zmaxl_ge zs z x Hx). unfold n. lia. }
      exists n, f. split; [auto|]. split; [unfold n; nia|]. split.
      + intros i c o d (R1 & R2 & R3 & R4). rewrite Hf, Hoff, W3. cbv zeta. fold no in R3.
        replace (Z.of_nat d - - Z.of_nat (o * m) - k) with (Z.of_nat d - Z.of_nat (m * (no - 1 - o))) by (unfold k; nia).
        generalize (m * (no - 1 - o))%nat. intros x.
        destruct (Nat.eqb_spec d x), (Z.leb_spec 0 (Z.of_nat d - Z.of_nat x)), (Z.ltb_spec (Z.of_nat d - Z.of_nat x) (Z.of_nat 1)); cbn [andb]; try lia; auto.
        replace (Z.to_nat (Z.of_nat d - Z.of_nat x)) with 0%nat by lia. auto.
      + intros i c o R H. pose proof (vd_cols_has (-1) m t i c o 0%nat R H) as Hz. rewrite Ec, Hoff in Hz.
        pose proof (zmaxl_ge zs z _ Hz). destruct R as (_ & _ & R3 & _). fold no in R3. unfold n, k in *. nia. }
  destruct X as (n & f & Ef & Hn & Hf & Hb).
  rewrite (val_to_dev_plain t _ W Ed U). unfold shift_to_dev. rewrite Ef. cbn [rbind].
  change (dgrain (set_values t _)) with (dgrain t). rewrite dstep_month. cbn [rbind].
  change (ddims (set_values t _)) with (ddims t). change (odims (set_values t _)) with (odims t).
  change (ax3 (values (set_values t _))) with n.
  rewrite Ed. cbn [dlist hd List.length]. rewrite Z.eqb_refl. cbn [Nat.eqb andb].
  rewrite Gd, Nat2Z.id. set (a1 := vdate t - last (odims t) 0 + 1).
  set (u := set_ddims _ _). exists u. split; [reflexivity|].
  assert (S : same_rows t u) by (constructor; reflexivity).
  assert (Ea : a1 = vdate t - (o0 + Z.of_nat (h * m * (no - 1))) + 1).
  { unfold a1. rewrite Eo, last_map_seq by auto. auto. }
  assert (A : age_grid u o0 a1 h m).
  { repeat split; auto.
    - unfold u. cbn. f_equal. apply map_ext. intros k. nia.
    - change (ax3 (values u)) with n. intros k Hk. unfold short_history in SH. rewrite Eo, hd_map_seq in SH by auto. rewrite Ea.
      assert (h * k <= h * m * (no - 1))%nat by (rewrite <- Nat.mul_assoc; apply Nat.mul_le_mono_l; lia). rewrite Nat.mul_0_r in SH. lia. }
  assert (C : forall i c o d, in_range t i c o 0 -> cel u i c o d = if (d =? m * (no - 1 - o))%nat then cel t i c o 0 else None) by (intros; apply Hf; auto).
  assert (Mt : forall o, month_of t o 0 = vdate t) by (intros o; unfold month_of; rewrite Ed; reflexivity).
  assert (Hmo : forall o, (o < no)%nat -> (h * (m * (no - 1 - o) + m * o) = h * m * (no - 1))%nat).
  { intros o Ho. rewrite <- Nat.mul_add_distr_l. replace (no - 1 - o + o)%nat with (no - 1)%nat by lia. lia. }
  split; auto. split; auto. split.
  - intros i c o d q R Hq. destruct R as (R1 & R2 & R3 & R4). rewrite W3 in R4. replace d with 0%nat in * by lia.
    assert (R : in_range t i c o 0) by (repeat split; auto; lia).
    exists (m * (no - 1 - o))%nat. assert (L : (m * (no - 1 - o) < n)%nat) by (apply (Hb i c o); auto; congruence).
    split; [auto|]. rewrite (grid_month u o0 a1 h m), Mt by auto. split; [rewrite Ea, Hmo by auto; lia|].
    rewrite C by auto. rewrite Nat.eqb_refl. auto.
  - intros i c o d q (R1 & R2 & R3 & R4) Hq.
    change (ax0 (values u)) with (ax0 (values t)) in R1. change (ax1 (values u)) with (ax1 (values t)) in R2.
    change (ax2 (values u)) with no in R3.
    assert (R : in_range t i c o 0) by (repeat split; auto; lia).
    rewrite C in Hq by auto. destruct (Nat.eqb_spec d (m * (no - 1 - o))) as [->|]; [|discriminate].
    exists 0%nat. split; [lia|]. rewrite (grid_month u o0 a1 h m), Mt by auto. split; [rewrite Ea, Hmo by auto; lia|auto].
Qed.
