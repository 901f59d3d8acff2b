(** Proofs about aggregation. *)
From Coq Require Import Lia Sorted Permutation.
From Verif Require Import P_Align2 P_Align3 P_Arith P_Core P_Group DevFacts NumFacts SpecAgg.
Local Open Scope Qc_scope.

(** * Lists of numbers *)

Lemma present_app l l' : present (l ++ l') = present l ++ present l'.
Proof. apply flat_map_app. Qed.
Lemma present_In l x : In x (present l) <-> In (Some x) l.
Proof.
  unfold present. rewrite in_flat_map. split.
  - intros ([y|] & Hy & H); cbn in H; [destruct H as [->|[]]; auto|destruct H].
  - intros H. exists (Some x). split; [auto|left; auto].
Qed.
Lemma present_cons x l : present (x :: l) = present [x] ++ present l.
Proof. destruct x; reflexivity. Qed.
Lemma present_filter {A} (f : A -> cell) p (l : list A) : present (map f (filter p l)) = present (map (fun x => if p x then f x else None) l).
Proof.
  induction l as [|x l IH]; auto. cbn [filter map]. destruct (p x); cbn [map]; [|exact IH].
  rewrite present_cons, IH, (present_cons (f x) (map _ l)). reflexivity.
Qed.
Lemma how_many_list {A} P (f : A -> cell) (l : list A) :
  List.length (filter (fun j => match f j with Some x => P x | None => false end) l) = List.length (filter P (present (map f l))).
Proof.
  induction l as [|x l IH]; auto. cbn [filter map]. rewrite present_cons. rewrite filter_app, app_length, <- IH.
  destruct (f x) as [y|]; cbn; [destruct (P y); reflexivity|reflexivity].
Qed.
Lemma how_many_present n P f : count_if n P f = List.length (filter P (present (map f (seq 0 n)))).
Proof. apply how_many_list. Qed.
Lemma known_present n f : n_known n f = List.length (present (map f (seq 0 n))).
Proof. unfold n_known. rewrite how_many_present. f_equal. induction (present _) as [|x l IH]; cbn; congruence. Qed.
Lemma qsum_present_list {A} (g : Qc -> Qc) (f : A -> cell) l : qsum (map g (present (map f l))) = qsum (map (fun j => match f j with Some x => g x | None => 0 end) l).
Proof.
  induction l as [|x l IH]; auto. cbn [map]. rewrite present_cons, map_app, qsum_app, IH, qsum_cons.
  destruct (f x) as [y|]; cbn [present flat_map app map qsum fold_right]; ring.
Qed.
Lemma qsum_present_f (g : Qc -> Qc) n f : qsum (map g (present (map f (seq 0 n)))) = sumn n (fun j => match f j with Some x => g x | None => 0 end).
Proof. rewrite qsum_present_list. apply qsum_map_seq. Qed.
Lemma qsum_present n f : qsum (present (map f (seq 0 n))) = sumn n (fun j => nz (f j)).
Proof. rewrite <- (map_id (present _)), (qsum_present_f (fun x => x)). reflexivity. Qed.
Lemma qprod_app l l' : qprod (l ++ l') = qprod l * qprod l'.
Proof. induction l as [|x l IH]; [change (qprod l' = 1 * qprod l'); ring|]. change (x * qprod (l ++ l') = x * qprod l * qprod l'). rewrite IH. ring. Qed.
Lemma qprod_present n f : qprod (present (map f (seq 0 n))) = prodn n (fun j => match f j with Some q => q | None => 1 end).
Proof.
  induction n as [|n IH]; auto. rewrite seq_S, map_app, present_app, qprod_app, IH. cbn [prodn Nat.add map]. destruct (f n); cbn [present flat_map app qprod fold_right]; ring.
Qed.
Lemma qlen_pos l : (l <> [])%list -> 0 < qlen l.
Proof. intros H. destruct l as [|x l]; [congruence|]. unfold qlen, qc, Qclt. cbn [this Q2Qc]. rewrite !Qred_correct. unfold Qlt. cbn [inject_Z Qnum Qden List.length]. lia. Qed.
Lemma qdiv_mul a b : b <> 0 -> a / b * b = a.
Proof. intros H. unfold Qcdiv. rewrite <- Qcmult_assoc, (Qcmult_comm (/ b)), Qcmult_inv_r by auto. apply Qcmult_1_r. Qed.
Lemma mean_mul l m : mean_of l = Some m -> m * qlen l = qsum l.
Proof.
  destruct l as [|x l]; cbn [mean_of]; [discriminate|]. intros [= <-]. assert (H : 0 < qlen (x :: l)) by (apply qlen_pos; discriminate).
  apply qdiv_mul. intros E. rewrite E in H. exact (Qlt_irrefl _ H).
Qed.
Lemma qmax_cases a b : (qmax a b = a \/ qmax a b = b) /\ a <= qmax a b /\ b <= qmax a b.
Proof. unfold qmax. destruct (Qc_leb_spec a b); repeat split; auto; qlra. Qed.
Lemma qmin_cases a b : (qmin a b = a \/ qmin a b = b) /\ qmin a b <= a /\ qmin a b <= b.
Proof. unfold qmin. destruct (Qc_leb_spec a b); repeat split; auto; qlra. Qed.
Lemma fold_max l : forall x, In (fold_left qmax l x) (x :: l) /\ forall y, In y (x :: l) -> y <= fold_left qmax l x.
Proof.
  induction l as [|z l IH]; intros x; cbn [fold_left].
  - split; [left; auto|]. intros y [->|[]]. qlra.
  - destruct (IH (qmax x z)) as (H1 & H2). destruct (qmax_cases x z) as (C & A & B). split.
    + destruct H1 as [H1|H1]; [|right; right; auto]. destruct C as [C|C]; rewrite C in H1 at 1; [left|right; left]; auto.
    + assert (H3 := H2 _ (or_introl eq_refl)). intros y [<-|[<-|Hy]]; [qlra|qlra|apply H2; right; auto].
Qed.
Lemma fold_min l : forall x, In (fold_left qmin l x) (x :: l) /\ forall y, In y (x :: l) -> fold_left qmin l x <= y.
Proof.
  induction l as [|z l IH]; intros x; cbn [fold_left].
  - split; [left; auto|]. intros y [->|[]]. qlra.
  - destruct (IH (qmin x z)) as (H1 & H2). destruct (qmin_cases x z) as (C & A & B). split.
    + destruct H1 as [H1|H1]; [|right; right; auto]. destruct C as [C|C]; rewrite C in H1 at 1; [left|right; left]; auto.
    + assert (H3 := H2 _ (or_introl eq_refl)). intros y [<-|[<-|Hy]]; [qlra|qlra|apply H2; right; auto].
Qed.

(** * Sorting *)

Lemma qinsert_perm x l : Permutation (x :: l) (qinsert x l).
Proof. induction l as [|y l IH]; cbn; auto. destruct (Qc_leb x y); auto. rewrite perm_swap. constructor. exact IH. Qed.
Lemma qsort_perm l : Permutation l (qsort l).
Proof. induction l as [|x l IH]; cbn; auto. rewrite <- qinsert_perm. constructor. exact IH. Qed.
Lemma qinsert_sorted x l : StronglySorted Qcle l -> StronglySorted Qcle (qinsert x l).
Proof.
  induction 1 as [|y l S IH F]; cbn; [repeat constructor|]. destruct (Qc_leb_spec x y) as [H|H].
  - constructor; [constructor; auto|]. constructor; auto. rewrite Forall_forall in *. intros z Hz. specialize (F z Hz). cbv beta in F. qlra.
  - constructor; auto. rewrite Forall_forall in *. intros z Hz. apply (Permutation_in z (Permutation_sym (qinsert_perm x l))) in Hz. destruct Hz as [<-|Hz]; [qlra|auto].
Qed.
Lemma qsort_sorted l : StronglySorted Qcle (qsort l).
Proof. induction l; cbn; [constructor|]. apply qinsert_sorted. auto. Qed.
Lemma sorted_nth l : StronglySorted Qcle l -> forall i j, (i <= j < List.length l)%nat -> nth i l 0 <= nth j l 0.
Proof.
  induction 1 as [|y l S IH F]; intros i j H; [cbn in H; lia|]. destruct j as [|j].
  - replace i with 0%nat by lia. qlra.
  - destruct i as [|i]; cbn [nth]; [rewrite Forall_forall in F; apply F, nth_In; cbn in H; lia|apply IH; cbn in H; lia].
Qed.
Lemma filter_length_le {A} (p : A -> bool) l : (List.length (filter p l) <= List.length l)%nat.
Proof. induction l; cbn; [lia|]. destruct (p a); cbn; lia. Qed.
Lemma filter_none {A} (p : A -> bool) l : (forall x, In x l -> p x = false) -> filter p l = [].
Proof. induction l as [|x l IH]; intros H; auto. cbn. rewrite (H x (or_introl eq_refl)). apply IH. intros; apply H; right; auto. Qed.
Lemma filter_all {A} (p : A -> bool) l : (forall x, In x l -> p x = true) -> filter p l = l.
Proof. induction l as [|x l IH]; intros H; auto. cbn. rewrite (H x (or_introl eq_refl)). f_equal. apply IH. intros; apply H; right; auto. Qed.
Lemma split_at {A} k (l : list A) : (k <= List.length l)%nat -> l = firstn k l ++ skipn k l /\ List.length (firstn k l) = k /\ List.length (skipn k l) = (List.length l - k)%nat.
Proof. intros H. rewrite firstn_skipn, firstn_length_le, skipn_length by auto. auto. Qed.
Lemma In_firstn {A} k (l : list A) d x : In x (firstn k l) -> exists i, (i < k)%nat /\ (i < List.length l)%nat /\ nth i l d = x.
Proof.
  revert l. induction k as [|k IH]; intros [|y l] H; cbn in H; try contradiction. destruct H as [->|H].
  - exists 0%nat. cbn. repeat split; auto; lia.
  - destruct (IH _ H) as (i & A1 & A2 & A3). exists (S i). cbn. repeat split; auto; lia.
Qed.
Lemma In_skipn {A} k (l : list A) d x : In x (skipn k l) -> exists i, (k <= i < List.length l)%nat /\ nth i l d = x.
Proof.
  revert l. induction k as [|k IH]; intros l H.
  - cbn in H. destruct (In_nth _ _ d H) as (i & Hi & E). exists i. split; auto; lia.
  - destruct l as [|y l]; cbn in H; [contradiction|]. destruct (IH _ H) as (i & A1 & A2). exists (S i). cbn. split; auto; lia.
Qed.
(** How many elements of a sorted list lie below and above the [k]-th one. *)
Lemma sorted_counts s k : StronglySorted Qcle s -> (k < List.length s)%nat ->
  (List.length (filter (fun y => Qc_ltb y (nth k s 0%Qc)) s) <= k)%nat /\
  (k + 1 <= List.length (filter (fun y => Qc_leb y (nth k s 0%Qc)) s))%nat /\
  (List.length (filter (fun y => Qc_ltb (nth k s 0%Qc) y) s) <= List.length s - 1 - k)%nat /\
  (List.length s - k <= List.length (filter (fun y => Qc_leb (nth k s 0%Qc) y) s))%nat.
Proof.
  intros S Hk. set (x := nth k s 0%Qc).
  assert (M : forall i j, (i <= j < List.length s)%nat -> nth i s 0 <= nth j s 0) by (apply sorted_nth; auto).
  destruct (split_at k s) as (E & L1 & L2); [lia|]. destruct (split_at (k + 1) s) as (E' & L1' & L2'); [lia|].
  repeat split.
  - rewrite E, filter_app, app_length. rewrite (filter_none _ (skipn k s)).
    + pose proof (filter_length_le (fun y => Qc_ltb y x) (firstn k s)). cbn. lia.
    + intros y Hy. destruct (In_skipn k s 0 y Hy) as (i & Hi & <-). destruct (Qc_ltb_spec (nth i s 0) x) as [H|H]; auto. exfalso. specialize (M k i Hi). unfold x in H. qlra.
  - rewrite E', filter_app, app_length. rewrite (filter_all _ (firstn (k + 1) s)); [lia|].
    intros y Hy. destruct (In_firstn _ s 0 y Hy) as (i & Hi & Hi' & <-). destruct (Qc_leb_spec (nth i s 0) x) as [H|H]; auto. exfalso. apply H. apply M. lia.
  - rewrite E' at 1. rewrite filter_app, app_length. rewrite (filter_none _ (firstn (k + 1) s)).
    + pose proof (filter_length_le (fun y => Qc_ltb x y) (skipn (k + 1) s)). cbn. lia.
    + intros y Hy. destruct (In_firstn _ s 0 y Hy) as (i & Hi & Hi' & <-). destruct (Qc_ltb_spec x (nth i s 0)) as [H|H]; auto. exfalso. specialize (M i k ltac:(lia)). unfold x in H. qlra.
  - rewrite E at 2. rewrite filter_app, app_length. rewrite (filter_all _ (skipn k s)); [lia|].
    intros y Hy. destruct (In_skipn _ s 0 y Hy) as (i & Hi & <-). destruct (Qc_leb_spec x (nth i s 0)) as [H|H]; auto. exfalso. apply H. apply M. lia.
Qed.
Lemma filter_perm {A} (p : A -> bool) l l' : Permutation l l' -> Permutation (filter p l) (filter p l').
Proof. induction 1; cbn; auto. - destruct (p x); auto. - destruct (p y), (p x); auto. constructor. - eapply perm_trans; eauto. Qed.

(** * One line *)

Lemma line_ok a n f : reducing a -> holds_aggregate a n f (n2n (agg_line a (map f (seq 0 n)))).
Proof.
  intros (R1 & R2). set (v := present (map f (seq 0 n))).
  assert (K : n_known n f = List.length v) by apply known_present.
  assert (HM : forall P, count_if n P f = List.length (filter P v)) by (intros; apply how_many_present).
  assert (In' : forall x, In x v <-> exists j, (j < n)%nat /\ f j = Some x).
  { intros x. unfold v. rewrite present_In, in_map_iff. split.
    - intros (j & E & Hj). apply in_seq in Hj. exists j. split; [lia|auto].
    - intros (j & Hj & E). exists j. split; auto. apply in_seq. lia. }
  assert (Mean : forall m, mean_of v = Some m -> is_mean n f m).
  { intros m E. unfold is_mean. rewrite <- qsum_present, K. fold v. unfold count. fold (qlen v). apply mean_mul, E. }
  split.
  - rewrite K. intros E NP. destruct v as [|x r] eqn:Ev; [|discriminate]. unfold agg_line. fold v. rewrite Ev. destruct a; try congruence; reflexivity.
  - rewrite K. intros H.
    assert (NE : v = [] -> a = AProd \/ a = ASum) by (intros E; rewrite E in H; destruct H as [H|H]; [cbn in H; lia|exact H]).
    destruct a; try congruence; unfold agg_line; fold v.
    + exists (qsum v). split; [apply qsum_present|apply stores_n2n].
    + destruct (mean_of v) as [m|] eqn:E.
      * exists m. split; [apply Mean; auto|apply stores_n2n].
      * destruct v as [|? ?]; [|discriminate]. destruct (NE eq_refl); discriminate.
    + destruct v as [|x0 r0] eqn:Ev; [destruct (NE eq_refl); discriminate|]. rewrite <- Ev in *. assert (Nv : (0 < List.length v)%nat) by (rewrite Ev; cbn; lia).
      assert (Em : median_of v = Some ((nth ((List.length v - 1) / 2) (qsort v) 0 + nth (List.length v / 2) (qsort v) 0) / qc 2)).
      { unfold median_of. rewrite Ev at 1. reflexivity. }
      rewrite Em. eexists. split; [|apply stores_n2n].
      exists (nth ((List.length v - 1) / 2) (qsort v) 0), (nth (List.length v / 2) (qsort v) 0).
      assert (Ls : List.length (qsort v) = List.length v) by (symmetry; apply Permutation_length, qsort_perm).
      assert (HS : forall P, count_if n P f = List.length (filter P (qsort v))) by (intros P; rewrite HM; apply Permutation_length, filter_perm, qsort_perm).
      pose proof (Nat.div_mod (List.length v - 1) 2) as D1. pose proof (Nat.mod_upper_bound (List.length v - 1) 2) as U1.
      pose proof (Nat.div_mod (List.length v) 2) as D2. pose proof (Nat.mod_upper_bound (List.length v) 2) as U2.
      split; [|split].
      * unfold lower_middle. rewrite !HS, K. destruct (sorted_counts (qsort v) ((List.length v - 1) / 2) (qsort_sorted v)) as (A & B & C & D); [lia|]. rewrite Ls in *. lia.
      * unfold upper_middle. rewrite !HS, K. destruct (sorted_counts (qsort v) (List.length v / 2) (qsort_sorted v)) as (A & B & C & D); [lia|]. lia.
      * unfold count. change (Z.of_nat 2) with 2%Z. apply qdiv_mul. discriminate.
    + destruct v as [|x r] eqn:Ev; [destruct (NE eq_refl); discriminate|]. rewrite <- Ev in *. destruct (fold_max r x) as (A & B). rewrite <- Ev in A, B.
      exists (fold_left qmax r x). split; [|apply stores_n2n]. split; [apply In'; auto|]. intros j y Hj E. apply B, In'. eauto.
    + destruct v as [|x r] eqn:Ev; [destruct (NE eq_refl); discriminate|]. rewrite <- Ev in *. destruct (fold_min r x) as (A & B). rewrite <- Ev in A, B.
      exists (fold_left qmin r x). split; [|apply stores_n2n]. split; [apply In'; auto|]. intros j y Hj E. apply B, In'. eauto.
    + exists (qprod v). split; [apply qprod_present|apply stores_n2n].
    + unfold var_of. destruct (mean_of v) as [m|] eqn:E.
      * destruct (mean_of (map (fun x => (x - m) * (x - m)) v)) as [w|] eqn:E2.
        -- exists w. split; [|apply stores_n2n]. exists m. split; [apply Mean; auto|]. apply mean_mul in E2. unfold qlen in E2. rewrite map_length in E2. rewrite K. unfold count. rewrite E2. apply (qsum_present_f (fun x => (x - m) * (x - m))).
        -- destruct v as [|? ?]; discriminate.
      * destruct v as [|? ?]; [|discriminate]. destruct (NE eq_refl); discriminate.
Qed.

(** * Aggregating along an axis *)

Lemma agg_values a t ax : values (agg_axis a t ax) = map_arr n2n (reduce_arr a (axis_num ax) (values t)).
Proof. unfold agg_axis. destruct ax; cbn [axis_num]; destruct (1 <? _)%nat; reflexivity. Qed.
Lemma agg_line_eq t ax i c o d : line (axis_num ax) (values t) i c o d = map (along t ax i c o d) (seq 0 (axis_length t ax)).
Proof. destruct ax; reflexivity. Qed.
Lemma agg_cel a t ax i c o d : cel (agg_axis a t ax) i c o d = n2n (agg_line a (map (along t ax i c o d) (seq 0 (axis_length t ax)))).
Proof. unfold cel. rewrite agg_values. cbn [map_arr reduce_arr av]. rewrite agg_line_eq. reflexivity. Qed.
Lemma firstn_one (l : list Z) : (1 <? List.length l)%nat = true -> firstn 1 l = [nth 0 l 0%Z].
Proof. destruct l as [|x l]; [discriminate|reflexivity]. Qed.
Lemma agg_frame_ok a t ax : agg_frame t ax (agg_axis a t ax).
Proof.
  constructor; try (rewrite agg_values; destruct ax; reflexivity); unfold agg_axis; destruct ax; cbn [axis_num]; destruct (1 <? _)%nat eqn:E; try reflexivity.
  cbn. destruct (odims t); [discriminate|reflexivity].
Qed.
Lemma agg_cell_ok a t ax i c o d : reducing a -> holds_aggregate a (axis_length t ax) (along t ax i c o d) (cel (agg_axis a t ax) i c o d).
Proof. intros R. rewrite agg_cel. apply line_ok, R. Qed.

Lemma aggregate_ok a ax t : reducing a -> aggregate a (Some ax) true t = Ok (AggTri (agg_axis a t ax)).
Proof. intros (R1 & R2). destruct a; try congruence; reflexivity. Qed.
Lemma aggregate_number a ax t : reducing a ->
  (match ax with AxIndex => True | _ => ax0 (values t) = 1%nat end) -> (match ax with AxColumn => True | _ => ax1 (values t) = 1%nat end) ->
  (match ax with AxOrigin => True | _ => ax2 (values t) = 1%nat end) -> (match ax with AxDev => True | _ => ax3 (values t) = 1%nat end) ->
  aggregate a (Some ax) false t = Ok (AggNum (cel (agg_axis a t ax) 0 0 0 0)).
Proof.
  intros (R1 & R2) H0 H1 H2 H3. unfold aggregate.
  assert (E : ((ax0 (values (agg_axis a t ax)) =? 1) && (ax1 (values (agg_axis a t ax)) =? 1) && (ax2 (values (agg_axis a t ax)) =? 1) && (ax3 (values (agg_axis a t ax)) =? 1))%nat = true).
  { rewrite (af_0 _ _ _ (agg_frame_ok a t ax)), (af_1 _ _ _ (agg_frame_ok a t ax)), (af_2 _ _ _ (agg_frame_ok a t ax)), (af_3 _ _ _ (agg_frame_ok a t ax)).
    destruct ax; rewrite ?H0, ?H1, ?H2, ?H3; reflexivity. }
  destruct a; try congruence; rewrite E; reflexivity.
Qed.
Lemma aggregate_no_number a ax t : reducing a ->
  ~ ((match ax with AxIndex => True | _ => ax0 (values t) = 1%nat end) /\ (match ax with AxColumn => True | _ => ax1 (values t) = 1%nat end) /\
     (match ax with AxOrigin => True | _ => ax2 (values t) = 1%nat end) /\ (match ax with AxDev => True | _ => ax3 (values t) = 1%nat end)) ->
  aggregate a (Some ax) false t = Ok (AggTri (agg_axis a t ax)).
Proof.
  intros (R1 & R2) H. unfold aggregate.
  assert (E : ((ax0 (values (agg_axis a t ax)) =? 1) && (ax1 (values (agg_axis a t ax)) =? 1) && (ax2 (values (agg_axis a t ax)) =? 1) && (ax3 (values (agg_axis a t ax)) =? 1))%nat = false).
  { rewrite (af_0 _ _ _ (agg_frame_ok a t ax)), (af_1 _ _ _ (agg_frame_ok a t ax)), (af_2 _ _ _ (agg_frame_ok a t ax)), (af_3 _ _ _ (agg_frame_ok a t ax)).
    apply not_true_is_false. intros F. apply H. rewrite !andb_true_iff, !Nat.eqb_eq in F. destruct ax; tauto. }
  destruct a; try congruence; rewrite E; reflexivity.
Qed.

(** * Order of the cells *)

Lemma present_perm l l' : Permutation l l' -> Permutation (present l) (present l').
Proof. intros H. unfold present. apply Permutation_flat_map, H. Qed.
Lemma qprod_perm l l' : Permutation l l' -> qprod l = qprod l'.
Proof.
  induction 1; auto.
  - change (x * qprod l = x * qprod l'). rewrite IHPermutation. reflexivity.
  - change (y * (x * qprod l) = x * (y * qprod l)). ring.
  - congruence.
Qed.
Lemma mean_perm l l' : Permutation l l' -> mean_of l = mean_of l'.
Proof.
  intros H. pose proof (Permutation_length H) as L. unfold mean_of, qlen. rewrite L, (qsum_perm _ _ H).
  destruct l, l'; cbn in L; try discriminate; reflexivity.
Qed.
Lemma sorted_unique l : forall l', StronglySorted Qcle l -> StronglySorted Qcle l' -> Permutation l l' -> l = l'.
Proof.
  induction l as [|x l IH]; intros l' S S' H.
  - apply Permutation_nil in H. auto.
  - destruct l' as [|y l']; [apply Permutation_sym, Permutation_nil in H; discriminate|]. inversion S as [|? ? S1 F]; inversion S' as [|? ? S1' F']; subst.
    assert (x = y).
    { rewrite Forall_forall in F, F'. assert (In x (y :: l')) by (apply (Permutation_in x H); left; auto). assert (In y (x :: l)) by (apply (Permutation_in y (Permutation_sym H)); left; auto).
      destruct H0 as [->|H0]; auto. destruct H1 as [->|H1]; auto. apply Qcle_antisym; auto. }
    subst. f_equal. apply IH; auto. eapply Permutation_cons_inv; eauto.
Qed.
Lemma median_perm l l' : Permutation l l' -> median_of l = median_of l'.
Proof.
  intros H. pose proof (Permutation_length H) as L. unfold median_of.
  rewrite (sorted_unique (qsort l) (qsort l') (qsort_sorted l) (qsort_sorted l')), L; [destruct l, l'; cbn in L; try discriminate; reflexivity|].
  rewrite <- !qsort_perm. exact H.
Qed.
Lemma agg_line_perm a l l' : Permutation l l' -> agg_line a l = agg_line a l'.
Proof.
  intros H. apply present_perm in H. unfold agg_line. set (v := present l) in *. set (v' := present l') in *. clearbody v v'.
  pose proof (Permutation_length H) as L.
  destruct a; auto.
  - f_equal. apply qsum_perm, H.
  - apply mean_perm, H.
  - apply median_perm, H.
  - destruct v as [|x v], v' as [|y v']; try discriminate; auto. f_equal. destruct (fold_max v x) as (A & B), (fold_max v' y) as (A' & B').
    apply Qcle_antisym; [apply B', (Permutation_in _ H), A|apply B, (Permutation_in _ (Permutation_sym H)), A'].
  - destruct v as [|x v], v' as [|y v']; try discriminate; auto. f_equal. destruct (fold_min v x) as (A & B), (fold_min v' y) as (A' & B').
    apply Qcle_antisym; [apply B, (Permutation_in _ (Permutation_sym H)), A'|apply B', (Permutation_in _ H), A].
  - f_equal. apply qprod_perm, H.
  - unfold var_of. rewrite (mean_perm _ _ H). destruct (mean_of v') as [m|]; auto. apply mean_perm, Permutation_map, H.
Qed.
Lemma agg_reordered a ax t u p i c o d : reordered ax t u p -> in_range (agg_axis a t ax) i c o d ->
  cel (agg_axis a u ax) i c o d = cel (agg_axis a t ax) i c o d.
Proof.
  intros R (Hi & Hc & Ho & Hd). rewrite !agg_cel. f_equal.
  rewrite (af_0 _ _ _ (agg_frame_ok a t ax)) in Hi. rewrite (af_1 _ _ _ (agg_frame_ok a t ax)) in Hc.
  rewrite (af_2 _ _ _ (agg_frame_ok a t ax)) in Ho. rewrite (af_3 _ _ _ (agg_frame_ok a t ax)) in Hd.
  assert (El : axis_length u ax = axis_length t ax) by (destruct ax; cbn; apply R).
  pose proof (rr_perm _ _ _ _ R) as P. fold (axis_length t ax) in P. pose proof (Permutation_length P) as Lp. rewrite seq_length in Lp.
  transitivity (agg_line a (map (along t ax i c o d) p)); [|apply agg_line_perm, Permutation_map, P].
  f_equal. rewrite El, <- Lp. transitivity (map (along t ax i c o d) (map (fun k => nth k p 0%nat) (seq 0 (List.length p)))).
  - rewrite map_map. apply map_ext_in. intros j Hj. apply in_seq in Hj. rewrite Lp in Hj. destruct ax; cbn in Hj |- *; rewrite (rr_cell _ _ _ _ R); auto; repeat split; auto; lia.
  - f_equal. apply (sel_seq_all p 0%nat). reflexivity.
Qed.

(** * Sums *)

Lemma agg_sum_amount t ax i c o d : amount (agg_axis ASum t ax) i c o d = sumn (axis_length t ax) (fun j => nz (along t ax i c o d j)).
Proof. unfold amount. rewrite agg_cel, nz_n2n. cbn [agg_line nz]. apply qsum_present. Qed.
Lemma agg_length a t ax ax' : ax <> ax' -> axis_length (agg_axis a t ax) ax' = axis_length t ax'.
Proof. intros H. unfold axis_length. rewrite agg_values. destruct ax, ax'; try congruence; reflexivity. Qed.
Definition axis_eqb (a b : axis) : bool := (axis_num a =? axis_num b)%nat.
Lemma agg_sum_order t ax ax' i c o d :
  amount (agg_axis ASum (agg_axis ASum t ax) ax') i c o d = amount (agg_axis ASum (agg_axis ASum t ax') ax) i c o d.
Proof.
  destruct (axis_eqb ax ax') eqn:E; [destruct ax, ax'; try discriminate; reflexivity|].
  assert (N : ax <> ax') by (intros ->; unfold axis_eqb in E; rewrite Nat.eqb_refl in E; discriminate). assert (N' : ax' <> ax) by congruence.
  rewrite !agg_sum_amount, !agg_length by auto.
  transitivity (sumn (axis_length t ax') (fun j => sumn (axis_length t ax) (fun k => nz (along t ax (if axis_eqb ax' AxIndex then j else i) (if axis_eqb ax' AxColumn then j else c) (if axis_eqb ax' AxOrigin then j else o) (if axis_eqb ax' AxDev then j else d) k)))).
  - apply sumn_ext. intros j _. destruct ax'; cbn; change (nz (cel ?u ?i ?c ?o ?d)) with (amount u i c o d); rewrite agg_sum_amount; reflexivity.
  - rewrite sumn_swap. apply sumn_ext. intros k _.
    destruct ax; cbn; change (nz (cel (agg_axis ?f ?u ?x) ?i ?c ?o ?d)) with (amount (agg_axis f u x) i c o d); rewrite agg_sum_amount;
    apply sumn_ext; intros j _; destruct ax'; try congruence; reflexivity.
Qed.
Lemma agg_sum_all t : amount (agg_axis ASum (agg_axis ASum (agg_axis ASum (agg_axis ASum t AxIndex) AxColumn) AxOrigin) AxDev) 0 0 0 0
  = sumn (ax0 (values t)) (fun i => sumn (ax1 (values t)) (fun c => sumn (ax2 (values t)) (fun o => sumn (ax3 (values t)) (fun d => amount t i c o d)))).
Proof.
  rewrite agg_sum_amount, !agg_length by discriminate. change (axis_length t AxDev) with (ax3 (values t)).
  transitivity (sumn (ax3 (values t)) (fun d => sumn (ax2 (values t)) (fun o => sumn (ax1 (values t)) (fun c => sumn (ax0 (values t)) (fun i => amount t i c o d))))).
  - apply sumn_ext. intros d _. cbn [along]. fold (amount (agg_axis ASum (agg_axis ASum (agg_axis ASum t AxIndex) AxColumn) AxOrigin) 0 0 0 d).
    rewrite agg_sum_amount, !agg_length by discriminate. apply sumn_ext. intros o _. cbn [along]. fold (amount (agg_axis ASum (agg_axis ASum t AxIndex) AxColumn) 0 0 o d).
    rewrite agg_sum_amount, !agg_length by discriminate. apply sumn_ext. intros c _. cbn [along]. fold (amount (agg_axis ASum t AxIndex) 0 c o d).
    rewrite agg_sum_amount. reflexivity.
  - transitivity (sumn (ax3 (values t)) (fun d => sumn (ax0 (values t)) (fun i => sumn (ax1 (values t)) (fun c => sumn (ax2 (values t)) (fun o => amount t i c o d))))).
    + apply sumn_ext. intros d _. rewrite sumn_swap. etransitivity; [apply sumn_ext; intros c _; apply sumn_swap|]. rewrite sumn_swap. reflexivity.
    + rewrite sumn_swap. apply sumn_ext. intros i _. rewrite sumn_swap. apply sumn_ext. intros c _. rewrite sumn_swap. reflexivity.
Qed.
Lemma agg_sum_axis t ax i c o d : cel (agg_axis ASum t ax) i c o d = cel (sum_axis t ax) i c o d.
Proof.
  rewrite agg_cel. cbn [agg_line]. rewrite qsum_present. unfold cel, sum_axis. destruct ax; cbn [axis_num]; destruct (1 <? _)%nat; reflexivity.
Qed.

(** * Future cells *)

Lemma n_known_0 n f : n_known n f = 0%nat <-> forall j, (j < n)%nat -> f j = None.
Proof.
  unfold n_known, count_if. split.
  - intros H j Hj. destruct (f j) as [x|] eqn:E; auto. exfalso.
    assert (In j (filter (fun j => match f j with Some _ => true | None => false end) (seq 0 n))) by (apply filter_In; split; [apply in_seq; lia|rewrite E; auto]).
    apply length_zero_iff_nil in H. rewrite H in H0. destruct H0.
  - intros H. rewrite filter_none; auto. intros j Hj. apply in_seq in Hj. rewrite H by lia. auto.
Qed.
Lemma agg_blank a t ax : reducing a -> a <> AProd -> ax = AxIndex \/ ax = AxColumn -> blank_future t -> blank_future (agg_axis a t ax).
Proof.
  intros R NP Ha B i c o d (Hi & Hc & Ho & Hd) F. destruct (agg_cell_ok a t ax i c o d R) as (N & _). apply N; auto. apply n_known_0. intros j Hj.
  assert (Fr := agg_frame_ok a t ax). rewrite (af_0 _ _ _ Fr) in Hi. rewrite (af_1 _ _ _ Fr) in Hc. rewrite (af_2 _ _ _ Fr) in Ho. rewrite (af_3 _ _ _ Fr) in Hd.
  assert (F' : future t o d).
  { unfold future, month_of in *. rewrite (af_d _ _ _ Fr), (af_o _ _ _ Fr), (af_vd _ _ _ Fr) in F. destruct Ha as [-> | ->]; exact F. }
  destruct Ha as [-> | ->]; cbn in Hj |- *; apply B; auto; repeat split; auto.
Qed.

(** * Groups *)

Lemma agg_index_part a t keys g : reducing a -> wf t -> List.length keys = ax0 (values t) -> In g keys ->
  exists s, (do s <- iloc_rows t (members keys g); match a with ACumsum | ADiff => Err TypeError | _ => Ok (agg_axis a s AxIndex) end) = Ok s /\
    group_part (fun g c o d x => holds_aggregate a (ax0 (values t)) (fun i => if key_dec (nth i keys []) g then cel t i c o d else None) x) t g s.
Proof.
  intros RD W L Hg.
  assert (R : forall x, In x (members keys g) -> (x < List.length (kdims t))%nat).
  { intros x Hx. apply members_spec in Hx. rewrite <- (wf_k _ W), <- L. apply Hx. }
  assert (N : members keys g <> []).
  { destruct (In_nth _ _ [] Hg) as (i & Hi & E). intros F. assert (In i (members keys g)) by (apply members_spec; auto). rewrite F in H. destruct H. }
  destruct (iloc_rows_ok t (members keys g) W (members_NoDup _ _) N R) as (s & -> & P). cbn [rbind].
  exists (agg_axis a s AxIndex). split; [destruct RD; destruct a; try congruence; reflexivity|].
  pose proof (agg_frame_ok a s AxIndex) as Fr.
  constructor; try (rewrite ?(af_1 _ _ _ Fr), ?(af_2 _ _ _ Fr), ?(af_3 _ _ _ Fr), ?(af_o _ _ _ Fr), ?(af_d _ _ _ Fr), ?(af_cum _ _ _ Fr), ?(af_pat _ _ _ Fr), ?(af_og _ _ _ Fr), ?(af_dg _ _ _ Fr), ?(af_vd _ _ _ Fr); apply P).
  - apply Fr.
  - rewrite (af_1 _ _ _ Fr), (pk_1 _ _ _ _ P), seq_length. reflexivity.
  - rewrite (af_v _ _ _ Fr), (pk_v _ _ _ _ P), (wf_v _ W). apply sel_seq_all; auto.
  - intros c o d Hc Ho Hd. rewrite agg_cel. change (along s AxIndex 0 c o d) with (fun j => cel s j c o d). change (axis_length s AxIndex) with (ax0 (values s)). rewrite (pk_0 _ _ _ _ P).
    replace (agg_line a (map (fun j => cel s j c o d) (seq 0 (List.length (members keys g)))))
      with (agg_line a (map (fun i => if key_dec (nth i keys []) g then cel t i c o d else None) (seq 0 (ax0 (values t))))); [apply line_ok, RD|].
    unfold agg_line.
    replace (present (map (fun j => cel s j c o d) (seq 0 (List.length (members keys g)))))
      with (present (map (fun i => if key_dec (nth i keys []) g then cel t i c o d else None) (seq 0 (ax0 (values t))))); [reflexivity|].
    transitivity (present (map (fun i => cel t i c o d) (members keys g))).
    + unfold members. rewrite present_filter, L. f_equal. apply map_ext. intros i. destruct (key_dec (nth i keys []) g) as [->|E].
      * rewrite strs_eqb_refl. reflexivity.
      * destruct (strs_eqb (nth i keys []) g) eqn:F; auto. apply strs_eqb_eq in F. contradiction.
    + f_equal. rewrite <- (sel_seq_all (members keys g) 0%nat _ eq_refl) at 1. unfold sel. rewrite map_map. apply map_ext_in. intros k Hk. apply in_seq in Hk.
      rewrite (pk_c _ _ _ _ P) by (auto; lia). rewrite seq_nth by auto. reflexivity.
Qed.
Lemma groupby_agg_ok a t keys labels : reducing a -> wf t -> (1 <= ax0 (values t))%nat -> List.length keys = ax0 (values t) ->
  exists u, groupby_agg a keys labels t = Ok u /\
    (forall g, In g (kdims u) <-> In g keys) /\ StronglySorted key_lt (kdims u) /\ key_labels u = labels /\ ax0 (values u) = List.length (kdims u) /\ same_but_rows t u /\
    (forall p c o d, in_range u p c o d ->
       holds_aggregate a (ax0 (values t)) (fun i => if key_dec (nth i keys []) (nth p (kdims u) []) then cel t i c o d else None) (cel u p c o d)).
Proof.
  intros RD W A0 L. unfold groupby_agg.
  exact (groupby_gen _ _ t keys labels ltac:(lia) (fun g Hg => agg_index_part a t keys g RD W L Hg)).
Qed.

(** * The specification determines the aggregate *)

Lemma filter_mono {A} (p q : A -> bool) l : (forall x, p x = true -> q x = true) -> (List.length (filter p l) <= List.length (filter q l))%nat.
Proof. intros H. induction l as [|x l IH]; auto. cbn. destruct (p x) eqn:E; [rewrite (H _ E); cbn; lia|]. destruct (q x); cbn; lia. Qed.
Lemma count_mono n P Q f : (forall x, P x = true -> Q x = true) -> (count_if n P f <= count_if n Q f)%nat.
Proof. intros H. apply filter_mono. intros j. destruct (f j); auto. Qed.
Lemma lower_middle_one n f x y : lower_middle n f x -> lower_middle n f y -> x = y.
Proof.
  intros (A & B) (C & D). destruct (Qc_dec x y) as [[H|H]|H]; auto; exfalso.
  - pose proof (count_mono n (fun z => Qc_leb y z) (fun z => Qc_ltb x z) f) as M. cut (count_if n (fun z => Qc_leb y z) f <= count_if n (fun z => Qc_ltb x z) f)%nat; [lia|].
    apply M. intros z Hz. destruct (Qc_leb_spec y z); [|discriminate]. destruct (Qc_ltb_spec x z); auto. exfalso. qlra.
  - pose proof (count_mono n (fun z => Qc_leb x z) (fun z => Qc_ltb y z) f) as M. cut (count_if n (fun z => Qc_leb x z) f <= count_if n (fun z => Qc_ltb y z) f)%nat; [lia|].
    apply M. intros z Hz. destruct (Qc_leb_spec x z); [|discriminate]. destruct (Qc_ltb_spec y z); auto. exfalso. qlra.
Qed.
Lemma upper_middle_one n f x y : upper_middle n f x -> upper_middle n f y -> x = y.
Proof.
  intros (A & B) (C & D). destruct (Qc_dec x y) as [[H|H]|H]; auto; exfalso.
  - cut (count_if n (fun z => Qc_leb z x) f <= count_if n (fun z => Qc_ltb z y) f)%nat; [lia|].
    apply count_mono. intros z Hz. destruct (Qc_leb_spec z x); [|discriminate]. destruct (Qc_ltb_spec z y); auto. exfalso. qlra.
  - cut (count_if n (fun z => Qc_leb z y) f <= count_if n (fun z => Qc_ltb z x) f)%nat; [lia|].
    apply count_mono. intros z Hz. destruct (Qc_leb_spec z y); [|discriminate]. destruct (Qc_ltb_spec z x); auto. exfalso. qlra.
Qed.
Lemma count_ne n : (0 < n)%nat -> count n <> 0.
Proof.
  intros H E. set (l := repeat 0 n). assert (L : List.length l = n) by apply repeat_length.
  assert (P : 0 < qlen l) by (apply qlen_pos; intros F; rewrite F in L; cbn in L; lia).
  unfold qlen in P. rewrite L in P. fold (count n) in P. rewrite E in P. exact (Qlt_irrefl _ P).
Qed.
Lemma mul_cancel c x y : c <> 0 -> x * c = y * c -> x = y.
Proof. intros H E. rewrite <- (Qcmult_1_r x), <- (Qcmult_1_r y), <- (Qcmult_inv_r c H), !Qcmult_assoc, E. reflexivity. Qed.
Lemma aggregate_one a n f x y : (0 < n_known n f)%nat -> aggregate_of a n f x -> aggregate_of a n f y -> x = y.
Proof.
  intros K. apply count_ne in K. destruct a; cbn [aggregate_of].
  - congruence.
  - unfold is_mean. intros H1 H2. apply (mul_cancel _ _ _ K). congruence.
  - intros (l & h & L & H & E) (l' & h' & L' & H' & E'). rewrite (lower_middle_one _ _ _ _ L L'), (upper_middle_one _ _ _ _ H H') in E.
    apply (mul_cancel (count 2)); [discriminate|congruence].
  - intros ((j & Hj & E) & H) ((j' & Hj' & E') & H'). apply Qcle_antisym; eauto.
  - intros ((j & Hj & E) & H) ((j' & Hj' & E') & H'). apply Qcle_antisym; eauto.
  - congruence.
  - intros (m & M & E) (m' & M' & E'). assert (m = m') by (apply (mul_cancel _ _ _ K); unfold is_mean in *; congruence). subst m'. apply (mul_cancel _ _ _ K). congruence.
  - contradiction.
  - contradiction.
Qed.
