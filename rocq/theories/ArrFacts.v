(** Lemmas about slices, positions and array concatenation. *)
From Coq Require Import Lia Sorted.
From Verif Require Export NumFacts Tri.
Local Open Scope Z_scope.

Ltac zbool := repeat match goal with
  | |- context [Z.ltb ?a ?b] => destruct (Z.ltb_spec a b)
  | |- context [Z.eqb ?a ?b] => destruct (Z.eqb_spec a b)
  | |- context [Z.leb ?a ?b] => destruct (Z.leb_spec a b)
  | |- context [Nat.ltb ?a ?b] => destruct (Nat.ltb_spec a b)
  | |- context [Nat.eqb ?a ?b] => destruct (Nat.eqb_spec a b)
  | |- context [Nat.leb ?a ?b] => destruct (Nat.leb_spec a b)
  end.

Lemma map_seq_shift {A} (f : nat -> A) a n :
  map f (seq a n) = map (fun i => f (a + i)%nat) (seq 0 n).
Proof.
  revert a; induction n as [|n IH]; intros a; [reflexivity|]. simpl. f_equal.
  - f_equal; lia.
  - rewrite IH, <- (seq_shift n 0), map_map. apply map_ext; intros; f_equal; lia.
Qed.

Lemma nth_map_seq {A} (f : nat -> A) n i d : (i < n)%nat -> nth i (map f (seq 0 n)) d = f i.
Proof.
  intros H. rewrite (nth_indep _ d (f O)) by (rewrite map_length, seq_length; lia).
  rewrite map_nth, seq_nth by lia. reflexivity.
Qed.

Lemma py_range_step1 a n :
  map Z.to_nat (py_range (Z.of_nat a) (Z.of_nat a + Z.of_nat n) 1) = seq a n.
Proof.
  unfold py_range. change (0 <? 1) with true. cbv iota zeta. rewrite map_map.
  replace (Z.of_nat a + Z.of_nat n - Z.of_nat a + 1 - 1) with (Z.of_nat n) by lia.
  rewrite Z.div_1_r, Nat2Z.id.
  rewrite <- (map_id (seq a n)), (map_seq_shift (fun x => x) a n).
  apply map_ext; intros i. lia.
Qed.

(** A positive step: the arithmetic progression a, a+s, ..., of n terms. *)
Lemma py_range_pos a s n stop : (0 < s)%nat ->
  (Z.of_nat a + Z.of_nat s * (Z.of_nat n - 1) < stop <= Z.of_nat a + Z.of_nat s * Z.of_nat n) ->
  map Z.to_nat (py_range (Z.of_nat a) stop (Z.of_nat s)) = map (fun i => a + s * i)%nat (seq 0 n).
Proof.
  intros Hs H. unfold py_range. destruct (Z.ltb_spec 0 (Z.of_nat s)); [|lia].
  rewrite map_map.
  assert (E : (stop - Z.of_nat a + Z.of_nat s - 1) / Z.of_nat s = Z.of_nat n).
  { symmetry. apply (Z.div_unique_pos _ _ _ (stop - Z.of_nat a + Z.of_nat s - 1 - Z.of_nat s * Z.of_nat n)); nia. }
  rewrite E, Nat2Z.id. apply map_ext; intros i. nia.
Qed.

(** A negative step: a, a-s, ..., of n terms (all non-negative). *)
Lemma py_range_neg a s n stop : (0 < s)%nat -> (s * (n - 1) <= a)%nat ->
  (Z.of_nat a - Z.of_nat s * Z.of_nat n <= stop < Z.of_nat a - Z.of_nat s * (Z.of_nat n - 1)) ->
  map Z.to_nat (py_range (Z.of_nat a) stop (- Z.of_nat s)) = map (fun i => a - s * i)%nat (seq 0 n).
Proof.
  intros Hs Ha H. unfold py_range. destruct (Z.ltb_spec 0 (- Z.of_nat s)); [lia|].
  rewrite map_map.
  assert (E : (Z.of_nat a - stop - - Z.of_nat s - 1) / - - Z.of_nat s = Z.of_nat n).
  { symmetry. rewrite Z.opp_involutive.
    apply (Z.div_unique_pos _ _ _ (Z.of_nat a - stop + Z.of_nat s - 1 - Z.of_nat s * Z.of_nat n)); nia. }
  rewrite E, Nat2Z.id. apply map_ext_in; intros i Hi. apply in_seq in Hi.
  assert (s * i <= s * (n - 1))%nat by (apply Nat.mul_le_mono_l; lia). nia.
Qed.

Lemma positions_all n : positions all_slice n = Ok (seq 0 n).
Proof.
  unfold positions, all_slice, slice_positions, slice_triple. simpl. f_equal.
  apply (py_range_step1 0 n).
Qed.

Lemma positions_1 a n : (a < n)%nat ->
  positions (Slice (Some (Z.of_nat a)) (Some (Z.of_nat a + 1)) None) n = Ok [a].
Proof.
  intros H. unfold positions, slice_positions, slice_triple, slice_bound. simpl. f_equal.
  destruct (Z.ltb_spec (Z.of_nat a) 0); [lia|]. destruct (Z.ltb_spec (Z.of_nat a + 1) 0); [lia|].
  rewrite !Z.min_l by lia. change [a] with (seq a 1).
  apply (py_range_step1 a 1).
Qed.

(** [iloc[..., 1:]] *)
Lemma positions_tail n : (1 <= n)%nat ->
  (do s <- normalize_slice (Some 1) None None n; positions s n) = Ok (seq 1 (n - 1)).
Proof.
  intros H.
  assert (E : normalize_slice (Some 1) None None n = Ok (Slice (Some 1) None (Some 1))).
  { unfold normalize_slice, slice_triple, slice_bound.
    change (1 =? 0) with false. change (0 <? 1) with true. change (1 <? 0) with false.
    cbn [rbind]. cbv iota beta. rewrite Z.min_l by lia.
    change (0 <? 1) with true. destruct (Z.ltb_spec (-1) (Z.of_nat n)); [|lia].
    rewrite Z.eqb_refl. reflexivity. }
  rewrite E. cbn [rbind]. unfold positions, slice_positions, slice_triple, slice_bound.
  change (1 =? 0) with false. change (0 <? 1) with true. change (1 <? 0) with false.
  cbn [rbind]. cbv iota beta. rewrite Z.min_l by lia. f_equal.
  replace (Z.of_nat n) with (Z.of_nat 1 + Z.of_nat (n - 1)) by lia.
  apply (py_range_step1 1 (n - 1)).
Qed.
(** [iloc[..., :-1]] *)
Lemma positions_init n : (1 <= n)%nat ->
  (do s <- normalize_slice None (Some (-1)) None n; positions s n) = Ok (seq 0 (n - 1)).
Proof.
  intros H.
  assert (E : normalize_slice None (Some (-1)) None n = Ok (Slice None (Some (Z.of_nat n - 1)) (Some 1))).
  { unfold normalize_slice, slice_triple, slice_bound.
    change (1 =? 0) with false. change (0 <? 1) with true. change (-1 <? 0) with true.
    cbn [rbind]. cbv iota beta. rewrite Z.max_l by lia.
    change (0 <? 0) with false. destruct (Z.ltb_spec (-1) (-1 + Z.of_nat n)); [|lia].
    destruct (Z.eqb_spec (-1 + Z.of_nat n) (Z.of_nat n)); [lia|]. replace (-1 + Z.of_nat n) with (Z.of_nat n - 1) by lia. reflexivity. }
  rewrite E. cbn [rbind]. unfold positions, slice_positions, slice_triple, slice_bound.
  change (1 =? 0) with false. change (0 <? 1) with true.
  cbn [rbind]. cbv iota beta.
  destruct (Z.ltb_spec (Z.of_nat n - 1) 0); [lia|]. rewrite Z.min_l by lia. f_equal.
  replace (Z.of_nat n - 1) with (Z.of_nat 0 + Z.of_nat (n - 1)) by lia.
  apply (py_range_step1 0 (n - 1)).
Qed.

(** * contig_slice *)
Lemma zdiffs_length l : List.length (zdiffs l) = (List.length l - 1)%nat.
Proof.
  induction l as [|a l IH]; [reflexivity|]. destruct l as [|b l]; [reflexivity|].
  change (zdiffs (a :: b :: l)) with ((b - a) :: zdiffs (b :: l)). simpl List.length in *. lia.
Qed.

Lemma zmaxl_ge l d x : In x (d :: l) -> x <= zmaxl l d.
Proof.
  induction l as [|y l IH]; simpl; intros H.
  - destruct H as [<-|[]]; lia.
  - destruct H as [<-|[<-|H]]; [| lia |].
    + specialize (IH (or_introl eq_refl)); lia.
    + specialize (IH (or_intror H)); lia.
Qed.
Lemma zminl_le l d x : In x (d :: l) -> zminl l d <= x.
Proof.
  induction l as [|y l IH]; simpl; intros H.
  - destruct H as [<-|[]]; lia.
  - destruct H as [<-|[<-|H]]; [| lia |].
    + specialize (IH (or_introl eq_refl)); lia.
    + specialize (IH (or_intror H)); lia.
Qed.
Lemma zmaxl_in l d : In (zmaxl l d) (d :: l).
Proof.
  induction l as [|y l IH]; simpl; auto.
  destruct (Z.max_spec y (zmaxl l d)) as [[_ ->]|[_ ->]]; auto.
  destruct IH as [<-|IH]; auto.
Qed.
Lemma zminl_in l d : In (zminl l d) (d :: l).
Proof.
  induction l as [|y l IH]; simpl; auto.
  destruct (Z.min_spec y (zminl l d)) as [[_ ->]|[_ ->]]; auto.
  destruct IH as [<-|IH]; auto.
Qed.

Lemma zdiffs_const l s a : (forall x, In x (zdiffs (a :: l)) -> x = s) ->
  a :: l = map (fun i => a + s * Z.of_nat i) (seq 0 (S (List.length l))).
Proof.
  revert a; induction l as [|b l IH]; intros a H.
  - simpl. f_equal; lia.
  - assert (E : b = a + s). { specialize (H (b - a)). simpl in H. specialize (H (or_introl eq_refl)). lia. }
    change (seq 0 (S (List.length (b :: l)))) with (0%nat :: seq 1 (S (List.length l))).
    rewrite map_cons. f_equal; [lia|].
    rewrite (IH b) at 1 by (intros x Hx; apply H; simpl; right; exact Hx).
    rewrite (map_seq_shift _ 1). apply map_ext; intros i. lia.
Qed.

Lemma zminl_map_ap a s n : 0 <= s ->
  zminl (map (fun i => a + s * Z.of_nat i) (seq 0 (S n))) a = a.
Proof.
  intros Hs. set (l := map _ _).
  assert (H1 : zminl l a <= a) by (apply zminl_le; left; auto).
  assert (H2 : a <= zminl l a).
  { destruct (zminl_in l a) as [<-|H]; [lia|]. unfold l in H at 2. apply in_map_iff in H.
    destruct H as (i & <- & _). nia. }
  lia.
Qed.
Lemma zmaxl_map_ap a s n : 0 <= s ->
  zmaxl (map (fun i => a + s * Z.of_nat i) (seq 0 (S n))) a = a + s * Z.of_nat n.
Proof.
  intros Hs. set (l := map _ _).
  assert (H1 : a + s * Z.of_nat n <= zmaxl l a).
  { apply zmaxl_ge. right. unfold l. apply in_map_iff. exists n; split; auto. apply in_seq; lia. }
  assert (H2 : zmaxl l a <= a + s * Z.of_nat n).
  { destruct (zmaxl_in l a) as [<-|H]; [nia|]. unfold l in H at 2. apply in_map_iff in H.
    destruct H as (i & <- & Hi). apply in_seq in Hi. nia. }
  lia.
Qed.
Lemma zminl_map_ap_neg a s n : s <= 0 ->
  zminl (map (fun i => a + s * Z.of_nat i) (seq 0 (S n))) a = a + s * Z.of_nat n.
Proof.
  intros Hs. set (l := map _ _).
  assert (H1 : zminl l a <= a + s * Z.of_nat n).
  { apply zminl_le. right. unfold l. apply in_map_iff. exists n; split; auto. apply in_seq; lia. }
  assert (H2 : a + s * Z.of_nat n <= zminl l a).
  { destruct (zminl_in l a) as [<-|H]; [nia|]. unfold l in H at 2. apply in_map_iff in H.
    destruct H as (i & <- & Hi). apply in_seq in Hi. nia. }
  lia.
Qed.
Lemma zmaxl_map_ap_neg a s n : s <= 0 ->
  zmaxl (map (fun i => a + s * Z.of_nat i) (seq 0 (S n))) a = a.
Proof.
  intros Hs. set (l := map _ _).
  assert (H1 : a <= zmaxl l a) by (apply zmaxl_ge; left; auto).
  assert (H2 : zmaxl l a <= a).
  { destruct (zmaxl_in l a) as [<-|H]; [lia|]. unfold l in H at 2. apply in_map_iff in H.
    destruct H as (i & <- & _). nia. }
  lia.
Qed.

(** Whenever the list of positions has distinct entries, the slicer built from it
    selects exactly those positions, in that order. *)
Lemma contig_slice_positions (l : list nat) n s :
  contig_slice (map Z.of_nat l) = Ok s -> NoDup l -> (forall x, In x l -> (x < n)%nat) ->
  positions s n = Ok l.
Proof.
  intros H Hnd Hin. destruct l as [|a [|b l]].
  - discriminate.
  - simpl in H. injection H as <-. apply positions_1. apply Hin; left; auto.
  - unfold contig_slice in H. cbn [map] in H.
    set (L := Z.of_nat a :: Z.of_nat b :: map Z.of_nat l) in *.
    remember (zdiffs L) as D eqn:ED. destruct D as [|d ds]; [unfold L in ED; simpl in ED; discriminate|].
    destruct (Z.eqb_spec (zmaxl ds d) (zminl ds d)) as [Heq|Hne].
    2:{ injection H as <-. unfold positions.
        assert (Hf : forallb (fun z => (0 <=? z) && (z <? Z.of_nat n)) L = true).
        { apply forallb_forall. intros x Hx. change L with (map Z.of_nat (a :: b :: l)) in Hx.
          apply in_map_iff in Hx. destruct Hx as (y & <- & Hy). apply Hin in Hy.
          apply andb_true_iff; split; [apply Z.leb_le|apply Z.ltb_lt]; lia. }
        rewrite Hf. f_equal. change L with (map Z.of_nat (a :: b :: l)).
        rewrite map_map. rewrite <- (map_id (a :: b :: l)) at 2.
        apply map_ext. apply Nat2Z.id. }
    set (st := zmaxl ds d) in *.
    assert (Hconst : forall x, In x (zdiffs L) -> x = st).
    { intros x Hx. rewrite <- ED in Hx. pose proof (zmaxl_ge ds d x Hx). pose proof (zminl_le ds d x Hx).
      unfold st in *. lia. }
    pose proof (zdiffs_const (Z.of_nat b :: map Z.of_nat l) st (Z.of_nat a) Hconst) as EL.
    change (Z.of_nat a :: Z.of_nat b :: map Z.of_nat l) with L in EL.
    set (m := S (List.length l)).
    assert (Hm : List.length (Z.of_nat b :: map Z.of_nat l) = m) by (simpl; rewrite map_length; auto).
    rewrite Hm in EL. clearbody m.
    assert (Hst : st <> 0).
    { assert (In (Z.of_nat b - Z.of_nat a) (zdiffs L)) by (left; auto).
      apply Hconst in H0. inversion Hnd; subst. intros E. apply H3. left. lia. }
    assert (El : a :: b :: l = map (fun i => Z.to_nat (Z.of_nat a + st * Z.of_nat i)) (seq 0 (S m))).
    { transitivity (map Z.to_nat L).
      - change L with (map Z.of_nat (a :: b :: l)). rewrite map_map, <- (map_id (a :: b :: l)) at 1.
        apply map_ext; intros; symmetry; apply Nat2Z.id.
      - rewrite EL, map_map. reflexivity. }
    assert (Hlast : 0 <= Z.of_nat a + st * Z.of_nat m < Z.of_nat n).
    { assert (In (Z.of_nat a + st * Z.of_nat m) L).
      { rewrite EL. apply in_map_iff. exists m; split; auto. apply in_seq; lia. }
      change L with (map Z.of_nat (a :: b :: l)) in H0. apply in_map_iff in H0.
      destruct H0 as (y & Ey & Hy). apply Hin in Hy. lia. }
    assert (Ha : (a < n)%nat) by (apply Hin; left; auto).
    change (hd 0 L) with (Z.of_nat a) in H.
    destruct (Z.ltb_spec 0 st) as [Hpos|Hneg].
    + (* ascending *)
      rewrite EL in H. rewrite zminl_map_ap, zmaxl_map_ap in H by lia.
      assert (Hb : (match (if st =? 1 then None else Some st) with
                    | Some s0 => negb (s0 =? 0) && (s0 <? 0) | None => false end) = false).
      { destruct (Z.eqb_spec st 1); auto. destruct (Z.ltb_spec st 0); [lia|]. apply andb_false_r. }
      rewrite Hb in H. injection H as <-.
      unfold positions, slice_positions.
      assert (Et : slice_triple (if Z.of_nat a =? 0 then None else Some (Z.of_nat a))
                   (Some (Z.of_nat a + st * Z.of_nat m + 1)) (if st =? 1 then None else Some st) n
                 = Ok (Z.of_nat a, Z.of_nat a + st * Z.of_nat m + 1, st)).
      { unfold slice_triple.
        assert (E1 : (match (if st =? 1 then None else Some st) with None => 1 | Some s0 => s0 end) = st)
          by (zbool; lia).
        rewrite E1. destruct (Z.eqb_spec st 0); [lia|]. destruct (Z.ltb_spec 0 st); [|lia].
        unfold slice_bound.
        destruct (Z.eqb_spec (Z.of_nat a) 0).
        - destruct (Z.ltb_spec (Z.of_nat a + st * Z.of_nat m + 1) 0); [lia|].
          rewrite Z.min_l by lia. rewrite e; auto.
        - destruct (Z.ltb_spec (Z.of_nat a) 0); [lia|].
          destruct (Z.ltb_spec (Z.of_nat a + st * Z.of_nat m + 1) 0); [lia|].
          rewrite !Z.min_l by lia. auto. }
      rewrite Et. cbn [rbind]. f_equal. rewrite El.
      replace st with (Z.of_nat (Z.to_nat st)) by lia.
      rewrite (py_range_pos a (Z.to_nat st) (S m)); [| lia | nia].
      apply map_ext; intros i. nia.
    + (* descending *)
      assert (Hn : st < 0) by lia.
      rewrite EL in H. rewrite zminl_map_ap_neg, zmaxl_map_ap_neg in H by lia.
      assert (Es : (if st =? 1 then None else Some st) = Some st) by (zbool; [lia|auto]).
      rewrite Es in H.
      assert (Hb : negb (st =? 0) && (st <? 0) = true).
      { destruct (Z.eqb_spec st 0); [lia|]. apply Z.ltb_lt in Hn. rewrite Hn. auto. }
      rewrite Hb in H. injection H as <-.
      unfold positions, slice_positions.
      set (mn := Z.of_nat a + st * Z.of_nat m) in *.
      assert (Et : slice_triple (Some (Z.of_nat a + 1 - 1))
                   (match (if mn =? 0 then None else Some mn) with Some m0 => Some (m0 - 1) | None => None end)
                   (Some st) n
                 = Ok (Z.of_nat a, mn - 1, st)).
      { unfold slice_triple. destruct (Z.eqb_spec st 0); [lia|]. destruct (Z.ltb_spec 0 st); [lia|].
        unfold slice_bound. destruct (Z.ltb_spec (Z.of_nat a + 1 - 1) 0); [lia|].
        rewrite (Z.min_l (Z.of_nat a + 1 - 1)) by lia.
        destruct (Z.eqb_spec mn 0).
        - repeat f_equal; lia.
        - destruct (Z.ltb_spec (mn - 1) 0); [lia|]. rewrite Z.min_l by lia. repeat f_equal; lia. }
      rewrite Et. cbn [rbind]. f_equal. rewrite El.
      assert (Es' : st = - Z.of_nat (Z.to_nat (- st))) by lia.
      rewrite Es' at 1.
      rewrite (py_range_neg a (Z.to_nat (- st)) (S m)); [| lia | unfold mn in *; nia | unfold mn in *; nia].
      apply map_ext; intros i. nia.
Qed.
