(** Proofs: the automatic choice of storage. *)
From Coq Require Import List ZArith Lia Bool.
From Verif Require Import AutoSparse SpecAutoSparse.
Import ListNotations.
Local Open Scope Z_scope.

Lemma todense_at : forall n e i, cell_at (Dense (todense n e)) i = cell_at (Sparse n e) i.
Proof.
  intros n e i. cbn [cell_at]. unfold todense. destruct (Nat.ltb_spec i n).
  - rewrite (nth_indep _ None ((fun i => stored i e) n)) by (rewrite map_length, seq_length; lia).
    rewrite (map_nth (fun i => stored i e) (seq 0 n) n i), seq_nth by lia. reflexivity.
  - apply nth_overflow. rewrite map_length, seq_length. lia.
Qed.
Definition some (x : nat * option Qc) : bool := match snd x with None => false | Some _ => true end.
Lemma find_entries : forall l a i, (match find (fun x => Nat.eqb (fst x) (a + i)) (filter some (combine (seq a (List.length l)) l)) with Some x => snd x | None => None end) = nth i l None.
Proof.
  induction l as [|c l IH]; intros a i; [destruct i; reflexivity|]. cbn [List.length seq combine filter].
  assert (H : forall j, (match find (fun x => Nat.eqb (fst x) (a + S j)) (filter some (combine (seq (S a) (List.length l)) l)) with Some x => snd x | None => None end) = nth j l None).
  { intros j. rewrite <- (IH (S a) j). replace (a + S j)%nat with (S a + j)%nat by lia. reflexivity. }
  assert (Z : find (fun x => Nat.eqb (fst x) a) (filter some (combine (seq (S a) (List.length l)) l)) = None).
  { destruct (find _ _) as [[k x]|] eqn:E; auto. apply find_some in E. destruct E as [I Q]. cbn in Q. apply Nat.eqb_eq in Q. subst k. apply filter_In in I. destruct I as [I _]. apply in_combine_l, in_seq in I. lia. }
  destruct c as [q|]; cbn [some snd find fst].
  - destruct i as [|i].
    + replace (a + 0)%nat with a by lia. rewrite Nat.eqb_refl. reflexivity.
    + destruct (Nat.eqb_spec a (a + S i)); [lia|]. apply H.
  - destruct i as [|i]; [replace (a + 0)%nat with a by lia; rewrite Z; reflexivity|apply H].
Qed.
Lemma to_sparse_at : forall l i, cell_at (to_sparse l) i = cell_at (Dense l) i.
Proof.
  intros l i. cbn [cell_at to_sparse]. destruct (Nat.ltb_spec i (List.length l)); [|symmetry; apply nth_overflow; auto]. exact (find_entries l 0 i).
Qed.
Lemma size_todense : forall n e, size (Dense (todense n e)) = n.
Proof. intros. cbn. unfold todense. rewrite map_length, seq_length. reflexivity. Qed.
Lemma known_ext : forall s t, size s = size t -> (forall i, cell_at s i = cell_at t i) -> known s = known t.
Proof. intros s t Q H. unfold known. rewrite Q. f_equal. apply filter_ext. intros i. rewrite H. reflexivity. Qed.
Lemma known_dense : forall l, Z.of_nat (known (Dense l)) = Z.of_nat (List.length l) - missing l.
Proof.
  intros l. unfold known, missing. cbn [size cell_at].
  assert (H : forall l a (f : nat -> option Qc), (forall i, (i < List.length l)%nat -> f (a + i)%nat = nth i l None) ->
    (List.length (filter (fun i => match f i with Some _ => true | None => false end) (seq a (List.length l))) + List.length (filter (fun c => match c with None => true | Some _ => false end) l))%nat = List.length l).
  { clear. induction l as [|c l IH]; intros a f H; [reflexivity|]. cbn [List.length seq filter].
    assert (F : f a = c) by (rewrite <- (Nat.add_0_r a), H by (cbn; lia); reflexivity).
    specialize (IH (S a) f). assert (K : forall i, (i < List.length l)%nat -> f (S a + i)%nat = nth i l None) by (intros i Hi; replace (S a + i)%nat with (a + S i)%nat by lia; rewrite H by (cbn; lia); reflexivity).
    specialize (IH K). rewrite F. destruct c; cbn [List.length]; lia. }
  specialize (H l 0%nat (fun i => nth i l None) (fun i _ => eq_refl)). lia.
Qed.
Lemma known_entries : forall l, List.length (entries l) = known (Dense l).
Proof.
  intros l. unfold known, entries. cbn [size cell_at].
  assert (H : forall l a (f : nat -> option Qc), (forall i, (i < List.length l)%nat -> f (a + i)%nat = nth i l None) ->
    List.length (filter some (combine (seq a (List.length l)) l)) = List.length (filter (fun i => match f i with Some _ => true | None => false end) (seq a (List.length l)))).
  { clear. induction l as [|c l IH]; intros a f H; [reflexivity|]. cbn [List.length seq combine filter].
    assert (F : f a = c) by (rewrite <- (Nat.add_0_r a), H by (cbn; lia); reflexivity).
    assert (K : forall i, (i < List.length l)%nat -> f (S a + i)%nat = nth i l None) by (intros i Hi; replace (S a + i)%nat with (a + S i)%nat by lia; rewrite H by (cbn; lia); reflexivity).
    rewrite F. destruct c; cbn [some snd List.length]; rewrite (IH (S a) f K); reflexivity. }
  apply (H l 0%nat (fun i => nth i l None)). intros; reflexivity.
Qed.
Lemma big_true : forall n, big n = true <-> 30000000 < 8 * Z.of_nat n.
Proof. intros. unfold big. rewrite Z.ltb_lt. lia. Qed.

Lemma auto_same : forall on s, size (auto_sparse on s) = size s /\ forall i, cell_at (auto_sparse on s) i = cell_at s i.
Proof.
  intros on s. unfold auto_sparse. destruct on; cbn [negb]; auto. destruct s as [l|n e].
  - destruct (_ && _); cbn [to_sparse]; auto. destruct (negb _).
    + split; [rewrite size_todense; reflexivity|]. intros i. rewrite todense_at. apply to_sparse_at.
    + split; [reflexivity|]. apply to_sparse_at.
  - destruct (negb _); auto. split; [apply size_todense|]. apply todense_at.
Qed.
Lemma auto_choice : forall s, clean s -> is_sparse (auto_sparse true s) <-> worth_it s.
Proof.
  intros s C. unfold auto_sparse, worth_it. cbn [negb]. destruct s as [l|n e].
  - rewrite <- known_dense, <- big_true. cbn [size]. destruct (big (List.length l)) eqn:B; cbn [andb].
    + destruct (Z.ltb_spec (5 * Z.of_nat (known (Dense l))) (Z.of_nat (List.length l))) as [L|L].
      * cbn [to_sparse]. rewrite known_entries, B, andb_true_r. rewrite (proj2 (Z.ltb_lt _ _) L). cbn. tauto.
      * cbn [is_sparse]. split; [tauto|]. intros [_ ?]. lia.
    + cbn [is_sparse]. split; [tauto|]. intros [? _]. discriminate.
  - cbn [clean] in C. rewrite C. rewrite <- big_true. cbn [size]. destruct (Z.ltb_spec (5 * Z.of_nat (known (Sparse n e))) (Z.of_nat n)) as [L|L]; destruct (big n) eqn:B; cbn [andb negb is_sparse]; intuition (try discriminate; try lia).
Qed.
Lemma auto_clean : forall on s, clean s -> clean (auto_sparse on s).
Proof.
  intros on s C. destruct on; [|exact C]. unfold auto_sparse. cbn [negb]. destruct s as [l|n e].
  - destruct (_ && _); [|exact I]. cbn [to_sparse]. destruct (negb _); [exact I|].
    change (List.length (entries l) = known (to_sparse l)). rewrite known_entries. apply known_ext; [reflexivity|]. intros i. symmetry. apply to_sparse_at.
  - destruct (negb _); [exact I|exact C].
Qed.
Lemma auto_twice : forall on s, clean s -> auto_sparse on (auto_sparse on s) = auto_sparse on s.
Proof.
  intros on s C. destruct on; [|reflexivity]. set (t := auto_sparse true s).
  assert (W : worth_it t <-> worth_it s).
  { destruct (auto_same true s) as [Q H]. fold t in Q, H. unfold worth_it. rewrite (known_ext _ _ Q H), Q. tauto. }
  assert (Ct : clean t) by (apply auto_clean; auto).
  pose proof (auto_choice s C) as A. fold t in A. pose proof (auto_choice t Ct) as B.
  destruct t as [l|n e].
  - assert (N : ~ is_sparse (auto_sparse true (Dense l))) by (rewrite B, W, <- A; exact (fun x => x)).
    clear - N. unfold auto_sparse in *. cbn [negb] in *. destruct (_ && _) eqn:E; [|reflexivity]. exfalso. cbn [to_sparse] in *.
    apply andb_true_iff in E. destruct E as [E1 E2]. rewrite <- known_dense, <- known_entries in E2. rewrite E1, E2 in N. apply N. exact I.
  - assert (N : is_sparse (auto_sparse true (Sparse n e))) by (rewrite B, W, <- A; exact I).
    clear - N. unfold auto_sparse in *. cbn [negb] in *. destruct (negb _); [destruct N|reflexivity].
Qed.
