(** Property theorems: the automatic choice of storage. *)
From Coq Require Import List ZArith Lia Bool.
From Verif Require Import AutoSparse SpecAutoSparse P_AutoSparse.
Import ListNotations.
Local Open Scope Z_scope.

(** C75. The choice of storage changes no cell. *)
Theorem C75_same : forall on s, size (auto_sparse on s) = size s /\ forall i, cell_at (auto_sparse on s) i = cell_at s i.
Proof. exact auto_same. Qed.
Print Assumptions C75_same.
(** C75. Storage is sparse afterwards exactly if the array is large and fewer than a fifth of its cells are known. *)
Theorem C75_choice : forall s, clean s -> is_sparse (auto_sparse true s) <-> worth_it s.
Proof. exact auto_choice. Qed.
Print Assumptions C75_choice.
Example C75_choice_case : clean (Sparse 5 [(1%nat, Some (qc 7)); (4%nat, Some (qc 2))]) /\ exists s, clean s /\ worth_it s.
Proof.
  split; [reflexivity|]. exists (Sparse (Z.to_nat 4000000) []). assert (K : known (Sparse (Z.to_nat 4000000) []) = 0%nat).
  { unfold known. cbn [cell_at find size]. generalize (Z.to_nat 4000000) at 1. intros m. generalize (Z.to_nat 4000000). intros n. generalize 0%nat at 1. revert m n. 
    assert (F : forall (l : list nat) m, filter (fun i => match (if (i <? m)%nat then @None Qc else None) with Some _ => true | None => false end) l = []).
    { induction l as [|x l IH]; intros m; auto. cbn [filter]. destruct (x <? m)%nat; apply IH. }
    intros m n a. rewrite F. reflexivity. }
  split; [cbn [clean]; rewrite K; reflexivity|]. unfold worth_it. rewrite K. cbn [size]. rewrite Z2Nat.id by lia. lia.
Qed.
(** C75. Choosing again changes nothing. *)
Theorem C75_again : forall on s, clean s -> auto_sparse on (auto_sparse on s) = auto_sparse on s.
Proof. exact auto_twice. Qed.
Print Assumptions C75_again.
(** C75. With the option off nothing is changed. *)
Theorem C75_off : forall s, auto_sparse false s = s.
Proof. reflexivity. Qed.
Print Assumptions C75_off.
(** C75. Violated: a large sparse array that stores missing values is made dense although no cell is known, and sparse again the next time. *)
Theorem C75_stored_refuted : forall n, 30000000 < 8 * Z.of_nat n -> let s := Sparse n (map (fun i => (i, None)) (seq 0 n)) in
  worth_it s /\ ~ is_sparse (auto_sparse true s) /\ is_sparse (auto_sparse true (auto_sparse true s)).
Proof.
  intros n L s. assert (C : forall i, cell_at s i = None).
  { intros i. unfold s. cbn [cell_at]. destruct (i <? n)%nat; auto. destruct (find _ _) as [x|] eqn:E; auto. apply find_some in E. destruct E as [I _]. apply in_map_iff in I. destruct I as (j & <- & _). reflexivity. }
  assert (K : known s = 0%nat).
  { unfold known. replace (filter _ (seq 0 (size s))) with (@nil nat); auto. symmetry. generalize (seq 0 (size s)). induction l as [|x l IH]; auto. cbn [filter]. rewrite C. exact IH. }
  assert (W : worth_it s) by (unfold worth_it; rewrite K; unfold s; cbn [size]; lia).
  assert (D : auto_sparse true s = Dense (todense n (map (fun i => (i, None)) (seq 0 n)))).
  { unfold s, auto_sparse. cbn [negb]. rewrite map_length, seq_length. destruct (Z.ltb_spec (5 * Z.of_nat n) (Z.of_nat n)); [lia|]. reflexivity. }
  split; auto. split; [rewrite D; exact (fun x => x)|]. apply auto_choice; [rewrite D; exact I|].
  destruct (auto_same true s) as [Q H]. unfold worth_it in *. rewrite (known_ext _ _ Q H), Q. exact W.
Qed.
Print Assumptions C75_stored_refuted.
Example C75_stored_case : 30000000 < 8 * Z.of_nat (Z.to_nat 4000000).
Proof. rewrite Z2Nat.id by lia. lia. Qed.
