(** Lemmas about [Num]. *)
From Coq Require Import Lia Lqa Qfield Permutation.
From Verif Require Export Num.
Local Open Scope Qc_scope.

(** ** From Qc to Q, so that [lra]/[nra] apply. *)
Lemma this_plus (x y : Qc) : (this (x + y) == this x + this y)%Q.
Proof. exact (Qred_correct _). Qed.
Lemma this_mult (x y : Qc) : (this (x * y) == this x * this y)%Q.
Proof. exact (Qred_correct _). Qed.
Lemma this_opp (x : Qc) : (this (- x) == - this x)%Q.
Proof. exact (Qred_correct _). Qed.
Lemma this_minus (x y : Qc) : (this (x - y) == this x - this y)%Q.
Proof. unfold Qcminus. rewrite this_plus, this_opp. reflexivity. Qed.
Lemma this_inv (x : Qc) : (this (/ x) == / this x)%Q.
Proof. exact (Qred_correct _). Qed.
Lemma this_div (x y : Qc) : (this (x / y) == this x / this y)%Q.
Proof. unfold Qcdiv. rewrite this_mult, this_inv. reflexivity. Qed.
Lemma this_0 : (this 0 == 0)%Q. Proof. reflexivity. Qed.
Lemma this_1 : (this 1 == 1)%Q. Proof. reflexivity. Qed.
Lemma Qc_eq_iff (x y : Qc) : x = y <-> (this x == this y)%Q.
Proof. split; [intros ->; reflexivity | apply Qc_is_canon]. Qed.

Ltac toQ_goal :=
  unfold Qcle, Qclt; try (apply Qc_is_canon);
  repeat first [ setoid_rewrite this_plus | setoid_rewrite this_minus
               | setoid_rewrite this_mult | setoid_rewrite this_opp
               | setoid_rewrite this_0 | setoid_rewrite this_1 ].
Ltac toQ :=
  repeat match goal with
  | H : @eq Qc _ _ |- _ => apply Qc_eq_iff in H
  | H : ~ @eq Qc _ _ |- _ => rewrite Qc_eq_iff in H
  end;
  try (apply Qc_is_canon);
  unfold Qcle, Qclt in *;
  repeat first [ rewrite this_plus in * | rewrite this_minus in *
               | rewrite this_mult in * | rewrite this_opp in *
               | rewrite this_0 in * | rewrite this_1 in * ];
  repeat match goal with
  | |- context [ this ?x ] => let q := fresh "q" in set (q := this x) in *; clearbody q
  | H : context [ this ?x ] |- _ => let q := fresh "q" in set (q := this x) in *; clearbody q
  end.
Ltac qlra := toQ; lra.
Ltac qnra := toQ; nra.

Lemma Qc_eqb_spec (x y : Qc) : reflect (x = y) (Qc_eqb x y).
Proof.
  unfold Qc_eqb. destruct (Qeq_bool x y) eqn:E; constructor.
  - apply Qc_is_canon, Qeq_bool_iff, E.
  - intros ->. rewrite (proj2 (Qeq_bool_iff y y)) in E; [discriminate | reflexivity].
Qed.
Lemma Qc_eqb_refl x : Qc_eqb x x = true.
Proof. destruct (Qc_eqb_spec x x); congruence. Qed.
Lemma Qc_leb_spec (x y : Qc) : reflect (x <= y) (Qc_leb x y).
Proof.
  unfold Qc_leb. destruct (Qle_bool x y) eqn:E; constructor; unfold Qcle.
  - apply Qle_bool_iff, E.
  - intros H. apply Qle_bool_iff in H. congruence.
Qed.
Lemma Qc_ltb_spec (x y : Qc) : reflect (x < y) (Qc_ltb x y).
Proof.
  unfold Qc_ltb. destruct (Qle_bool y x) eqn:E; constructor; unfold Qclt.
  - apply Qle_bool_iff in E. intros H. apply (Qlt_not_le _ _ H), E.
  - apply Qnot_le_lt. intros H. apply Qle_bool_iff in H. congruence.
Qed.

(** ** Cells *)
Lemma nz_n2n c : nz (n2n c) = nz c.
Proof. destruct c as [q|]; simpl; auto. destruct (Qc_eqb_spec q 0); simpl; auto. Qed.
Lemma n2n_idem c : n2n (n2n c) = n2n c.
Proof. destruct c as [q|]; simpl; auto. destruct (Qc_eqb q 0) eqn:E; simpl; auto. rewrite E; auto. Qed.
Lemma n2n_Some_ne c q : n2n c = Some q -> q <> 0.
Proof. destruct c as [x|]; simpl; [|discriminate]. destruct (Qc_eqb_spec x 0); [discriminate|]. intros [= <-]; auto. Qed.
Lemma n2n_Some q : q <> 0 -> n2n (Some q) = Some q.
Proof. intros H; simpl. destruct (Qc_eqb_spec q 0); congruence. Qed.
Lemma n2n_0 : n2n (Some 0) = None.
Proof. reflexivity. Qed.
Lemma n2n_eq_of_nz a b : nz a = nz b -> n2n a = n2n b.
Proof.
  intros H. destruct a as [x|], b as [y|]; simpl in *; subst; auto.
Qed.
Lemma cdiv_Some x y : y <> 0 -> cdiv (Some x) (Some y) = Some (x / y).
Proof. intros H; simpl. destruct (Qc_eqb_spec y 0); congruence. Qed.

(** ** Sums *)
Lemma sumn_ext n f g : (forall i, (i < n)%nat -> f i = g i) -> sumn n f = sumn n g.
Proof. induction n as [|n IH]; simpl; intros H; auto. rewrite IH, H; auto with arith. Qed.
Lemma sumn_plus n f g : sumn n (fun i => f i + g i) = sumn n f + sumn n g.
Proof. induction n as [|n IH]; simpl; [ring|]. rewrite IH; ring. Qed.
Lemma sumn_minus n f g : sumn n (fun i => f i - g i) = sumn n f - sumn n g.
Proof. induction n as [|n IH]; simpl; [ring|]. rewrite IH; ring. Qed.
Lemma sumn_scal n c f : sumn n (fun i => c * f i) = c * sumn n f.
Proof. induction n as [|n IH]; simpl; [ring|]. rewrite IH; ring. Qed.
Lemma sumn_scal_r n c f : sumn n (fun i => f i * c) = sumn n f * c.
Proof. induction n as [|n IH]; simpl; [ring|]. rewrite IH; ring. Qed.
Lemma sumn_0 n : sumn n (fun _ => 0) = 0.
Proof. induction n as [|n IH]; simpl; [ring|]. rewrite IH; ring. Qed.
Lemma sumn_zero n f : (forall i, (i < n)%nat -> f i = 0) -> sumn n f = 0.
Proof. intros H. rewrite (sumn_ext n f (fun _ => 0)); auto. apply sumn_0. Qed.
Lemma sumn_S_l n f : sumn (S n) f = f O + sumn n (fun i => f (S i)).
Proof. induction n as [|n IH]; [simpl; ring|]. change (sumn (S (S n)) f) with (sumn (S n) f + f (S n)). rewrite IH. simpl. ring. Qed.
Lemma sumn_app n m f : sumn (n + m) f = sumn n f + sumn m (fun i => f (n + i)%nat).
Proof. induction m as [|m IH]; [rewrite Nat.add_0_r; simpl; ring|].
  rewrite Nat.add_succ_r. simpl. rewrite IH. ring. Qed.
Lemma sumn_telescope n f : sumn n (fun i => f (S i) - f i) = f n - f O.
Proof. induction n as [|n IH]; simpl; [ring|]. rewrite IH; ring. Qed.
Lemma sumn_swap n m f : sumn n (fun i => sumn m (fun j => f i j)) = sumn m (fun j => sumn n (fun i => f i j)).
Proof.
  induction n as [|n IH]; simpl; [rewrite sumn_0; auto|]. rewrite IH, <- sumn_plus. apply sumn_ext; auto.
Qed.
Lemma sumn_single n k f : (k < n)%nat -> (forall i, (i < n)%nat -> i <> k -> f i = 0) -> sumn n f = f k.
Proof.
  induction n as [|n IH]; intros Hk H; [lia|]. simpl. destruct (Nat.eq_dec k n) as [->|Hn].
  - rewrite sumn_zero; [ring|]. intros i Hi; apply H; lia.
  - rewrite IH; [|lia|intros; apply H; lia]. rewrite (H n); [ring|lia|lia].
Qed.
Lemma sumn_nonneg n f : (forall i, (i < n)%nat -> 0 <= f i) -> 0 <= sumn n f.
Proof.
  induction n as [|n IH]; intros H; simpl; [apply Qcle_refl|].
  assert (0 <= sumn n f) by (apply IH; auto with arith).
  assert (0 <= f n) by auto. qlra.
Qed.
Lemma sumn_le n f g : (forall i, (i < n)%nat -> f i <= g i) -> sumn n f <= sumn n g.
Proof.
  induction n as [|n IH]; intros H; simpl; [apply Qcle_refl|].
  assert (sumn n f <= sumn n g) by (apply IH; auto with arith).
  assert (f n <= g n) by auto. qlra.
Qed.
Lemma sumn_pos n f k : (k < n)%nat -> 0 < f k -> (forall i, (i < n)%nat -> 0 <= f i) -> 0 < sumn n f.
Proof.
  induction n as [|n IH]; intros Hk Hp H; [lia|]. simpl.
  assert (H0 : 0 <= sumn n f) by (apply sumn_nonneg; auto with arith).
  assert (H1 : 0 <= f n) by auto.
  destruct (Nat.eq_dec k n) as [->|Hn]; [qlra|].
  assert (0 < sumn n f) by (apply IH; auto with arith; lia). qlra.
Qed.

Lemma prodn_ext n f g : (forall i, (i < n)%nat -> f i = g i) -> prodn n f = prodn n g.
Proof. induction n as [|n IH]; simpl; intros H; auto. rewrite IH, H; auto with arith. Qed.
Lemma prodn_app n m f : prodn (n + m) f = prodn n f * prodn m (fun i => f (n + i)%nat).
Proof. induction m as [|m IH]; [rewrite Nat.add_0_r; simpl; ring|].
  rewrite Nat.add_succ_r. simpl. rewrite IH. ring. Qed.
Lemma prodn_S_l n f : prodn (S n) f = f O * prodn n (fun i => f (S i)).
Proof. change (S n) with (1 + n)%nat. rewrite prodn_app. simpl. ring. Qed.
Lemma prodn_ne n f : (forall i, (i < n)%nat -> f i <> 0) -> prodn n f <> 0.
Proof.
  induction n as [|n IH]; simpl; intros H; [discriminate|].
  intros E. destruct (Qcmult_integral _ _ E) as [E'|E']; [apply IH in E'; auto with arith | apply H in E'; auto with arith].
Qed.
Lemma prodn_1 n f : (forall i, (i < n)%nat -> f i = 1) -> prodn n f = 1.
Proof. induction n as [|n IH]; simpl; intros H; auto. rewrite IH, H; auto with arith. Qed.
Lemma Qcmult_le_mono a b c d : 0 <= a -> a <= b -> 0 <= c -> c <= d -> a * c <= b * d.
Proof. intros. qnra. Qed.
Lemma prodn_ge_1 n f : (forall i, (i < n)%nat -> 1 <= f i) -> 1 <= prodn n f.
Proof.
  induction n as [|n IH]; simpl; intros H; [apply Qcle_refl|].
  assert (1 <= prodn n f) by (apply IH; auto with arith). assert (1 <= f n) by auto. qnra.
Qed.
Lemma prodn_pos n f : (forall i, (i < n)%nat -> 0 < f i) -> 0 < prodn n f.
Proof.
  induction n as [|n IH]; simpl; intros H; [reflexivity|].
  assert (0 < prodn n f) by (apply IH; auto with arith). assert (0 < f n) by auto. qnra.
Qed.

Lemma qsum_app l1 l2 : qsum (l1 ++ l2) = qsum l1 + qsum l2.
Proof. induction l1 as [|x l1 IH]; simpl; [ring|]. rewrite IH; ring. Qed.
Lemma qsum_perm l1 l2 : Permutation l1 l2 -> qsum l1 = qsum l2.
Proof. induction 1; simpl; try congruence; try ring. Qed.
Lemma qsum_map_seq n f : qsum (map f (seq 0 n)) = sumn n f.
Proof.
  induction n as [|n IH]; auto. rewrite seq_S, map_app, qsum_app, IH. simpl. ring.
Qed.
Lemma qsum_map_plus {A} (f g : A -> Qc) l : qsum (map (fun x => f x + g x) l) = qsum (map f l) + qsum (map g l).
Proof. induction l as [|x l IH]; simpl; [ring|]. rewrite IH; ring. Qed.
Lemma qsum_map_0 {A} (f : A -> Qc) l : (forall x, In x l -> f x = 0) -> qsum (map f l) = 0.
Proof. induction l as [|x l IH]; simpl; intros H; auto. rewrite H, IH; auto. Qed.
