(** Proofs about the calendar year test: the coins. *)
From Coq Require Import Lia.
From Verif Require Import P_Arith P_Agg P_Olf3 NumFacts SpecCorr.
Local Open Scope Z_scope.

(** * Binomial coefficients *)

Lemma comb_0 n : comb n 0 = 1.
Proof. destruct n; reflexivity. Qed.
Lemma comb_S n k : comb (S n) (S k) = comb n k + comb n (S k).
Proof. reflexivity. Qed.
Lemma comb_absorb n : forall k, (Z.of_nat k + 1) * comb (S n) (S k) = (Z.of_nat n + 1) * comb n k.
Proof.
  induction n as [|n IH]; intros k.
  - destruct k as [|k]; cbn; lia.
  - destruct k as [|k].
    + rewrite comb_S, !comb_0. specialize (IH 0%nat). rewrite comb_0 in IH. lia.
    + rewrite (comb_S (S n) (S k)). pose proof (IH k) as I1. pose proof (IH (S k)) as I2. pose proof (comb_S n k) as X.
      set (x := comb (S n) (S k)) in *. set (y := comb (S n) (S (S k))) in *. set (a := comb n k) in *. set (b := comb n (S k)) in *.
      assert (b = x - a) by lia. subst b. rewrite !Nat2Z.inj_succ in *. unfold Z.succ in *. nia.
Qed.
Lemma comb_next n k : (Z.of_nat k + 1) * comb n (S k) = (Z.of_nat n - Z.of_nat k) * comb n k.
Proof. pose proof (comb_absorb n k) as H. rewrite comb_S in H. nia. Qed.
Lemma comb_middle m : comb (S (2 * m)) (S m) = comb (S (2 * m)) m.
Proof. pose proof (comb_next (S (2 * m)) m) as H. nia. Qed.

(** * Sums over all the ways coins fall *)

Definition zsum (l : list Z) : Z := fold_right Z.add 0 l.
Lemma zsum_app l l' : zsum (l ++ l') = zsum l + zsum l'.
Proof. induction l as [|x l IH]; [reflexivity|]. cbn [app]. change (zsum (x :: l ++ l')) with (x + zsum (l ++ l')). change (zsum (x :: l)) with (x + zsum l). lia. Qed.
Definition csum (n : nat) (f : list bool -> Z) : Z := zsum (map f (coins n)).
Lemma csum_S n f : csum (S n) f = csum n (fun l => f (true :: l)) + csum n (fun l => f (false :: l)).
Proof. unfold csum. cbn [coins]. rewrite map_app, zsum_app, !map_map. reflexivity. Qed.
Lemma csum_ext n : forall f g, (forall l, List.length l = n -> f l = g l) -> csum n f = csum n g.
Proof.
  induction n as [|n IH]; intros f g H.
  - unfold csum. cbn. rewrite (H nil); reflexivity.
  - rewrite !csum_S. f_equal; apply IH; intros; apply H; cbn; lia.
Qed.
Lemma csum_plus n f g : csum n (fun l => f l + g l) = csum n f + csum n g.
Proof. unfold csum. induction (coins n) as [|x l IH]; [reflexivity|]. cbn [map zsum fold_right] in *. unfold zsum in IH. lia. Qed.
Lemma csum_scale n k f : csum n (fun l => k * f l) = k * csum n f.
Proof. unfold csum. induction (coins n) as [|x l IH]; [cbn; lia|]. cbn [map zsum fold_right] in *. unfold zsum in IH. lia. Qed.
Lemma csum_le n f g : (forall l, f l <= g l) -> csum n f <= csum n g.
Proof. intros H. unfold csum. induction (coins n) as [|x l IH]; [cbn; lia|]. cbn [map zsum fold_right] in *. unfold zsum in IH. specialize (H x). lia. Qed.
Lemma csum_one n : csum n (fun _ => 1) = 2 ^ Z.of_nat n.
Proof. induction n as [|n IH]; [reflexivity|]. rewrite csum_S, IH, Nat2Z.inj_succ, Z.pow_succ_r by lia. lia. Qed.
Lemma coins_length n : Z.of_nat (List.length (coins n)) = 2 ^ Z.of_nat n.
Proof. rewrite <- csum_one. unfold csum. induction (coins n) as [|x l IH]; [reflexivity|]. cbn [map zsum fold_right List.length]. unfold zsum in IH. lia. Qed.

Lemma heads_true l : heads (true :: l) = S (heads l).
Proof. reflexivity. Qed.
Lemma heads_false l : heads (false :: l) = heads l.
Proof. reflexivity. Qed.
Lemma tails_true l : tails (true :: l) = tails l.
Proof. reflexivity. Qed.
Lemma tails_false l : tails (false :: l) = S (tails l).
Proof. reflexivity. Qed.
Lemma heads_tails l : (heads l + tails l = List.length l)%nat.
Proof. induction l as [|[|] l IH]; [reflexivity| |]; rewrite ?heads_true, ?heads_false, ?tails_true, ?tails_false; cbn [List.length]; lia. Qed.

Definition zb (b : bool) : Z := if b then 1 else 0.
Lemma csum_heads n : forall k, csum n (fun l => zb (heads l =? k)%nat) = comb n k.
Proof.
  induction n as [|n IH]; intros k.
  - destruct k; reflexivity.
  - rewrite csum_S. destruct k as [|k].
    + rewrite comb_0. rewrite (csum_ext n (fun l => zb (heads (true :: l) =? 0)%nat) (fun l => 0 * 1)) by reflexivity. rewrite csum_scale.
      rewrite (csum_ext n (fun l => zb (heads (false :: l) =? 0)%nat) (fun l => zb (heads l =? 0)%nat)) by reflexivity. rewrite IH, comb_0. lia.
    + rewrite comb_S. f_equal.
      * rewrite <- (IH k). apply csum_ext. intros. rewrite heads_true. reflexivity.
      * rewrite <- (IH (S k)). apply csum_ext. intros. rewrite heads_false. reflexivity.
Qed.
(** Swapping heads and tails. *)
Lemma csum_swap n : forall (f : nat -> nat -> Z), csum n (fun l => f (heads l) (tails l)) = csum n (fun l => f (tails l) (heads l)).
Proof.
  induction n as [|n IH]; intros f; [reflexivity|]. rewrite !csum_S.
  rewrite (csum_ext n (fun l => f (heads (true :: l)) (tails (true :: l))) (fun l => f (S (heads l)) (tails l))) by reflexivity.
  rewrite (csum_ext n (fun l => f (heads (false :: l)) (tails (false :: l))) (fun l => f (heads l) (S (tails l)))) by reflexivity.
  rewrite (csum_ext n (fun l => f (tails (true :: l)) (heads (true :: l))) (fun l => f (tails l) (S (heads l)))) by reflexivity.
  rewrite (csum_ext n (fun l => f (tails (false :: l)) (heads (false :: l))) (fun l => f (S (tails l)) (heads l))) by reflexivity.
  rewrite (IH (fun a b => f (S a) b)), (IH (fun a b => f a (S b))). lia.
Qed.

(** * The spread between heads and tails *)

Definition spread (l : list bool) : Z := Z.of_nat (heads l) - Z.of_nat (tails l).
Lemma spread_sq n : csum n (fun l => spread l * spread l) = Z.of_nat n * 2 ^ Z.of_nat n.
Proof.
  induction n as [|n IH]; [reflexivity|]. rewrite csum_S, <- csum_plus.
  rewrite (csum_ext n _ (fun l => 2 * (spread l * spread l) + 2 * 1)).
  - rewrite csum_plus, !csum_scale, IH, csum_one, Nat2Z.inj_succ, Z.pow_succ_r by lia. lia.
  - intros l _. unfold spread. rewrite heads_true, heads_false, tails_true, tails_false. nia.
Qed.
Definition balanced (n : nat) : Z := if Nat.even n then comb n (n / 2) else 0.
Lemma csum_balanced n : csum n (fun l => zb (spread l =? 0)) = balanced n.
Proof.
  unfold balanced. destruct (Nat.even n) eqn:E.
  - apply Nat.even_spec in E. destruct E as (k & ->). replace (2 * k / 2)%nat with k by (rewrite Nat.mul_comm, Nat.div_mul; auto).
    rewrite <- csum_heads. apply csum_ext. intros l L. pose proof (heads_tails l). unfold spread, zb.
    destruct (Z.eqb_spec (Z.of_nat (heads l) - Z.of_nat (tails l)) 0), (Nat.eqb_spec (heads l) k); auto; lia.
  - rewrite (csum_ext n _ (fun _ => 0 * 1)); [rewrite csum_scale; lia|]. intros l L. pose proof (heads_tails l). unfold spread, zb.
    destruct (Z.eqb_spec (Z.of_nat (heads l) - Z.of_nat (tails l)) 0); auto. exfalso.
    rewrite <- not_true_iff_false, Nat.even_spec in E. apply E. exists (heads l). lia.
Qed.
Lemma abs_spread_S n : csum (S n) (fun l => Z.abs (spread l)) = 2 * csum n (fun l => Z.abs (spread l)) + 2 * balanced n.
Proof.
  rewrite csum_S, <- csum_plus, <- csum_balanced, <- !csum_scale, <- csum_plus. apply csum_ext. intros l _.
  unfold spread, zb. rewrite heads_true, heads_false, tails_true, tails_false. destruct (Z.eqb_spec (Z.of_nat (heads l) - Z.of_nat (tails l)) 0); lia.
Qed.
Lemma abs_spread k : csum (S k) (fun l => Z.abs (spread l)) = 2 * Z.of_nat (S k) * comb k (k / 2).
Proof.
  induction k as [|k IH]; [reflexivity|]. rewrite abs_spread_S, IH. unfold balanced.
  destruct (Nat.Even_or_Odd k) as [(m & ->)|(m & ->)].
  - replace (2 * m / 2)%nat with m by (rewrite Nat.mul_comm, Nat.div_mul; auto).
    replace (S (2 * m) / 2)%nat with m by (apply (Nat.div_unique _ _ m 1); lia).
    replace (Nat.even (S (2 * m))) with false by (rewrite Nat.even_succ, Nat.odd_mul; reflexivity).
    pose proof (comb_absorb (2 * m) m) as H. rewrite comb_middle in H. set (A := comb (2 * m) m) in *. set (B := comb (S (2 * m)) m) in *.
    replace (Z.of_nat (2 * m)) with (2 * Z.of_nat m) in H by lia. replace (Z.of_nat (S (2 * m))) with (2 * Z.of_nat m + 1) by lia.
    replace (Z.of_nat (S (S (2 * m)))) with (2 * Z.of_nat m + 2) by lia. lia.
  - replace (2 * m + 1)%nat with (S (2 * m)) by lia.
    replace (S (2 * m) / 2)%nat with m by (apply (Nat.div_unique _ _ m 1); lia).
    replace (S (S (2 * m)) / 2)%nat with (S m) by (apply (Nat.div_unique _ _ (S m) 0); lia).
    replace (Nat.even (S (S (2 * m)))) with true by (change (Nat.even (S (S (2 * m)))) with (Nat.even (2 * m)); rewrite Nat.even_mul; reflexivity).
    rewrite (comb_S (S (2 * m)) m), comb_middle. set (B := comb (S (2 * m)) m) in *. lia.
Qed.

(** * From whole numbers to fractions *)

Lemma qsum_zsum {A} (f : A -> Z) (l : list A) : qsum (map (fun x => qc (f x)) l) = qc (zsum (map f l)).
Proof.
  induction l as [|x l IH]; [reflexivity|]. cbn [map]. rewrite qsum_cons, IH. change (zsum (f x :: map f l)) with (f x + zsum (map f l)). rewrite qcZ_plus. reflexivity.
Qed.
Lemma mean_coins_z n f : mean_coins n (fun l => qc (f l)) = (qc (csum n f) / two_pow n)%Qc.
Proof. unfold mean_coins. rewrite qsum_zsum, coins_length. reflexivity. Qed.
Lemma two_pow_ne n : two_pow n <> 0%Qc.
Proof. unfold two_pow. intros E. assert (H : (0 < qc (2 ^ Z.of_nat n))%Qc) by (apply qcZ_pos; lia). rewrite E in H. exact (Qlt_irrefl _ H). Qed.
Lemma qsum_ext {A} (f g : A -> Qc) l : (forall x, In x l -> f x = g x) -> qsum (map f l) = qsum (map g l).
Proof. induction l as [|x l IH]; intros H; [reflexivity|]. cbn [map]. rewrite !qsum_cons, IH, (H x); auto; [left; auto|intros; apply H; right; auto]. Qed.
Lemma mean_coins_ext n f g : (forall l, In l (coins n) -> f l = g l) -> mean_coins n f = mean_coins n g.
Proof. intros H. unfold mean_coins. f_equal. apply qsum_ext, H. Qed.
Lemma coins_len n : forall l, In l (coins n) -> List.length l = n.
Proof. induction n as [|n IH]; intros l H; cbn in H; [destruct H as [<-|[]]; reflexivity|]. apply in_app_or in H. destruct H as [H|H]; apply in_map_iff in H; destruct H as (x & <- & Hx); cbn; f_equal; auto. Qed.

Lemma smaller_spread l : 2 * Z.of_nat (smaller l) = Z.of_nat (List.length l) - Z.abs (spread l).
Proof. unfold smaller, spread. pose proof (heads_tails l). lia. Qed.
Lemma sum_smaller n : 2 * csum n (fun l => Z.of_nat (smaller l)) = Z.of_nat n * 2 ^ Z.of_nat n - csum n (fun l => Z.abs (spread l)).
Proof.
  rewrite <- csum_scale, <- csum_one, <- csum_scale. transitivity (csum n (fun l => Z.of_nat n * 1 + (-1) * Z.abs (spread l))).
  - apply csum_ext. intros l L. rewrite smaller_spread, L. lia.
  - rewrite csum_plus, !csum_scale. lia.
Qed.
Lemma sum_smaller_sq n : 4 * csum n (fun l => Z.of_nat (smaller l) * Z.of_nat (smaller l)) =
  (Z.of_nat n * Z.of_nat n + Z.of_nat n) * 2 ^ Z.of_nat n - 2 * Z.of_nat n * csum n (fun l => Z.abs (spread l)).
Proof.
  rewrite <- csum_scale. transitivity (csum n (fun l => (Z.of_nat n * Z.of_nat n) * 1 + ((-2 * Z.of_nat n) * Z.abs (spread l) + spread l * spread l))).
  - apply csum_ext. intros l L. pose proof (smaller_spread l) as H. rewrite L in H. pose proof (Z.abs_square (spread l)) as Q. nia.
  - rewrite !csum_plus, !csum_scale, csum_one, spread_sq. ring.
Qed.

Definition zc (n : nat) : Z := match n with O => 0 | S k => comb k (k / 2) end.
Lemma abs_spread_all n : csum n (fun l => Z.abs (spread l)) = 2 * Z.of_nat n * zc n.
Proof. destruct n as [|k]; [reflexivity|]. apply abs_spread. Qed.
Lemma comb_c_zc n : comb_c n = qc (zc n).
Proof. destruct n; reflexivity. Qed.

Ltac fld := field; repeat split; auto; try (intros E0; apply (f_equal this) in E0; discriminate E0).
Lemma mean_ok n : expected_z n = coins_mean n.
Proof.
  unfold coins_mean. rewrite (mean_coins_z n (fun l => Z.of_nat (smaller l))). unfold expected_z. rewrite comb_c_zc.
  pose proof (sum_smaller n) as H. rewrite abs_spread_all in H. apply (f_equal qc) in H. rewrite qcZ_minus, !qcZ_mult in H.
  fold (two_pow n) in H. pose proof (two_pow_ne n) as P. pose proof two_ne as T.
  set (s := qc (csum n (fun l => Z.of_nat (smaller l)))) in *. set (N := qc (Z.of_nat n)) in *. set (p := two_pow n) in *. set (z := qc (zc n)) in *.
  change (qc 2) with (1 + 1)%Qc in *.
  assert (E : s = (N * p / (1 + 1) - N * z)%Qc).
  { transitivity (((1 + 1) * s) / (1 + 1))%Qc; [fld|]. rewrite H. fld. }
  rewrite E. fld.
Qed.
Definition sqs (l : list bool) : Z := Z.of_nat (smaller l) * Z.of_nat (smaller l).
Lemma variance_ok n : variance_z n = coins_variance n.
Proof.
  unfold coins_variance. rewrite <- mean_ok. set (mu := expected_z n).
  assert (V : mean_coins n (fun l => (qc (Z.of_nat (smaller l)) - mu) * (qc (Z.of_nat (smaller l)) - mu))%Qc =
    (qc (csum n sqs) / two_pow n - mu * mu)%Qc).
  { assert (M : mu = (qc (csum n (fun l => Z.of_nat (smaller l))) / two_pow n)%Qc) by (unfold mu; rewrite mean_ok; apply (mean_coins_z n (fun l => Z.of_nat (smaller l)))).
    assert (E : qsum (map (fun l => (qc (Z.of_nat (smaller l)) - mu) * (qc (Z.of_nat (smaller l)) - mu))%Qc (coins n)) =
      (qc (csum n sqs) - (1 + 1) * mu * qc (csum n (fun l => Z.of_nat (smaller l))) + mu * mu * qc (Z.of_nat (List.length (coins n))))%Qc).
    { unfold csum. rewrite <- (qsum_zsum sqs (coins n)), <- (qsum_zsum (fun l => Z.of_nat (smaller l)) (coins n)). induction (coins n) as [|x l IH]; [change (0 = 0 - (1 + 1) * mu * 0 + mu * mu * 0)%Qc; ring|].
      cbn [map List.length]. rewrite !qsum_cons, IH, Nat2Z.inj_succ. unfold Z.succ. rewrite qcZ_plus, qcZ_1. replace (qc (sqs x)) with (qc (Z.of_nat (smaller x)) * qc (Z.of_nat (smaller x)))%Qc by (unfold sqs; rewrite qcZ_mult; reflexivity). cbn beta. ring. }
    unfold mean_coins. rewrite E, coins_length. fold (two_pow n). pose proof (two_pow_ne n) as P.
    set (s := qc (csum n (fun l => Z.of_nat (smaller l)))) in *. set (p := two_pow n) in *. replace s with (mu * p)%Qc by (rewrite M; fld). fld. }
  rewrite V. unfold variance_z. fold mu. rewrite comb_c_zc.
  pose proof (sum_smaller_sq n) as H. change (fun l : list bool => Z.of_nat (smaller l) * Z.of_nat (smaller l)) with sqs in H. rewrite abs_spread_all in H. apply (f_equal qc) in H. rewrite qcZ_minus, !qcZ_mult, qcZ_plus, !qcZ_mult in H.
  fold (two_pow n) in H. pose proof (two_pow_ne n) as P. pose proof two_ne as T.
  set (s := qc (csum n sqs)) in *.
  assert (M : mu = (qc (Z.of_nat n) / qc 2 - qc (zc n) * qc (Z.of_nat n) / two_pow n)%Qc) by (unfold mu, expected_z; rewrite comb_c_zc; reflexivity).
  set (N := qc (Z.of_nat n)) in *. set (p := two_pow n) in *. set (z := qc (zc n)) in *.
  assert (F4 : qc 4 = ((1 + 1) * (1 + 1))%Qc) by (apply Qc_is_canon; reflexivity). rewrite F4 in *. change (qc 2) with (1 + 1)%Qc in *.
  assert (E : s = ((N * N + N) * p / ((1 + 1) * (1 + 1)) - N * N * z)%Qc).
  { transitivity ((((1 + 1) * (1 + 1)) * s) / ((1 + 1) * (1 + 1)))%Qc; [fld|]. rewrite H. fld. }
  rewrite E. rewrite M at 1. fld.
Qed.

(** * Probabilities *)

Lemma csum_cdf n z : csum n (fun l => zb (heads l <=? z)%nat) = fold_right Z.add 0 (map (comb n) (seq 0 (S z))).
Proof.
  fold (zsum (map (comb n) (seq 0 (S z)))). induction z as [|z IH].
  - cbn [seq map zsum fold_right]. rewrite <- csum_heads, Z.add_0_r. apply csum_ext. intros. destruct (heads l); reflexivity.
  - rewrite seq_S, map_app, zsum_app, <- IH. cbn [map zsum fold_right Nat.add]. rewrite <- csum_heads, Z.add_0_r, <- csum_plus. apply csum_ext. intros l _. unfold zb.
    destruct (Nat.leb_spec (heads l) (S z)), (Nat.leb_spec (heads l) z), (Nat.eqb_spec (heads l) (S z)); lia.
Qed.
Lemma tails_cdf n z : csum n (fun l => zb (tails l <=? z)%nat) = csum n (fun l => zb (heads l <=? z)%nat).
Proof. symmetry. apply (csum_swap n (fun a _ => zb (a <=? z)%nat)). Qed.
Lemma smaller_cdf n z : csum n (fun l => zb (smaller l <=? z)%nat) = Z.min (2 ^ Z.of_nat n) (2 * csum n (fun l => zb (heads l <=? z)%nat)).
Proof.
  assert (T : 2 * csum n (fun l => zb (heads l <=? z)%nat) = csum n (fun l => zb (heads l <=? z)%nat + zb (tails l <=? z)%nat)) by (rewrite csum_plus, tails_cdf; lia).
  rewrite T. rewrite <- csum_one. destruct (Nat.ltb_spec (2 * z) n) as [H|H].
  - rewrite Z.min_r.
    + apply csum_ext. intros l L. pose proof (heads_tails l). unfold smaller, zb. destruct (Nat.leb_spec (Nat.min (heads l) (tails l)) z), (Nat.leb_spec (heads l) z), (Nat.leb_spec (tails l) z); lia.
    + erewrite (csum_ext n (fun l => zb (heads l <=? z)%nat + zb (tails l <=? z)%nat) (fun l => zb (smaller l <=? z)%nat)).
      * apply csum_le. intros l. unfold zb. destruct (_ <=? _)%nat; lia.
      * intros l L. pose proof (heads_tails l). unfold smaller, zb. destruct (Nat.leb_spec (Nat.min (heads l) (tails l)) z), (Nat.leb_spec (heads l) z), (Nat.leb_spec (tails l) z); lia.
  - assert (A : csum n (fun l => zb (smaller l <=? z)%nat) = csum n (fun _ => 1)).
    { apply csum_ext. intros l L. pose proof (heads_tails l). unfold smaller, zb. destruct (Nat.leb_spec (Nat.min (heads l) (tails l)) z); lia. }
    rewrite Z.min_l; auto. rewrite <- A. apply csum_le. intros l. unfold smaller, zb. destruct (Nat.leb_spec (Nat.min (heads l) (tails l)) z), (Nat.leb_spec (heads l) z), (Nat.leb_spec (tails l) z); lia.
Qed.
Lemma prob_ok z n : prob_z z n = coins_prob n z.
Proof.
  unfold coins_prob. rewrite (mean_coins_ext n _ (fun l => qc (zb (smaller l <=? z)%nat))) by (intros l _; destruct (_ <=? _)%nat; reflexivity).
  rewrite mean_coins_z, smaller_cdf, csum_cdf. unfold prob_z, binom_cdf. set (s := fold_right Z.add 0 _).
  assert (P : (0 < two_pow n)%Qc) by (apply qcZ_pos; lia). pose proof (two_pow_ne n) as Pn.
  unfold qmin. destruct (Qc_leb_spec 1 (qc 2 * (qc s / two_pow n))%Qc) as [H|H].
  - rewrite Z.min_l; [unfold two_pow; field; exact Pn|]. destruct (Z.le_gt_cases (2 ^ Z.of_nat n) (2 * s)) as [L|L]; auto. exfalso.
    assert (E : (qc (2 * s) < two_pow n)%Qc). { assert (Q : (0 < qc (2 ^ Z.of_nat n - 2 * s))%Qc) by (apply qcZ_pos; lia). rewrite qcZ_minus in Q. fold (two_pow n) in Q. qlra. }
    rewrite qcZ_mult in E. assert (F : (1 * two_pow n <= qc 2 * (qc s / two_pow n) * two_pow n)%Qc) by (apply Qcmult_le_compat_r; auto; apply Qclt_le_weak; auto).
    replace (qc 2 * (qc s / two_pow n) * two_pow n)%Qc with (qc 2 * qc s)%Qc in F by (fld). qlra.
  - rewrite Z.min_r; [rewrite qcZ_mult; fld|]. destruct (Z.le_gt_cases (2 * s) (2 ^ Z.of_nat n)) as [L|L]; auto. exfalso. apply H.
    assert (Q : (0 < qc (2 * s - 2 ^ Z.of_nat n))%Qc) by (apply qcZ_pos; lia). rewrite qcZ_minus, qcZ_mult in Q. fold (two_pow n) in Q.
    assert (Q' : (two_pow n <= qc 2 * qc s)%Qc) by qlra.
    replace 1%Qc with (two_pow n * / two_pow n)%Qc by (fld). replace (qc 2 * (qc s / two_pow n))%Qc with (qc 2 * qc s * / two_pow n)%Qc by (fld).
    apply Qcmult_le_compat_r; auto. apply Qclt_le_weak. apply (Qinv_lt_0_compat (this (two_pow n))) in P. unfold Qclt. cbn. rewrite Qred_correct. exact P.
Qed.
