(** Proofs about Berquist-Sherman: the exponential curve and the ages it goes through. *)
From Coq Require Import Lia Lra.
From Verif Require Import Spec TriFacts NumFacts P_Agg P_Mack P_Munich2 P_Bondy SpecBerq P_Berq3 P_Berq5.
Local Open Scope R_scope.

Lemma half_some x : half (Some x) = Some (x / 2).
Proof. unfold half, rdiv. destruct (Req_EM_T 2 0); [lra|reflexivity]. Qed.
Lemma rlog_pos y : 0 < y -> rlog (Some y) = Some (ln y).
Proof. intros H. unfold rlog. destruct (Rlt_dec 0 y); [reflexivity|contradiction]. Qed.
Lemma curve_ok x0 x1 y0 y1 : x0 <> x1 -> 0 < y0 -> 0 < y1 ->
  exists a b, curve_b (Some x0) (Some x1) (rlog (Some y0)) (rlog (Some y1)) = Some b /\ curve_a (Some b) (Some x0) (Some x1) (rlog (Some y0)) (rlog (Some y1)) = Some a /\
    y0 = a * exp (b * x0) /\ y1 = a * exp (b * x1).
Proof.
  intros N P0 P1. assert (D : x1 - x0 <> 0) by (intros E; apply N; lra).
  rewrite !rlog_pos by auto. set (l0 := ln y0). set (l1 := ln y1). set (b := (l1 - l0) / (x1 - x0)).
  exists (exp ((l0 + l1) / 2 - b * (x0 + x1) / 2)), b.
  assert (Eb : curve_b (Some x0) (Some x1) (Some l0) (Some l1) = Some b).
  { unfold curve_b. cbn [rmul radd]. rewrite !half_some. cbn [rmul radd rsub]. rewrite !half_some. cbn [rsub]. unfold rdiv.
    destruct (Req_EM_T _ 0) as [E|E].
    - exfalso. apply D. assert (Z : (x1 - x0) * (x1 - x0) = 0) by lra. apply Rmult_integral in Z. lra.
    - f_equal. unfold b. field. split; [auto|]. intros Z. apply E. lra. }
  split; [exact Eb|]. split.
  { unfold curve_a. cbn [rmul radd]. rewrite !half_some. cbn [rsub rexp option_map]. do 2 f_equal. }
  split; rewrite <- exp_plus.
  - rewrite <- (exp_ln y0) at 1 by auto. fold l0. f_equal. unfold b. field. auto.
  - rewrite <- (exp_ln y1) at 1 by auto. fold l1. f_equal. unfold b. field. auto.
Qed.
Lemma exponential_one x0 y0 x1 y1 x y y' : x0 <> x1 -> 0 < y0 -> on_exponential x0 y0 x1 y1 x y -> on_exponential x0 y0 x1 y1 x y' -> y = y'.
Proof.
  intros N P (a & b & A0 & A1 & ->) (a' & b' & B0 & B1 & ->).
  assert (Pa : 0 < a). { pose proof (exp_pos (b * x0)). destruct (Rlt_dec 0 a); auto. nra. }
  assert (Pb : 0 < a'). { pose proof (exp_pos (b' * x0)). destruct (Rlt_dec 0 a'); auto. nra. }
  assert (L : forall z, a * exp (b * z) = exp (ln a + b * z)) by (intros; rewrite exp_plus, exp_ln; auto).
  assert (L' : forall z, a' * exp (b' * z) = exp (ln a' + b' * z)) by (intros; rewrite exp_plus, exp_ln; auto).
  assert (E0 : ln a + b * x0 = ln a' + b' * x0) by (apply exp_inv; rewrite <- L, <- L'; congruence).
  assert (E1 : ln a + b * x1 = ln a' + b' * x1) by (apply exp_inv; rewrite <- L, <- L'; congruence).
  assert (Eb : b = b'). { assert (Z : (b - b') * (x1 - x0) = 0) by lra. apply Rmult_integral in Z. destruct Z; [lra|]. exfalso. apply N. lra. }
  subst b'. rewrite L, L'. f_equal. lra.
Qed.
Lemma exponential_between x0 y0 x1 y1 x y : x0 < x1 -> 0 < y0 -> y0 <= y1 -> x0 <= x <= x1 -> on_exponential x0 y0 x1 y1 x y -> y0 <= y <= y1.
Proof.
  intros N P M X (a & b & A0 & A1 & ->).
  assert (Pa : 0 < a). { pose proof (exp_pos (b * x0)). destruct (Rlt_dec 0 a); auto. nra. }
  assert (B : 0 <= b). { destruct (Rle_dec 0 b); auto. exfalso. assert (b * x1 < b * x0) by nra. pose proof (exp_increasing _ _ H). nra. }
  assert (I : forall u v, u <= v -> exp u <= exp v) by (intros u v [H| ->]; [left; apply exp_increasing; auto|right; auto]).
  split; [rewrite A0|rewrite A1]; apply Rmult_le_compat_l; try lra; apply I; nra.
Qed.

Local Open Scope nat_scope.
Lemma count_prefix (p : nat -> bool) n : (forall m, S m < n -> p (S m) = true -> p m = true) -> forall m, m < n -> (p m = true <-> m < List.length (filter p (seq 0 n))).
Proof.
  intros A. assert (D : forall m j, m < n -> p m = true -> j <= m -> p j = true).
  { induction m as [|m IH]; intros j Hm P L; [assert (j = 0) by lia; subst; auto|]. destruct (Nat.eq_dec j (S m)); [subst; auto|]. apply IH; [lia|apply A; auto|lia]. }
  assert (G : forall k, k <= n -> exists c, c <= k /\ List.length (filter p (seq 0 k)) = c /\ forall m, m < k -> (p m = true <-> m < c)).
  { induction k as [|k IH]; intros L; [exists 0; repeat split; auto; intros; lia|]. destruct (IH ltac:(lia)) as (c & Lc & Ec & H). rewrite seq_S, filter_app, app_length, Ec. cbn [filter Nat.add].
    destruct (p k) eqn:P; cbn [List.length].
    - assert (c = k). { destruct (Nat.eq_dec c k); auto. exfalso. assert (c < k) by lia. assert (p c = true) by (apply (D k); auto; lia). apply H in H1; lia. }
      subst c. exists (k + 1). split; [lia|]. split; [lia|]. intros m Hm. split; [lia|]. intros _. apply (D k); auto; lia.
    - exists c. split; [lia|]. split; [lia|]. intros m Hm. destruct (Nat.eq_dec m k); [subst; split; [congruence|lia]|]. apply H. lia. }
  destruct (G n (Nat.le_refl n)) as (c & _ & -> & H). exact H.
Qed.

Section Lookup.
Variables (t ult : tri) (n : nat) (k : columns) (i : nat).
Hypotheses (B : forall o d, o < n -> d < n -> n <= o + d -> cel t i (cc k) o d = None) (C : closing t n k i) (U : forall o, o < n -> (0 < amount ult i 0 o 0)%Qc).

Lemma known_cell c o d q : nz (cel t i c o d) = q -> q <> 0%Qc -> cel t i c o d = Some q.
Proof. intros E N. destruct (cel t i c o d); cbn in E; congruence. Qed.
Lemma pos_ne (q : Qc) : (0 < q)%Qc -> q <> 0%Qc.
Proof. intros H E. subst q. discriminate H. Qed.
Lemma closed_cell_level o d : o < n -> d < n -> closed_cell t ult n k i o d = Some (closed_level t ult n k i o d).
Proof using C.
  intros Ho Hd. unfold closed_cell, closed_level, disposal. destruct (proj1 C (n - 1 - d) d ltac:(lia)) as (P & _).
  pose proof (known_cell (cc k) (n - 1 - d) d _ eq_refl (pos_ne _ P)) as E. rewrite E. unfold n2n. rewrite some_eqb by (apply (pos_ne _ P)). reflexivity.
Qed.
Lemma closed_mono o a b : a < b -> o + b < n -> (closed_at t k i o a < closed_at t k i o b)%Qc.
Proof using C.
  intros L. induction L as [|b L IH]; intros H; [apply C; auto|]. eapply Qclt_trans; [apply IH; lia|]. apply C; auto.
Qed.
Lemma look_bracket o d : o + d < n - 1 -> bracket t n k i o (closed_level t ult n k i o d) (look_at t ult n k i o d).
Proof using B C.
  intros L. set (c := closed_level t ult n k i o d). unfold look_at. rewrite closed_cell_level by lia. fold c.
  set (p := fun m => above (Some c) (cel t i (cc k) o m)).
  assert (Pk : forall m, o + m < n -> p m = true <-> (closed_at t k i o m < c)%Qc).
  { intros m Hm. unfold p. destruct (proj1 C o m Hm) as (P & _). rewrite (known_cell (cc k) o m _ eq_refl (pos_ne _ P)). cbn [above]. unfold closed_at, amount in *. destruct (Qc_ltb_spec (nz (cel t i (cc k) o m)) c); split; auto; congruence. }
  assert (Pf : forall m, m < n -> n <= o + m -> p m = false) by (intros m Hm Hl; unfold p; rewrite B by lia; reflexivity).
  assert (A : forall m, S m < n -> p (S m) = true -> p m = true).
  { intros m Hm E. destruct (le_lt_dec n (o + S m)) as [G|G]; [rewrite Pf in E by lia; discriminate|]. apply Pk; [lia|]. apply Pk in E; [|lia]. eapply Qclt_trans; [apply C; exact G|exact E]. }
  pose proof (count_prefix p n A) as H. set (cnt := List.length (filter p (seq 0 n))) in *.
  set (m := Nat.min (Nat.max cnt 1 - 1) (n - o - 2)).
  assert (Lm : m + 2 <= n - o) by (unfold m; lia).
  split; [exact Lm|]. split.
  - destruct (Nat.eq_dec m 0); [left; auto|right]. apply Pk; [lia|]. apply H; lia.
  - destruct (Nat.eq_dec (m + 2) (n - o)); [left; auto|right]. destruct (p (S m)) eqn:E.
    + apply H in E; lia.
    + apply Qcnot_lt_le. intros G. apply Pk in G; [congruence|lia].
Qed.
Lemma bracket_one o c m m' : bracket t n k i o c m -> bracket t n k i o c m' -> m = m'.
Proof using C.
  assert (G : forall m m', bracket t n k i o c m -> bracket t n k i o c m' -> ~ m < m').
  { intros x y (A1 & A2 & A3) (B1 & B2 & B3) L. destruct A3 as [E|E]; [lia|]. destruct B2 as [F|F]; [lia|].
    assert (Z : (closed_at t k i o (S x) <= closed_at t k i o y)%Qc). { destruct (Nat.eq_dec y (S x)); [subst; apply Qcle_refl|]. apply Qclt_le_weak. apply closed_mono; lia. }
    apply (Qcle_not_lt _ _ (Qcle_trans _ _ _ E Z)). exact F. }
  intros H H'. pose proof (G _ _ H H'). pose proof (G _ _ H' H). lia.
Qed.
Lemma paid_curve o d m : o + d < n - 1 -> bracket t n k i o (closed_level t ult n k i o d) m ->
  exists a b, b_at t k i o (look_at t ult n k i o d) = Some b /\ a_at t k i o (look_at t ult n k i o d) = Some a /\
    rv (paid_at t k i o m) = (a * exp (b * rv (closed_at t k i o m)))%R /\ rv (paid_at t k i o (S m)) = (a * exp (b * rv (closed_at t k i o (S m))))%R.
Proof using B C.
  intros L Hm. rewrite <- (bracket_one _ _ _ _ Hm (look_bracket o d L)). destruct Hm as (L2 & _).
  destruct (proj1 C o m ltac:(lia)) as (C0 & P0). destruct (proj1 C o (S m) ltac:(lia)) as (C1 & P1). pose proof (proj2 C o m ltac:(lia)) as Lt.
  unfold a_at, b_at. rewrite (known_cell (cc k) o m _ eq_refl (pos_ne _ C0)), (known_cell (cc k) o (S m) _ eq_refl (pos_ne _ C1)), (known_cell (cp k) o m _ eq_refl (pos_ne _ P0)), (known_cell (cp k) o (S m) _ eq_refl (pos_ne _ P1)).
  cbn [r_of option_map]. destruct (curve_ok (rv (closed_at t k i o m)) (rv (closed_at t k i o (S m))) (rv (paid_at t k i o m)) (rv (paid_at t k i o (S m)))) as (a & b & Eb & Ea & X0 & X1).
  - apply rv_lt in Lt. lra.
  - apply rv_pos, P0.
  - apply rv_pos, P1.
  - exists a, b. split; [exact Eb|]. split; [|auto]. unfold closed_at, paid_at, amount in *. rewrite Eb. exact Ea.
Qed.
End Lookup.
