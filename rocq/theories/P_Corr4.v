(** Proofs about the test for correlated development factors: sums of ranks. *)
From Coq Require Import Lia Permutation.
From Verif Require Import P_Arith P_Agg P_Olf3 P_Corr P_Corr2 NumFacts SpecCorr.
Local Open Scope nat_scope.

(** * Ranks of different numbers are 1, 2, ..., n *)

Definition nrank (n : nat) (f : nat -> Qc) (o : nat) : nat := S (List.length (filter (fun o' => Qc_ltb (f o') (f o)) (seq 0 n))).
Lemma rank_nrank n f o : rank_of n f o = qc (Z.of_nat (nrank n f o)).
Proof. reflexivity. Qed.
Lemma nrank_le n f o : o < n -> nrank n f o <= n.
Proof.
  intros Ho. unfold nrank. assert (I : In o (seq 0 n)) by (apply in_seq; lia).
  apply (Nat.lt_le_trans _ (List.length (seq 0 n))); [|rewrite seq_length; auto].
  induction (seq 0 n) as [|x l IH]; [destruct I|]. cbn [filter List.length]. destruct I as [->|I].
  - destruct (Qc_ltb_spec (f o) (f o)) as [H|H]; [exfalso; qlra|]. pose proof (filter_length_le (fun o' => Qc_ltb (f o') (f o)) l). lia.
  - specialize (IH I). destruct (Qc_ltb (f x) (f o)); cbn [List.length]; lia.
Qed.
Lemma nrank_inj n f o o' : (forall a b, a < n -> b < n -> f a = f b -> a = b) -> o < n -> o' < n -> nrank n f o = nrank n f o' -> o = o'.
Proof.
  intros Inj Ho Ho' E. apply Inj; auto.
  assert (M : forall a b, a < n -> b < n -> (f a < f b)%Qc -> nrank n f a < nrank n f b).
  { intros a b Ha Hb H. unfold nrank. assert (I : In a (seq 0 n)) by (apply in_seq; lia). apply (proj1 (Nat.succ_lt_mono _ _)).
    assert (G : forall l, List.length (filter (fun o' => Qc_ltb (f o') (f a)) l) <= List.length (filter (fun o' => Qc_ltb (f o') (f b)) l)).
    { intros l. apply filter_le. intros x _ Hx. destruct (Qc_ltb_spec (f x) (f a)); [|discriminate]. destruct (Qc_ltb_spec (f x) (f b)); auto. exfalso; qlra. }
    induction (seq 0 n) as [|x l IH]; [destruct I|]. cbn [filter]. specialize (G l). destruct I as [->|I].
    - destruct (Qc_ltb_spec (f a) (f a)); [exfalso; qlra|]. destruct (Qc_ltb_spec (f a) (f b)); [cbn; lia|contradiction].
    - specialize (IH I). destruct (Qc_ltb_spec (f x) (f a)), (Qc_ltb_spec (f x) (f b)); cbn [List.length]; try lia; exfalso; qlra. }
  destruct (Qc_ltb_spec (f o) (f o')) as [H|H]; [pose proof (M o o' Ho Ho' H); lia|].
  destruct (Qc_ltb_spec (f o') (f o)) as [H'|H']; [pose proof (M o' o Ho' Ho H'); lia|]. apply Qcle_antisym; qlra.
Qed.
Lemma nrank_perm n f : (forall a b, a < n -> b < n -> f a = f b -> a = b) -> Permutation (map (nrank n f) (seq 0 n)) (seq 1 n).
Proof.
  intros Inj. apply NoDup_Permutation_bis.
  - assert (G : forall l, NoDup l -> (forall x, In x l -> x < n) -> NoDup (map (nrank n f) l)).
    { induction l as [|x l IH]; intros ND H; [constructor|]. inversion ND; subst. cbn [map]. constructor.
      - rewrite in_map_iff. intros (z & E & Hz). apply nrank_inj in E; auto; [subst; contradiction|apply H; right; auto|apply H; left; auto].
      - apply IH; auto. intros z Hz. apply H; right; auto. }
    apply G; [apply seq_NoDup|]. intros x Hx. apply in_seq in Hx. lia.
  - rewrite map_length, !seq_length. auto.
  - intros x Hx. apply in_map_iff in Hx. destruct Hx as (o & <- & Ho). apply in_seq in Ho. pose proof (nrank_le n f o ltac:(lia)). apply in_seq. unfold nrank in *. lia.
Qed.
Lemma qsum_perm l l' : Permutation l l' -> qsum l = qsum l'.
Proof.
  induction 1; auto.
  - rewrite !qsum_cons, IHPermutation. auto.
  - rewrite !qsum_cons. ring.
  - congruence.
Qed.
Lemma rank_sum n f (g : nat -> Qc) : (forall a b, a < n -> b < n -> f a = f b -> a = b) ->
  sumn n (fun o => g (nrank n f o)) = sumn n (fun j => g (S j)).
Proof.
  intros Inj. rewrite <- (qsum_map_seq n (fun o => g (nrank n f o))), <- (qsum_map_seq n (fun j => g (S j))).
  rewrite <- (map_map (nrank n f) g). rewrite (qsum_perm _ (map g (seq 1 n))).
  - rewrite <- seq_shift, map_map. reflexivity.
  - apply Permutation_map, nrank_perm, Inj.
Qed.
Definition qn (n : nat) : Qc := qc (Z.of_nat n).
Lemma qn_S n : qn (S n) = (qn n + 1)%Qc.
Proof. unfold qn. rewrite Nat2Z.inj_succ. unfold Z.succ. rewrite qcZ_plus. reflexivity. Qed.
Lemma sum_1 n : ((1 + 1) * sumn n (fun j => qn (S j)) = qn n * (qn n + 1))%Qc.
Proof. induction n as [|n IH]; [change (qn 0) with 0%Qc; cbn [sumn]; ring|]. cbn [sumn]. rewrite Qcmult_plus_distr_r, IH, !qn_S. ring. Qed.
Lemma sum_2 n : ((1 + 1) * (1 + 1 + 1) * sumn n (fun j => qn (S j) * qn (S j)) = qn n * (qn n + 1) * (qn n + qn n + 1))%Qc.
Proof. induction n as [|n IH]; [change (qn 0) with 0%Qc; cbn [sumn]; ring|]. cbn [sumn]. rewrite Qcmult_plus_distr_r, IH, !qn_S. ring. Qed.

(** * Spread of ranks and their correlation *)

Definition twelve : Qc := ((1 + 1) * (1 + 1) * (1 + 1 + 1))%Qc.
Lemma twelve_ne : twelve <> 0%Qc.
Proof. intros E. apply (f_equal this) in E. discriminate E. Qed.
Lemma qn_ne n : 0 < n -> qn n <> 0%Qc.
Proof. intros H E. assert (P : (0 < qn n)%Qc) by (apply qcZ_pos; lia). rewrite E in P. exact (Qlt_irrefl _ P). Qed.
Lemma covariation_eq n r s : 0 < n -> covariation n r s = (sumn n (fun o => r o * s o) - sumn n r * sumn n s / qn n)%Qc.
Proof.
  intros H. unfold covariation. set (a := mean_of_n n r). set (b := mean_of_n n s).
  rewrite (sumn_ext n _ (fun o => r o * s o - a * s o - r o * b + a * b)%Qc) by (intros; ring).
  rewrite sumn_plus, !sumn_minus, sumn_scal, sumn_scal_r.
  assert (C : forall n k, sumn n (fun _ => k) = (qn n * k)%Qc) by (clear; intros n k; induction n as [|n IH]; [change (qn 0) with 0%Qc; cbn [sumn]; ring|]; cbn [sumn]; rewrite IH, qn_S; ring).
  rewrite C. unfold a, b, mean_of_n. fold (qn n). field. apply qn_ne, H.
Qed.
Lemma rank_spread n f : (forall a b, a < n -> b < n -> f a = f b -> a = b) -> 0 < n ->
  (twelve * covariation n (rank_of n f) (rank_of n f) = qn n * qn n * qn n - qn n)%Qc.
Proof.
  intros Inj H. rewrite covariation_eq by auto.
  assert (E2 : sumn n (fun o => rank_of n f o * rank_of n f o)%Qc = sumn n (fun j => qn (S j) * qn (S j))%Qc) by exact (rank_sum n f (fun k => qn k * qn k)%Qc Inj).
  assert (E1 : sumn n (rank_of n f) = sumn n (fun j => qn (S j))) by exact (rank_sum n f qn Inj). rewrite E1, E2.
  pose proof (sum_1 n) as S1. pose proof (sum_2 n) as S2. set (A := sumn n (fun j => qn (S j))) in *. set (B := sumn n (fun j => (qn (S j) * qn (S j))%Qc)) in *.
  pose proof (qn_ne n H) as N. set (q := qn n) in *. pose proof two_ne as T.
  assert (T3 : (1 + 1 + 1)%Qc <> 0%Qc) by (intros E; apply (f_equal this) in E; discriminate E).
  assert (EA : A = (q * (q + 1) / (1 + 1))%Qc) by (rewrite <- S1; field; auto).
  assert (EB : B = (q * (q + 1) * (q + q + 1) / ((1 + 1) * (1 + 1 + 1)))%Qc).
  { rewrite <- S2. field. repeat split; auto; intros E; apply (f_equal this) in E; discriminate E. }
  rewrite EA, EB. unfold twelve. field. repeat split; auto; intros E; apply (f_equal this) in E; discriminate E.
Qed.
Lemma rank_total n f : (forall a b, a < n -> b < n -> f a = f b -> a = b) -> sumn n (rank_of n f) = sumn n (fun j => qn (S j)).
Proof. intros Inj. exact (rank_sum n f qn Inj). Qed.
Lemma cube_pos n : 2 <= n -> (0 < qn n * qn n * qn n - qn n)%Qc.
Proof.
  intros H. unfold qn. rewrite <- !qcZ_mult, <- qcZ_minus. apply qcZ_pos. nia.
Qed.
Lemma spearman n f g x : (forall a b, a < n -> b < n -> f a = f b -> a = b) -> (forall a b, a < n -> b < n -> g a = g b -> a = b) -> 2 <= n ->
  x = (1 - qc 6 * sumn n (fun o => (rank_of n g o - rank_of n f o) * (rank_of n g o - rank_of n f o)) / (qn n * qn n * qn n - qn n))%Qc ->
  correlation n (rank_of n f) (rank_of n g) x.
Proof.
  intros If Ig Hn E. pose proof (rank_spread n f If ltac:(lia)) as Sf. pose proof (rank_spread n g Ig ltac:(lia)) as Sg. pose proof (cube_pos n Hn) as P.
  set (u := (qn n * qn n * qn n - qn n)%Qc) in *. set (r := rank_of n f) in *. set (s := rank_of n g) in *.
  assert (U0 : u <> 0%Qc) by (intros E0; rewrite E0 in P; exact (Qlt_irrefl _ P)).
  assert (Cf : covariation n r r = (u / twelve)%Qc) by (rewrite <- Sf; field; apply twelve_ne).
  assert (Cg : covariation n s s = (u / twelve)%Qc) by (rewrite <- Sg; field; apply twelve_ne).
  assert (D : sumn n (fun o => (s o - r o) * (s o - r o))%Qc = (covariation n r r + covariation n s s - (1 + 1) * covariation n r s)%Qc).
  { rewrite !covariation_eq by lia. rewrite (sumn_ext n _ (fun o => r o * r o + s o * s o - (1 + 1) * (r o * s o))%Qc) by (intros; ring).
    rewrite sumn_minus, sumn_plus, sumn_scal. unfold r, s. rewrite (rank_total n f If), (rank_total n g Ig). field. apply qn_ne. lia. }
  assert (Q6 : qc 6 = (twelve / (1 + 1))%Qc) by (unfold twelve; apply Qc_is_canon; reflexivity).
  split; [congruence|]. split.
  - rewrite Cf. unfold Qcdiv. replace 0%Qc with (0 * / twelve)%Qc by ring. apply Qcmult_lt_compat_r; [reflexivity|exact P].
  - rewrite E, D, Cf, Cg, Q6. field. repeat split; auto using two_ne, twelve_ne.
Qed.
Lemma sq_ge0 z : (0 <= z * z)%Qc.
Proof. qnra. Qed.
Lemma correlation_bounds n r s x : correlation n r s x -> (- (1) <= x)%Qc /\ (x <= 1)%Qc.
Proof.
  intros (E & P & X). set (v := covariation n r r) in *.
  assert (S1 : (0 <= v + covariation n s s + (1 + 1) * covariation n r s)%Qc).
  { unfold v, covariation. rewrite <- sumn_scal, <- !sumn_plus. apply sumn_nonneg. intros o _.
    set (a := (r o - mean_of_n n r)%Qc). set (b := (s o - mean_of_n n s)%Qc). replace (a * a + b * b + (1 + 1) * (a * b))%Qc with ((a + b) * (a + b))%Qc by ring. apply sq_ge0. }
  assert (S2 : (0 <= v + covariation n s s - (1 + 1) * covariation n r s)%Qc).
  { unfold v, covariation. rewrite <- sumn_scal, <- !sumn_plus, <- sumn_minus. apply sumn_nonneg. intros o _.
    set (a := (r o - mean_of_n n r)%Qc). set (b := (s o - mean_of_n n s)%Qc). replace (a * a + b * b - (1 + 1) * (a * b))%Qc with ((a - b) * (a - b))%Qc by ring. apply sq_ge0. }
  rewrite <- E, <- X in *. split.
  - destruct (Qc_leb_spec (- (1)) x) as [L|L]; auto. exfalso. assert (L2 : (x < - (1))%Qc) by qlra. assert (L3 : (0 < (- (1) - x) * v)%Qc) by (replace 0%Qc with (0 * v)%Qc by ring; apply Qcmult_lt_compat_r; auto; qlra). replace ((- (1) - x) * v)%Qc with (- v - x * v)%Qc in L3 by ring. set (z := (x * v)%Qc) in *. qlra.
  - destruct (Qc_leb_spec x 1) as [L|L]; auto. exfalso. assert (L2 : (1 < x)%Qc) by qlra. assert (L3 : (0 < (x - 1) * v)%Qc) by (replace 0%Qc with (0 * v)%Qc by ring; apply Qcmult_lt_compat_r; auto; qlra). replace ((x - 1) * v)%Qc with (x * v - v)%Qc in L3 by ring. set (z := (x * v)%Qc) in *. qlra.
Qed.
