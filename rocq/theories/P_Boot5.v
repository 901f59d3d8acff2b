(** Design matrix and likelihood of the bootstrap. *)
From Coq Require Import Lia Lra.
From Verif Require P_Bondy.
From Verif Require Export P_Boot4.
From Verif Require Import SpecBoot.
Local Open Scope nat_scope.

Lemma count_prefix n m p : m <= n -> (forall o, o < n -> p o = (o <? m)) -> count_true n p = m.
Proof.
  intros Hm H. assert (A : forall k, k <= n -> count_true k p = Nat.min k m).
  { induction k as [|k IH]; intros Hk; [reflexivity|]. rewrite DevFit.count_S, IH by lia. rewrite H by lia. destruct (Nat.ltb_spec k m); lia. }
  rewrite A by lia. lia.
Qed.
Lemma map_zero {A} (l : list A) (f : A -> Qc) (x : list R) : (forall a, In a l -> f a = 0%Qc) -> dot (map f l) x = 0%R.
Proof.
  revert x. induction l as [|a l IH]; intros x H; [reflexivity|]. destruct x as [|y x]; [reflexivity|]. unfold dot in *. cbn [map combine rsuml fst snd]. rewrite IH by (intros; apply H; right; auto).
  rewrite H by (left; auto). rewrite rv_0. ring.
Qed.
Lemma dot_app a b x y : List.length a = List.length x -> dot (a ++ b) (x ++ y) = (dot a x + dot b y)%R.
Proof.
  unfold dot. revert x. induction a as [|q a IH]; intros [|v x] L; cbn in L; try discriminate; [cbn; ring|].
  cbn [app combine map rsuml fst snd]. rewrite IH by lia. ring.
Qed.
Lemma dot_unit m s k (g : nat -> R) : k < m -> dot (map (fun c => if c =? s + k then 1%Qc else 0%Qc) (seq s m)) (map g (seq s m)) = g (s + k).
Proof.
  revert s k. induction m as [|m IH]; intros s k Hk; [lia|]. cbn [seq map]. unfold dot. cbn [combine map rsuml fst snd].
  change (rsuml (map (fun p : Qc * R => (rv (fst p) * snd p)%R) (combine ?a ?b))) with (dot a b).
  destruct k as [|k].
  - rewrite Nat.add_0_r, Nat.eqb_refl, rv_1. rewrite map_zero; [ring|]. intros c Hc. apply in_seq in Hc. destruct (Nat.eqb_spec c s); [lia|reflexivity].
  - destruct (Nat.eqb_spec s (s + S k)); [lia|]. rewrite rv_0. replace (s + S k) with (S s + k) by lia. rewrite IH by lia. ring.
Qed.
Lemma rsuml_app a b : rsuml (a ++ b) = (rsuml a + rsuml b)%R.
Proof. induction a as [|x a IH]; cbn; [ring|]. rewrite IH. ring. Qed.
Lemma dot_prefix m d (g : nat -> R) : d <= m -> dot (map (fun k => if k <? d then 1%Qc else 0%Qc) (seq 0 m)) (map g (seq 0 m)) = rsumn d g.
Proof.
  induction m as [|m IH]; intros Hd; [replace d with 0 by lia; reflexivity|]. rewrite seq_S, !map_app. rewrite dot_app by (rewrite !map_length; reflexivity). cbn [Nat.add map].
  unfold dot at 2. cbn [combine map rsuml fst snd]. destruct (Nat.eq_dec d (S m)) as [->|].
  - destruct (Nat.ltb_spec m (S m)); [|lia]. rewrite rv_1. cbn [rsumn].
    assert (E : forall k, In k (seq 0 m) -> (if k <? S m then 1%Qc else 0%Qc) = (if k <? m then 1%Qc else 0%Qc)).
    { intros k Hk. apply in_seq in Hk. destruct (Nat.ltb_spec k (S m)); destruct (Nat.ltb_spec k m); auto; lia. }
    rewrite (map_ext_in _ _ _ E).
    assert (X : dot (map (fun k => if k <? m then 1%Qc else 0%Qc) (seq 0 m)) (map g (seq 0 m)) = rsumn m g).
    { clear. induction m as [|m IH]; [reflexivity|]. rewrite seq_S, !map_app. rewrite dot_app by (rewrite !map_length; reflexivity). cbn [Nat.add map].
      rewrite (map_ext_in _ (fun k => if k <? m then 1%Qc else 0%Qc)) by (intros k Hk; apply in_seq in Hk; destruct (Nat.ltb_spec k (S m)); destruct (Nat.ltb_spec k m); auto; lia).
      rewrite IH. unfold dot. cbn [combine map rsuml fst snd rsumn]. destruct (Nat.ltb_spec m (S m)); [|lia]. rewrite rv_1. ring. }
    rewrite X. ring.
  - rewrite IH by lia. destruct (Nat.ltb_spec m d); [lia|]. rewrite rv_0. ring.
Qed.

Lemma rsumn_swap2 n m (f : nat -> nat -> R) : rsumn n (fun i => rsumn m (fun j => f i j)) = rsumn m (fun j => rsumn n (fun i => f i j)).
Proof.
  induction n as [|n IH]; cbn [rsumn]; [symmetry; apply rsumn_zero; reflexivity|]. rewrite IH, <- rsumn_plus. reflexivity.
Qed.
Lemma known_swap n f : known_sum n f = rsumn n (fun d => rsumn (n - d) (fun o => f o d)).
Proof.
  unfold known_sum. rewrite (rsumn_ext n _ (fun o => rsumn n (fun d => if o + d <? n then f o d else 0%R))).
  2:{ intros o Ho. symmetry. rewrite (rsumn_cut n (n - o)); [apply rsumn_ext|lia|]; intros d Hd; [|intros]; destruct (Nat.ltb_spec (o + d) n); auto; lia. }
  rewrite rsumn_swap2. apply rsumn_ext. intros d Hd. rewrite (rsumn_cut n (n - d)); [apply rsumn_ext|lia|]; intros o Ho; [|intros]; destruct (Nat.ltb_spec (o + d) n); auto; lia.
Qed.
Lemma known_plus n f g : known_sum n (fun o d => f o d + g o d)%R = (known_sum n f + known_sum n g)%R.
Proof. unfold known_sum. rewrite <- rsumn_plus. apply rsumn_ext. intros. apply rsumn_plus. Qed.
Lemma known_nonneg n f : (forall o d, o + d < n -> (0 <= f o d)%R) -> (0 <= known_sum n f)%R.
Proof. intros H. unfold known_sum. apply rsumn_nonneg. intros o Ho. apply rsumn_nonneg. intros d Hd. apply H. lia. Qed.
Lemma ln_bound u : (0 < u)%R -> (ln u <= u - 1)%R.
Proof.
  intros H. destruct (Req_EM_T (ln u) 0) as [E|E].
  - rewrite E. assert (u = 1)%R by (rewrite <- (exp_ln u H), E; apply exp_0). lra.
  - pose proof (exp_ineq1 (ln u) E) as X. rewrite exp_ln in X by auto. lra.
Qed.

Section Boot.
Variables (b : boot_params) (t : tri) (n : nat).
Hypothesis I : boot_input t n.

Lemma design_ok : boot_design t = map (fun p => map Some (indicator n p)) (cells_by_age n).
Proof using I.
  pose proof (bn_dims t n I) as (E0 & E1 & E2 & E3). pose proof (bn_n _ _ I) as Hn. unfold boot_design, cells_by_age. rewrite E2, E3, map_flat. apply flat_map_ext_in. intros d Hd. apply in_seq in Hd.
  assert (RD : (if d =? 0 then n else reached t d) = n - d).
  { destruct (Nat.eqb_spec d 0) as [->|]; [lia|]. unfold reached. rewrite E2. apply count_prefix; [lia|]. intros o Ho. rewrite (bn_nan t n I) by lia.
    destruct (Nat.ltb_spec (o + d) n); destruct (Nat.ltb_spec o (n - d)); cbn; auto; lia. }
  rewrite RD, map_map. apply map_ext_in. intros o Ho. apply in_seq in Ho. unfold design_row, indicator. rewrite E2, E3. cbn [fst snd]. rewrite map_app, !map_map. f_equal.
  - apply map_ext. intros c. rewrite (bn_nan t n I) by lia. destruct (Nat.ltb_spec (o + d) n); [|lia]. rewrite (Nat.eqb_sym c o). destruct (o =? c); reflexivity.
Qed.
Lemma indicator_length p : 1 <= n -> List.length (indicator n p) = 2 * n - 1.
Proof using. intros. unfold indicator. rewrite app_length, !map_length, !seq_length. lia. Qed.

Lemma log_split : (forall o d, o + d < n -> (0 < expected_in b t n o d)%Qc) -> forall o d, o + d < n ->
  ln (rv (expected_in b t n o d)) = (ln (rv (expected_in b t n o 0)) + (ln (rv (expected_in b t n 0 d)) - ln (rv (expected_in b t n 0 0))))%R.
Proof using.
  intros P o d H. destruct (multiplicative b t n) as (A & B & M).
  assert (X : (rv (expected_in b t n o d) * rv (expected_in b t n 0 0) = rv (expected_in b t n o 0) * rv (expected_in b t n 0 d))%R).
  { rewrite <- !rv_mult. f_equal. rewrite !M by lia. ring. }
  apply (f_equal ln) in X. rewrite !ln_mult in X by (apply P_Bondy.rv_pos, P; lia). lra.
Qed.
Lemma log_linear : (forall o d, o + d < n -> (0 < expected_in b t n o d)%Qc) -> 1 <= n ->
  exists x, List.length x = 2 * n - 1 /\ forall o d, o + d < n -> ln (rv (expected_in b t n o d)) = dot (indicator n (o, d)) x.
Proof using.
  intros P Hn. exists (map (fun o => ln (rv (expected_in b t n o 0))) (seq 0 n) ++ map (fun k => ln (rv (expected_in b t n 0 (S k))) - ln (rv (expected_in b t n 0 k)))%R (seq 0 (n - 1))).
  split; [rewrite app_length, !map_length, !seq_length; lia|]. intros o d H. unfold indicator. cbn [fst snd]. rewrite dot_app by (rewrite !map_length; reflexivity).
  pose proof (dot_unit n 0 o (fun o => ln (rv (expected_in b t n o 0))) ltac:(lia)) as X. cbn [Nat.add] in X. rewrite X, dot_prefix by lia. rewrite (log_split P) by auto. f_equal.
  clear X H. induction d as [|d IH]; [cbn; ring|]. cbn [rsumn]. rewrite <- IH. ring.
Qed.
End Boot.

Section Default.
Variables (t : tri) (n : nat).
Hypotheses (I : boot_input t n) (V : volumes t n).
Local Notation e o d := (rv (expected_in default_boot t n o%nat d%nat)) (only parsing).
Local Notation y o d := (rv (increment_of t 0 0 o d)) (only parsing).

Lemma margins (p q : nat -> R) : known_sum n (fun o d => (y o d - e o d) * (p o + q d))%R = 0%R.
Proof using I V.
  rewrite (known_sum_ext n _ (fun o d => (y o d - e o d) * p o + (y o d - e o d) * q d)%R) by (intros; ring). rewrite known_plus.
  assert (A : known_sum n (fun o d => (y o d - e o d) * p o)%R = 0%R).
  { unfold known_sum. apply rsumn_zero. intros o Ho. rewrite rsumn_scale_r. rewrite (rsumn_ext _ _ (fun d => y o d + (-1) * e o d)%R) by (intros; ring). rewrite rsumn_plus, rsumn_scale.
    rewrite <- !rv_sumn. rewrite (P_Boot4.origin_total default_boot t n o Ho), (latest_increments t n o Ho). ring. }
  rewrite A, known_swap, Rplus_0_l. apply rsumn_zero. intros d Hd. rewrite rsumn_scale_r. rewrite (rsumn_ext _ _ (fun o => y o d + (-1) * e o d)%R) by (intros; ring). rewrite rsumn_plus, rsumn_scale.
  rewrite <- !rv_sumn. rewrite (P_Boot4.age_total t n I V d Hd). ring.
Qed.
Lemma likelihood : (forall o d, o + d < n -> (0 < expected_in default_boot t n o d)%Qc) -> forall A B : nat -> R, (forall k, k < n -> (0 < A k)%R /\ (0 < B k)%R) ->
  (poisson_loss n (fun o d => y o d) (fun o d => e o d) <= poisson_loss n (fun o d => y o d) (fun o d => A o * B d))%R.
Proof using I V.
  intros P A B AB. unfold poisson_loss. apply Ropp_le_contravar.
  set (m := fun o d => (A o * B d)%R).
  assert (D : (known_sum n (fun o d => y o d * ln (e o d) - e o d) - known_sum n (fun o d => y o d * ln (m o d) - m o d) = known_sum n (fun o d => m o d - e o d - e o d * ln (m o d / e o d)))%R).
  { pose proof (margins (fun o => ln (A o) - ln (e o 0))%R (fun d => ln (B d) - (ln (e 0 d) - ln (e 0 0)))%R) as M.
    assert (X : known_sum n (fun o d => y o d * ln (e o d) - e o d)%R = known_sum n (fun o d => (y o d * ln (m o d) - m o d) + (m o d - e o d - e o d * ln (m o d / e o d)) + (-1) * ((y o d - e o d) * ((ln (A o) - ln (e o 0)) + (ln (B d) - (ln (e 0 d) - ln (e 0 0))))))%R).
    { apply known_sum_ext. intros o d H. destruct (AB o ltac:(lia)) as (Ao & _). destruct (AB d ltac:(lia)) as (_ & Bd). pose proof (P_Bondy.rv_pos _ (P o d H)) as Pe.
      assert (Pm : (0 < m o d)%R) by (apply Rmult_lt_0_compat; auto).
      assert (L1 : ln (m o d / e o d) = (ln (m o d) - ln (e o d))%R). { unfold Rdiv. rewrite ln_mult by (auto; apply Rinv_0_lt_compat; auto). rewrite ln_Rinv by auto. ring. }
      assert (L2 : ln (m o d) = (ln (A o) + ln (B d))%R) by (apply ln_mult; auto).
      rewrite L1. pose proof (log_split default_boot t n P o d H) as L3. cbv beta. rewrite L3, L2. ring. }
    rewrite X, !known_plus. rewrite (known_sum_ext n (fun o d => -1 * _)%R (fun o d => (y o d - e o d) * ((- (ln (A o) - ln (e o 0))) + (- (ln (B d) - (ln (e 0 d) - ln (e 0 0))))))%R) by (intros; ring).
    rewrite (margins (fun o => - (ln (A o) - ln (e o 0)))%R (fun d => - (ln (B d) - (ln (e 0 d) - ln (e 0 0))))%R). ring. }
  assert (N : (0 <= known_sum n (fun o d => m o d - e o d - e o d * ln (m o d / e o d)))%R).
  { apply known_nonneg. intros o d H. destruct (AB o ltac:(lia)) as (Ao & _). destruct (AB d ltac:(lia)) as (_ & Bd). pose proof (P_Bondy.rv_pos _ (P o d H)) as Pe.
    assert (Pm : (0 < m o d)%R) by (apply Rmult_lt_0_compat; auto). pose proof (ln_bound (m o d / e o d)) as LB.
    assert (0 < m o d / e o d)%R by (apply Rmult_lt_0_compat; auto; apply Rinv_0_lt_compat; auto). specialize (LB H0).
    apply (Rmult_le_compat_l (e o d)) in LB; [|lra]. replace (e o d * (m o d / e o d - 1))%R with (m o d - e o d)%R in LB by (field; lra). cbv beta in *. lra. }
  change (known_sum n (fun o d => y o d * ln (m o d) - m o d) <= known_sum n (fun o d => y o d * ln (e o d) - e o d))%R. lra.
Qed.
End Default.
