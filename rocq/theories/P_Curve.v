(** Regression lines and fitted tails: proofs. *)
From Coq Require Import Lia Lra Qreals FunctionalExtensionality.
From Verif Require Export SpecCurve P_Mack.
Local Open Scope R_scope.

(** * Least squares *)
Section Line.
Variables (n : nat) (use : nat -> bool) (x y : nat -> R).
Definition sw (f : nat -> R) : R := rsumn n (fun k => if use k then f k else 0).
Lemma sw_ext f g : (forall k, (k < n)%nat -> use k = true -> f k = g k) -> sw f = sw g.
Proof. intros H. apply rsumn_ext. intros k Hk. destruct (use k) eqn:E; auto. Qed.
Lemma sw_plus f g : sw (fun k => f k + g k) = sw f + sw g.
Proof. unfold sw. rewrite <- rsumn_plus. apply rsumn_ext. intros k _. destruct (use k); ring. Qed.
Lemma sw_scale c f : sw (fun k => c * f k) = c * sw f.
Proof. unfold sw. rewrite <- rsumn_scale. apply rsumn_ext. intros k _. destruct (use k); ring. Qed.
Lemma sw_nonneg f : (forall k, (k < n)%nat -> use k = true -> 0 <= f k) -> 0 <= sw f.
Proof. intros H. apply rsumn_nonneg. intros k Hk. destruct (use k) eqn:E; [auto|lra]. Qed.
Lemma sw_pos f k : (forall k, (k < n)%nat -> use k = true -> 0 <= f k) -> (k < n)%nat -> use k = true -> 0 < f k -> 0 < sw f.
Proof.
  intros H Hk U P. unfold sw. revert H Hk. generalize n as m. induction m as [|m IH]; intros H Hk; [lia|]. cbn [rsumn].
  destruct (Nat.eq_dec k m) as [->|Ne].
  - rewrite U. assert (0 <= rsumn m (fun k => if use k then f k else 0)); [|lra]. apply rsumn_nonneg. intros j Hj. destruct (use j) eqn:E; [apply H; auto; lia|lra].
  - specialize (IH (fun j Hj => H j ltac:(lia)) ltac:(lia)). assert (0 <= if use m then f m else 0); [|lra]. destruct (use m) eqn:E; [apply H; auto; lia|lra].
Qed.
Lemma sq_dist_sw s b : sq_dist n use x y s b = sw (fun k => (y k - (s * x k + b)) ^ 2).
Proof. reflexivity. Qed.
Definition W := sw (fun _ => 1).
Definition X := sw x.
Definition Y := sw y.
Definition XX := sw (fun k => x k * x k).
Definition XY := sw (fun k => x k * y k).
Definition den := XX - X / W * X.
Definition num := XY - X * (Y / W).
Hypothesis two : two_points n use x.
Lemma W_pos : 0 < W.
Proof. destruct two as (j & k & Hj & Hk & Uj & _). apply (sw_pos (fun _ => 1) j); auto; intros; lra. Qed.
Lemma den_sq : den = sw (fun k => (x k - X / W) ^ 2).
Proof.
  assert (P := W_pos). unfold den.
  rewrite (sw_ext (fun k => (x k - X / W) ^ 2) (fun k => (x k * x k + (- (2 * (X / W)) * x k + (X / W) ^ 2 * 1)))) by (intros; ring).
  rewrite sw_plus, sw_plus, !sw_scale. fold XX X W. field. lra.
Qed.
Lemma den_pos : 0 < den.
Proof.
  rewrite den_sq. destruct two as (j & k & Hj & Hk & Uj & Uk & Ne).
  destruct (Req_dec (x j) (X / W)) as [E|E].
  - apply (sw_pos _ k); auto; [intros; apply pow2_ge_0|]. assert (x k - X / W <> 0) by lra. apply pow_nonzero with (n := 2%nat) in H. pose proof (pow2_ge_0 (x k - X / W)). lra.
  - apply (sw_pos _ j); auto; [intros; apply pow2_ge_0|]. assert (x j - X / W <> 0) by lra. apply pow_nonzero with (n := 2%nat) in H. pose proof (pow2_ge_0 (x j - X / W)). lra.
Qed.
Definition slope := num / den.
Definition icept := Y / W - slope * (X / W).
(** Distances from another line: the residuals are orthogonal to every line. *)
Lemma dist_split s b : sq_dist n use x y s b = sq_dist n use x y slope icept + sw (fun k => ((slope - s) * x k + (icept - b)) ^ 2).
Proof.
  assert (PW := W_pos). assert (PD := den_pos).
  rewrite !sq_dist_sw.
  set (r := fun k => y k - (slope * x k + icept)).
  assert (R0 : sw r = 0).
  { unfold r. rewrite (sw_ext _ (fun k => y k + ((- slope) * x k + (- icept) * 1))) by (intros; ring). rewrite sw_plus, sw_plus, !sw_scale. fold Y X W. unfold icept. field. lra. }
  assert (R1 : sw (fun k => x k * r k) = 0).
  { unfold r. rewrite (sw_ext _ (fun k => x k * y k + ((- slope) * (x k * x k) + (- icept) * x k))) by (intros; ring). rewrite sw_plus, sw_plus, !sw_scale. fold XY XX X.
    unfold icept. assert (E : slope * den = num) by (unfold slope; field; lra). unfold den, num in E.
    replace (XY + (- slope * XX + - (Y / W - slope * (X / W)) * X)) with (XY - X * (Y / W) - slope * (XX - X / W * X)) by ring. rewrite E. ring. }
  rewrite (sw_ext (fun k => (y k - (s * x k + b)) ^ 2) (fun k => r k ^ 2 + (((slope - s) * x k + (icept - b)) ^ 2 + (2 * (slope - s) * (x k * r k) + 2 * (icept - b) * r k)))) by (intros; unfold r; ring).
  rewrite sw_plus, sw_plus, sw_plus, !sw_scale, R0, R1. fold r. rewrite (sw_ext (fun k => (y k - (slope * x k + icept)) ^ 2) (fun k => r k ^ 2)) by reflexivity. ring.
Qed.
Lemma line_best : best_line n use x y slope icept.
Proof.
  intros s b. rewrite (dist_split s b). set (g := fun k => ((slope - s) * x k + (icept - b)) ^ 2).
  assert (G : 0 <= sw g) by (apply sw_nonneg; intros; apply pow2_ge_0). split; [lra|]. intros E.
  assert (G0 : sw g = 0) by lra.
  assert (Z : forall k, (k < n)%nat -> use k = true -> (slope - s) * x k + (icept - b) = 0).
  { intros k Hk U. destruct (Req_dec ((slope - s) * x k + (icept - b)) 0) as [|N]; auto. exfalso.
    assert (0 < sw g); [|lra]. apply (sw_pos g k); auto; [intros; apply pow2_ge_0|]. unfold g. apply pow_nonzero with (n := 2%nat) in N. pose proof (pow2_ge_0 ((slope - s) * x k + (icept - b))). lra. }
  destruct two as (j & k & Hj & Hk & Uj & Uk & Ne). assert (Zj := Z j Hj Uj). assert (Zk := Z k Hk Uk).
  assert (D : (slope - s) * (x j - x k) = 0) by lra. apply Rmult_integral in D. destruct D as [D|D]; [|lra]. rewrite D in Zj. split; lra.
Qed.
End Line.

(** * The regression of the library *)
Lemma rnansum_sw n (use : nat -> bool) (h : nat -> option R) (f : nat -> R) : (forall k, (k < n)%nat -> h k = if use k then Some (f k) else None) -> rnansum n h = sw n use f.
Proof. intros H. apply rsumn_ext. intros k Hk. rewrite H by auto. destruct (use k); reflexivity. Qed.
Lemma rcount_sw n (use : nat -> bool) (h : nat -> option R) (f : nat -> R) : (forall k, (k < n)%nat -> h k = if use k then Some (f k) else None) -> rcount n h = W n use.
Proof. intros H. apply rsumn_ext. intros k Hk. rewrite H by auto. destruct (use k); reflexivity. Qed.
Lemma ols_ok n (use : nat -> bool) w x y z : two_points n use x -> (forall k, (k < n)%nat -> w k = if use k then 1 else 0) ->
  (forall k, (k < n)%nat -> use k = true -> y k = Some (z k)) ->
  ols_x n w x y = if Req_EM_T (slope n use x z) 0 then (None, None) else (Some (slope n use x z), Some (icept n use x z)).
Proof.
  intros TP Hw Hy. assert (PW := W_pos n use x TP). assert (PD := den_pos n use x TP). unfold ols_x. cbv beta zeta.
  set (hx := fun k : nat => if Req_EM_T (w k) 0 then None else Some (x k)).
  set (hy := fun k : nat => if Req_EM_T (w k) 0 then None else y k).
  assert (Ex : forall k, (k < n)%nat -> (if Req_EM_T (w k) 0 then None else Some (x k)) = if use k then Some (x k) else None).
  { intros k Hk. rewrite (Hw k Hk). destruct (use k); destruct (Req_EM_T _ 0); auto; lra. }
  assert (Ey : forall k, (k < n)%nat -> (if Req_EM_T (w k) 0 then None else y k) = if use k then Some (z k) else None).
  { intros k Hk. rewrite (Hw k Hk). destruct (use k) eqn:U; destruct (Req_EM_T _ 0); auto; lra. }
  rewrite (rnansum_sw n use _ (fun k => x k * z k)) by (intros k Hk; rewrite (Ex k Hk), (Ey k Hk), (Hw k Hk); destruct (use k); cbn [rmul]; [f_equal; ring|reflexivity]).
  rewrite (rnansum_sw n use _ x) by (intros k Hk; rewrite (Ex k Hk), (Hw k Hk); destruct (use k); cbn [rmul]; [f_equal; ring|reflexivity]).
  rewrite (rnansum_sw n use _ (fun k => x k * x k)) by (intros k Hk; rewrite (Ex k Hk), (Hw k Hk); destruct (use k); cbn [rmul]; [f_equal; ring|reflexivity]).
  assert (Mx : rnanmean n hx = Some (X n use x / W n use)).
  { unfold rnanmean. rewrite (rnansum_sw n use _ x), (rcount_sw n use _ x) by auto. cbn [rdiv]. destruct (Req_EM_T (W n use) 0); [lra|reflexivity]. }
  assert (My : rnanmean n hy = Some (Y n use z / W n use)).
  { unfold rnanmean. rewrite (rnansum_sw n use _ z), (rcount_sw n use _ z) by auto. cbn [rdiv]. destruct (Req_EM_T (W n use) 0); [lra|reflexivity]. }
  rewrite Mx, My. cbn [rmul rsub]. fold (X n use x) (XX n use x) (XY n use x z).
  change (XX n use x - X n use x / W n use * X n use x) with (den n use x). change (XY n use x z - X n use x * (Y n use z / W n use)) with (num n use x z).
  cbn [rn2n]. destruct (Req_EM_T (den n use x) 0); [lra|]. unfold slope.
  destruct (Req_EM_T (num n use x z) 0) as [E|E].
  - cbn [rdiv]. rewrite E. destruct (Req_EM_T (0 / den n use x) 0) as [|N]; [reflexivity|]. exfalso. apply N. field. lra.
  - cbn [rdiv]. destruct (Req_EM_T (den n use x) 0); [lra|]. destruct (Req_EM_T (num n use x z / den n use x) 0) as [Z|Z].
    + exfalso. apply E. apply (Rmult_eq_compat_r (den n use x)) in Z. unfold Rdiv in Z. rewrite Rmult_assoc, Rinv_l, Rmult_1_r, Rmult_0_l in Z by lra. exact Z.
    + reflexivity.
Qed.
(** Points on a line. *)
Lemma exact_line n use x z s b : two_points n use x -> (forall k, (k < n)%nat -> use k = true -> z k = s * x k + b) -> slope n use x z = s /\ icept n use x z = b.
Proof.
  intros TP H. assert (B := line_best n use x z TP). destruct (B s b) as [L U].
  assert (Z : sq_dist n use x z s b = 0). { unfold sq_dist. apply rsumn_zero. intros k Hk. destruct (use k) eqn:E; auto. rewrite (H k Hk E). ring. }
  assert (P : 0 <= sq_dist n use x z (slope n use x z) (icept n use x z)). { unfold sq_dist. apply rsumn_nonneg. intros k Hk. destruct (use k); [apply pow2_ge_0|lra]. }
  destruct U as [-> ->]; [lra|auto].
Qed.
Lemma best_line_unique n use x y s b s' b' : best_line n use x y s b -> best_line n use x y s' b' -> s = s' /\ b = b'.
Proof. intros H H'. destruct (H' s b) as [L' U]. destruct (H s' b') as [L _]. apply U. lra. Qed.
Lemma ols_is n w y : ols n w y = ols_x n w period_no y.
Proof. reflexivity. Qed.
Lemma period_no_inj j k : period_no j = period_no k -> j = k.
Proof. unfold period_no. intros H. apply INR_eq in H. lia. Qed.

(** * Sigma interpolation *)
Definition positive_row (n : nat) (y : nat -> option R) : Prop := forall k v, (k < n)%nat -> y k = Some v -> 0 < v.
Definition log_of (y : nat -> option R) (k : nat) : R := ln (nzr (y k)).
Lemma loglinear_missing n y k : two_points n (is_known y) period_no -> positive_row n y -> y k = None ->
  loglinear n y k = if Req_EM_T (slope n (is_known y) period_no (log_of y)) 0 then None
                    else Some (exp (slope n (is_known y) period_no (log_of y) * period_no k + icept n (is_known y) period_no (log_of y))).
Proof.
  intros TP PR K. unfold loglinear. rewrite ols_is. rewrite (ols_ok n (is_known y) _ period_no _ (log_of y) TP).
  - rewrite K. cbn [option_map present nzr]. destruct (Req_EM_T (slope n (is_known y) period_no (log_of y)) 0).
    + cbn [line fst snd rmul radd option_map nzr rn2n]. destruct (Req_EM_T (0 + 0) 0); [reflexivity|lra].
    + cbn [line fst snd rmul radd option_map nzr rn2n]. change (INR (S k)) with (period_no k).
      rewrite Rplus_0_l, Rminus_0_r, Rmult_1_r. rewrite (Rmult_comm (period_no k)).
      destruct (Req_EM_T (exp _) 0) as [E|]; [|reflexivity]. exfalso. revert E. apply Rgt_not_eq, exp_pos.
  - intros j Hj. unfold is_known. destruct (y j); reflexivity.
  - intros j Hj. unfold is_known, log_of. destruct (y j) as [v|] eqn:E; [|discriminate]. intros _. cbn [option_map nzr]. unfold no_zero.
    destruct (Req_EM_T v 0); [|reflexivity]. specialize (PR j v Hj E). lra.
Qed.
Lemma sigma_least_squares n y : two_points n (is_known y) period_no -> positive_row n y ->
  exists s b, best_line n (is_known y) period_no (log_of y) s b /\
    (forall k v, y k = Some v -> nzr (loglinear n y k) = v) /\
    (s <> 0 -> forall k, y k = None -> loglinear n y k = Some (exp (s * period_no k + b))) /\
    (s = 0 -> forall k, y k = None -> loglinear n y k = None).
Proof.
  intros TP PR. exists (slope n (is_known y) period_no (log_of y)), (icept n (is_known y) period_no (log_of y)).
  split; [apply line_best; auto|]. split; [apply loglinear_known|].
  split; intros S k K; rewrite (loglinear_missing n y k TP PR K); destruct (Req_EM_T _ 0); auto; contradiction.
Qed.
Lemma sigma_on_curve n y s b : two_points n (is_known y) period_no -> s <> 0 -> (forall k v, (k < n)%nat -> y k = Some v -> v = exp (s * period_no k + b)) ->
  forall k, (k < n)%nat -> loglinear n y k = Some (exp (s * period_no k + b)).
Proof.
  intros TP S H k Hk.
  assert (PR : positive_row n y). { intros j v Hj E. rewrite (H j v Hj E). apply exp_pos. }
  destruct (y k) as [v|] eqn:K.
  - assert (E := loglinear_known n y k v K). rewrite (H k v Hk K) in E. destruct (loglinear n y k) as [u|]; cbn [nzr] in E; [subst; reflexivity|]. exfalso. pose proof (exp_pos (s * period_no k + b)). lra.
  - destruct (exact_line n (is_known y) period_no (log_of y) s b TP) as [E1 E2].
    { intros j Hj U. unfold log_of. unfold is_known in U. destruct (y j) as [v|] eqn:E; [|discriminate]. cbn [nzr]. rewrite (H j v Hj E). apply ln_exp. }
    rewrite (loglinear_missing n y k TP PR K), E1, E2. destruct (Req_EM_T s 0); [contradiction|reflexivity].
Qed.
Lemma mack_fill_missing y k a b : y k = None -> (2 <= k)%nat -> y (k - 2)%nat = Some a -> y (k - 1)%nat = Some b -> 0 < a -> 0 < b ->
  exists v, mack_fill y k = Some v /\ 0 < v /\ v ^ 2 = Rmin (b ^ 4 / a ^ 2) (Rmin (a ^ 2) (b ^ 2)).
Proof.
  intros K H2 A B Pa Pb. unfold mack_fill. rewrite K. destruct (k <? 2)%nat eqn:E; [apply Nat.ltb_lt in E; lia|]. rewrite A, B. cbn [option_map present nzr]. unfold no_zero.
  destruct (Req_EM_T a 0); [lra|]. destruct (Req_EM_T b 0); [lra|]. cbn [rpow option_map rdiv]. assert (Pa2 : 0 < a ^ 2) by (apply pow_lt; auto).
  destruct (Req_EM_T (a ^ 2) 0); [lra|]. cbn [rmin option_map rsqrt nzr]. set (m := Rmin (b ^ 4 / a ^ 2) (Rmin (a ^ 2) (b ^ 2))).
  assert (Pm : 0 < m). { unfold m. apply Rmin_glb_lt; [|apply Rmin_glb_lt; auto; apply pow_lt; auto]. apply Rdiv_lt_0_compat; auto. apply pow_lt; auto. }
  rewrite Rabs_right by lra. destruct (Rlt_dec m 0); [lra|]. cbn [nzr rn2n]. rewrite Rplus_0_l, Rminus_0_r, Rmult_1_r.
  assert (Ps : 0 < sqrt m) by (apply sqrt_lt_R0; auto). destruct (Req_EM_T (sqrt m) 0); [lra|]. exists (sqrt m). split; [reflexivity|]. split; [auto|]. apply pow2_sqrt. lra.
Qed.
(** Mack's rule keeps the smaller of the extrapolation and the two deviations before. *)
Lemma mack_fill_le y k a b v : y k = None -> (2 <= k)%nat -> y (k - 2)%nat = Some a -> y (k - 1)%nat = Some b -> 0 < a -> 0 < b -> mack_fill y k = Some v -> v <= a /\ v <= b /\ (b <= a -> v = b * (b / a)).
Proof.
  intros K H2 A B Pa Pb M. destruct (mack_fill_missing y k a b K H2 A B Pa Pb) as (u & E & Pu & Q). rewrite E in M. injection M as <-.
  assert (Qa : u ^ 2 <= a ^ 2). { rewrite Q. eapply Rle_trans; [apply Rmin_r|apply Rmin_l]. }
  assert (Qb : u ^ 2 <= b ^ 2). { rewrite Q. eapply Rle_trans; [apply Rmin_r|apply Rmin_r]. }
  split; [|split].
  - nra.
  - nra.
  - intros L. assert (D : b ^ 4 / a ^ 2 = (b * (b / a)) ^ 2) by (field; lra).
    assert (Pv : 0 < b * (b / a)) by (apply Rmult_lt_0_compat; auto; apply Rdiv_lt_0_compat; auto).
    assert (Lv : b * (b / a) <= b). { assert (b / a <= 1). { apply (Rmult_le_reg_r a); auto. unfold Rdiv. rewrite Rmult_assoc, Rinv_l by lra. lra. } nra. }
    rewrite D in Q. rewrite Rmin_left in Q; [nra|]. apply Rmin_glb; nra.
Qed.
Lemma mack_fill_first y k : y k = None -> (k < 2)%nat -> mack_fill y k = None.
Proof. intros K H. unfold mack_fill. rewrite K. apply Nat.ltb_lt in H. rewrite H. cbn [option_map present nzr rn2n]. destruct (Req_EM_T _ 0); [reflexivity|lra]. Qed.
Lemma mack_fill_gap y k : y k = None -> (2 <= k)%nat -> y (k - 1)%nat = None \/ y (k - 2)%nat = None -> mack_fill y k = None.
Proof.
  intros K H G. unfold mack_fill. rewrite K. destruct (k <? 2)%nat eqn:E; [apply Nat.ltb_lt in E; lia|].
  assert (Z : rmin (rdiv (rpow (option_map no_zero (y (k - 1)%nat)) 4) (rpow (option_map no_zero (y (k - 2)%nat)) 2)) (rmin (rpow (option_map no_zero (y (k - 2)%nat)) 2) (rpow (option_map no_zero (y (k - 1)%nat)) 2)) = None).
  { destruct G as [-> | ->]; cbn [option_map rpow rdiv rmin]; [reflexivity|]. destruct (y (k - 1)%nat); reflexivity. }
  rewrite Z. cbn [option_map rsqrt nzr present rn2n]. destruct (Req_EM_T _ 0); [reflexivity|lra].
Qed.

(** * Fitted tails *)
Lemma slice_mem a b n : exists ids, slice_positions (option_map Z.of_nat a) (option_map Z.of_nat b) None n = Ok ids /\
  forall d, (d < n)%nat -> existsb (Nat.eqb d) ids = (match a with Some x => x <=? d | None => true end && match b with Some x => d <? x | None => true end)%nat.
Proof.
  unfold slice_positions, slice_triple. cbn [Z.eqb Z.ltb Z.compare rbind].
  set (lo := match a with Some x => Nat.min x n | None => O end). set (hi := match b with Some x => Nat.min x n | None => n end).
  assert (Elo : slice_bound (option_map Z.of_nat a) 0 0 (Z.of_nat n) (Z.of_nat n) = Z.of_nat lo).
  { unfold lo. destruct a; cbn [option_map slice_bound]; [|reflexivity]. destruct (Z.ltb_spec (Z.of_nat n0) 0); lia. }
  assert (Ehi : slice_bound (option_map Z.of_nat b) (Z.of_nat n) 0 (Z.of_nat n) (Z.of_nat n) = Z.of_nat hi).
  { unfold hi. destruct b; cbn [option_map slice_bound]; [|reflexivity]. destruct (Z.ltb_spec (Z.of_nat n0) 0); lia. }
  change (0 <? 1)%Z with true. cbv iota. cbn [rbind]. rewrite Elo, Ehi.
  exists (seq lo (hi - lo)). split.
  - f_equal. rewrite <- (py_range_step1 lo (hi - lo)). f_equal. unfold py_range. change (0 <? 1)%Z with true. cbv iota zeta. f_equal. f_equal. rewrite !Z.div_1_r. lia.
  - intros d Hd. destruct (existsb (Nat.eqb d) (seq lo (hi - lo))) eqn:E.
    + apply existsb_exists in E. destruct E as (y & Iy & Ey). apply Nat.eqb_eq in Ey. subst y. apply in_seq in Iy.
      symmetry. apply andb_true_iff. unfold lo, hi in Iy. destruct a, b; split; auto; first [apply (proj2 (Nat.ltb_lt _ _))|apply (proj2 (Nat.leb_le _ _))]; lia.
    + symmetry. apply not_true_iff_false. intros F. apply andb_true_iff in F. destruct F as [F1 F2].
      assert (existsb (Nat.eqb d) (seq lo (hi - lo)) = true); [|congruence]. apply existsb_exists. exists d. split; [|apply Nat.eqb_refl]. apply in_seq. unfold lo, hi.
      destruct a, b; try apply (proj1 (Nat.leb_le _ _)) in F1; try apply (proj1 (Nat.ltb_lt _ _)) in F2; lia.
Qed.
Lemma period_position_age g j : period_position g (factor_age g j) = Z.of_nat j.
Proof.
  unfold period_position. assert (P : (0 < grain_step g)%Z) by (destruct g; reflexivity).
  replace (factor_age g j - grain_step g)%Z with (Z.of_nat j * grain_step g)%Z by (unfold factor_age; destruct g; cbn [grain_step grain_months]; lia).
  apply Z.quot_mul. lia.
Qed.
Lemma factor_age_le g j d : (factor_age g j <=? factor_age g d)%Z = (j <=? d)%nat.
Proof. unfold factor_age. destruct (Nat.leb_spec j d); [apply Z.leb_le|apply Z.leb_gt]; destruct g; cbn [grain_months]; lia. Qed.
Lemma factor_age_lt g j d : (factor_age g d <? factor_age g j)%Z = (d <? j)%nat.
Proof. unfold factor_age. destruct (Nat.ltb_spec d j); [apply Z.ltb_lt|apply Z.ltb_ge]; destruct g; cbn [grain_months]; lia. Qed.
Lemma whole_nat g a : whole g a -> exists j, a = option_map (factor_age g) j.
Proof. destruct a as [x|]; [intros (j & ->); exists (Some j); reflexivity|exists None; reflexivity]. Qed.
Lemma fit_positions_ok t f : period_ok t f -> exists use, fit_positions (dgrain t) f (ax3 (values t) - 1) = Ok use /\ forall d, (d < ax3 (values t) - 1)%nat -> use d = marked t f d.
Proof.
  destruct f as [a b|l]; intros H.
  - destruct H as (Ha & Hb & AG). set (g := dgrain t) in *. set (n := (ax3 (values t) - 1)%nat) in *. destruct (whole_nat g a Ha) as (ja & ->). destruct (whole_nat g b Hb) as (jb & ->).
    destruct (slice_mem ja jb n) as (ids & E & M). unfold fit_positions.
    assert (Ea : forall j, option_map (period_position g) (option_map (factor_age g) j) = option_map Z.of_nat j) by (intros [j|]; cbn; [rewrite period_position_age|]; reflexivity).
    rewrite !Ea, E. cbn [rbind]. eexists. split; [reflexivity|]. intros d Hd. cbv beta. rewrite (M d Hd). unfold marked. rewrite (AG d Hd).
    destruct ja, jb; cbn [option_map]; rewrite ?factor_age_le, ?factor_age_lt; reflexivity.
  - cbn in H. unfold fit_positions. rewrite H, Nat.eqb_refl. eexists. split; [reflexivity|]. reflexivity.
Qed.

Lemma set_aside_limits p q : set_aside p (Some q) = negb (in_limits p q).
Proof.
  unfold set_aside, in_limits, high_limit, low_limit, fit_floor.
  assert (L : (match cp_low p with Some q => if Qc_ltb q 1%Qc then 1%Qc else q | None => 1%Qc end) = (match cp_low p with Some q => if Qc_leb 1%Qc q then q else 1%Qc | None => 1%Qc end)).
  { destruct (cp_low p) as [z|]; auto. destruct (Qc_ltb_spec z 1%Qc), (Qc_leb_spec 1%Qc z); auto; exfalso; qlra. }
  rewrite L. set (lo := match cp_low p with Some q => _ | None => _ end).
  destruct (Qc_leb_spec q lo), (Qc_ltb_spec lo q); try (exfalso; qlra); [reflexivity|]. cbn [orb andb].
  destruct (cp_high p) as [h|]; [|reflexivity].
  destruct (Qc_leb_spec h lo), (Qc_ltb_spec lo h); try (exfalso; qlra); [reflexivity|].
  destruct (Qc_ltb_spec h q), (Qc_leb_spec q h); try (exfalso; qlra); reflexivity.
Qed.
Lemma in_limits_gt1 p q : in_limits p q = true -> (1 < q)%Qc.
Proof.
  unfold in_limits, fit_floor. intros H. apply andb_true_iff in H. destruct H as [H _]. destruct (cp_low p) as [z|]; [destruct (Qc_leb_spec 1%Qc z)|];
  match type of H with Qc_ltb ?a ?b = true => destruct (Qc_ltb_spec a b); [qlra|discriminate] end.
Qed.
Lemma takes_part_gt1 p t l i c d : curve_input p t l i c -> (d < ax3 (values t) - 1)%nat -> takes_part p t l i c d = true -> (1 < nz (cel l i c 0 d))%Qc.
Proof.
  intros F Hd H. unfold takes_part in H. apply andb_true_iff in H. destruct H as [H1 H2]. destruct (cp_raise p) eqn:R.
  - apply (fi_above _ _ _ _ _ F R d Hd H1).
  - apply (in_limits_gt1 p). exact H2.
Qed.
Definition curve_slope p t l i c := slope (ax3 (values t) - 1) (takes_part p t l i c) (curve_x (cp_curve p)) (fun d => ln (excess l i c d)).
Definition curve_icept p t l i c := icept (ax3 (values t) - 1) (takes_part p t l i c) (curve_x (cp_curve p)) (fun d => ln (excess l i c d)).
Lemma curve_line_ok p t l i c use f : curve_input p t l i c -> (forall d, (d < ax3 (values t) - 1)%nat -> use d = marked t (cp_fit p) d) ->
  (forall d, (d < ax3 (values t) - 1)%nat -> f d = cel l i c 0 d) ->
  curve_line p use (ax3 (values t) - 1) f = if Req_EM_T (curve_slope p t l i c) 0 then (None, None) else (Some (curve_slope p t l i c), Some (curve_icept p t l i c)).
Proof.
  intros F U Hf. unfold curve_line. set (n := (ax3 (values t) - 1)%nat) in *.
  assert (SEL : forall d, (d < n)%nat -> use d && negb (negb (cp_raise p) && set_aside p (f d)) = takes_part p t l i c d).
  { intros d Hd. rewrite (U d Hd), (Hf d Hd). unfold takes_part. destruct (marked t (cp_fit p) d) eqn:M; [|reflexivity]. cbn [andb].
    destruct (cel l i c 0 d) as [q|] eqn:E; [|exfalso; exact (fi_known _ _ _ _ _ F d Hd M E)]. rewrite set_aside_limits. change (nz (Some q)) with q. destruct (cp_raise p), (in_limits p q); reflexivity. }
  match goal with |- (if existsb ?g (seq 0 n) then _ else _) = _ => assert (NE : existsb g (seq 0 n) = false) end.
  { apply not_true_iff_false. intros E. apply existsb_exists in E. destruct E as (d & Id & Ed). apply in_seq in Id. assert (Hd : (d < n)%nat) by lia.
    apply andb_true_iff in Ed. destruct Ed as [E1 E2]. rewrite (SEL d Hd) in E1. pose proof (takes_part_gt1 p t l i c d F Hd E1) as G. rewrite (Hf d Hd) in E2.
    destruct (cel l i c 0 d) as [q|]; [|discriminate]. change (nz (Some q)) with q in G. destruct (Qc_eqb_spec q 1%Qc); [subst; qlra|discriminate]. }
  rewrite NE. rewrite (ols_ok n (takes_part p t l i c) _ _ _ (fun d => ln (excess l i c d))).
  - assert (CX : (fun d : nat => match cp_curve p with Exponential => INR (S d) | InversePower => ln (INR (S d)) end) = curve_x (cp_curve p)).
    { apply functional_extensionality. intros d. unfold curve_x, period_no. destruct (cp_curve p); reflexivity. }
    rewrite CX. reflexivity.
  - destruct (fi_two _ _ _ _ _ F) as (j & k & H). exists j, k. unfold curve_x, period_no in H. destruct (cp_curve p); exact H.
  - intros d Hd. rewrite (SEL d Hd). reflexivity.
  - intros d Hd S. pose proof (takes_part_gt1 p t l i c d F Hd S) as G. assert (S' := S). rewrite <- (SEL d Hd) in S'. apply andb_true_iff in S'. destruct S' as [_ S'].
    destruct (negb (cp_raise p) && set_aside p (f d)); [discriminate|]. rewrite (Hf d Hd). unfold excess.
    unfold takes_part in S. apply andb_true_iff in S. destruct S as [M _]. pose proof (fi_known _ _ _ _ _ F d Hd M) as K. destruct (cel l i c 0 d) as [q|]; [|congruence].
    change (nz (Some q)) with q in *. cbn [r_of option_map rsub rlog]. apply rv_lt in G. rewrite rv_1 in G. destruct (Rlt_dec 0 (rv q - 1)); [reflexivity|lra].
Qed.
Lemma curve_at_some c s b d : curve_at c (Some s, Some b) d = Some (curve_value c s b d).
Proof. destruct c; reflexivity. Qed.
Lemma curve_at_none c d : curve_at c (None, None) d = None.
Proof. destruct c; reflexivity. Qed.
Lemma rcprod_some n f : rcprod n (fun j => Some (f j)) = Some (rprodn n f).
Proof. induction n; cbn; [reflexivity|]. rewrite IHn. reflexivity. Qed.
Lemma rcprod_ext n f g : (forall j, (j < n)%nat -> f j = g j) -> rcprod n f = rcprod n g.
Proof. induction n; intros H; cbn; [reflexivity|]. rewrite IHn by auto. rewrite H by lia. reflexivity. Qed.
Lemma rcprod_none n f : (0 < n)%nat -> f (n - 1)%nat = None -> rcprod n f = None.
Proof. destruct n; [lia|]. intros _. cbn. rewrite Nat.sub_0_r. intros ->. destruct (rcprod n f); reflexivity. Qed.
Definition attaches (a : option Z) (t : tri) : result nat :=
  match a with None => Ok (List.length (dlist (ddims t)) - 1)%nat
             | Some g => if (g =? 0)%Z then Ok (List.length (dlist (ddims t)) - 1)%nat else zfirst (fun x => g <=? x)%Z (dlist (ddims t)) end.
Lemma attaches_ok a t k : starts_at a t k -> ax3 (values t) = List.length (dlist (ddims t)) -> attaches a t = Ok k.
Proof.
  unfold starts_at, attaches. intros H L. destruct a as [a|].
  - destruct H as (H0 & H1 & H2 & H3). destruct (Z.eqb_spec a 0); [congruence|]. apply zfirst_ok; [lia|apply Z.leb_le; auto|]. intros j Hj. apply Z.leb_gt. auto.
  - subst. rewrite L. reflexivity.
Qed.
Lemma tail_curve_eq p t l k : factors_for t l -> period_ok t (cp_fit p) -> starts_at (cp_attach p) t k -> none_below_one p t l ->
  let m := (ax3 (values l) + periods_per_year (dgrain t) * cp_years p)%nat in
  let total := (cp_extrap p + (ax3 (values t) - 1))%nat in
  exists r use, tail_curve p t l = Ok r /\ (forall d, (d < ax3 (values t) - 1)%nat -> use d = marked t (cp_fit p) d) /\
    kdims (rt_frame r) = kdims l /\ key_labels (rt_frame r) = key_labels l /\ vdims (rt_frame r) = vdims l /\ odims (rt_frame r) = odims l /\ vdate (rt_frame r) = vdate l /\ same_flags l (rt_frame r) /\
    ddims (rt_frame r) = Ages (dlist (ddims l) ++ map (fun j => last (dlist (ddims l)) 0 + grain_months (dgrain t) * (Z.of_nat j + 1))%Z (seq 0 (S (periods_per_year (dgrain t) * cp_years p)))) /\
    ax0 (values (rt_frame r)) = ax0 (values l) /\ ax1 (values (rt_frame r)) = ax1 (values l) /\ ax2 (values (rt_frame r)) = 1%nat /\ ax3 (values (rt_frame r)) = S (Nat.min m total) /\
    forall i c o d, rt_cell r i c o d = if (d <? k)%nat then r_of (if (d <? ax3 (values l))%nat then cel l i c o d else Some 1%Qc)
      else tail_prediction m total (curve_at (cp_curve p) (curve_line p use (ax3 (values t) - 1) (fun d => if (d <? ax3 (values l))%nat then cel l i c o d else Some 1%Qc))) d.
Proof.
  intros FF PO SA NB m total. destruct FF as [F2 (xs & Ex & Lx) (F3 & F1 & F4)]. destruct (fit_positions_ok _ _ PO) as (use & EU & HU).
  unfold tail_curve. rewrite EU. cbn [rbind]. unfold tail_base. rewrite Ex. cbn [rbind]. fold (attaches (cp_attach p) t). rewrite (attaches_ok _ _ _ SA F4). cbn [rbind].
  unfold set_ddims, set_dims, set_values. cbv zeta. cbn [values kdims key_labels vdims odims ddims vdate is_cumulative is_pattern ograin dgrain av ax0 ax1 ax2 ax3]. rewrite per_year_periods.
  match goal with |- context [if ?b then Err OtherError else _] => assert (B : b = false) end.
  { apply not_true_iff_false. intros B. apply andb_true_iff in B. destruct B as [R B]. specialize (NB R).
    apply existsb_exists in B. destruct B as (i & Ii & B). apply existsb_exists in B. destruct B as (c & Ic & B). apply existsb_exists in B. destruct B as (o & Io & B). apply existsb_exists in B. destruct B as (d & Id & B).
    apply in_seq in Ii, Ic, Io, Id. cbn [ax0 ax1 ax2 ax3] in Ii, Ic, Io. rewrite F2 in Io. assert (o = 0%nat) as -> by lia. destruct (Nat.ltb_spec d (ax3 (values l))); [|lia].
    specialize (NB i c d). unfold cel in NB. destruct (av (values l) i c 0%nat d) as [q|]; [|discriminate]. cbn in B. destruct (Qc_ltb_spec q 1%Qc) as [Q|]; [|discriminate].
    specialize (NB q ltac:(lia) ltac:(lia) ltac:(lia) eq_refl). qlra. }
  rewrite B. eexists. exists use. split; [reflexivity|]. split; [exact HU|]. cbn [rt_frame rt_cell kdims key_labels vdims odims vdate ddims values set_values set_ddims ax0 ax1 ax2 ax3 dlist].
  replace (ax3 (values l) + S (periods_per_year (dgrain t) * cp_years p) - 1)%nat with m by (unfold m; lia). fold total.
  split; [reflexivity|]. split; [reflexivity|]. split; [reflexivity|]. split; [reflexivity|]. split; [reflexivity|]. split; [repeat split; reflexivity|].
  split. { cbn [dlist]. f_equal. f_equal. apply map_ext. intros j. rewrite grain_step_months. ring. }
  split; [reflexivity|]. split; [reflexivity|]. split; [exact F2|]. split; [reflexivity|]. intros i c o d. reflexivity.
Qed.
Lemma curve_value_pos c s b d : 0 < curve_value c s b d.
Proof. destruct c; cbn [curve_value]; [apply exp_pos|]. apply Rmult_lt_0_compat; [apply exp_pos|]. unfold Rpower. apply exp_pos. Qed.
Lemma period_no_pos d : 0 < period_no d.
Proof. unfold period_no. apply lt_0_INR. lia. Qed.
Lemma curve_value_decreasing c s b d e : s < 0 -> (d < e)%nat -> curve_value c s b e < curve_value c s b d.
Proof.
  intros S L. assert (P : period_no d < period_no e) by (unfold period_no; apply lt_INR; lia). pose proof (period_no_pos d).
  destruct c; cbn [curve_value].
  - apply exp_increasing. nra.
  - apply Rmult_lt_compat_l; [apply exp_pos|]. unfold Rpower. apply exp_increasing. assert (ln (period_no d) < ln (period_no e)) by (apply ln_increasing; auto). nra.
Qed.
Lemma curve_value_line c s b d : ln (curve_value c s b d) = s * curve_x c d + b.
Proof.
  destruct c; cbn [curve_value curve_x]; [apply ln_exp|]. unfold Rpower. rewrite <- exp_plus, ln_exp. ring.
Qed.

Section Fit.
Variables (p : curve_params) (t l : tri) (k : nat).
Hypothesis FF : factors_for t l.
Hypothesis PO : period_ok t (cp_fit p).
Hypothesis SA : starts_at (cp_attach p) t k.
Hypothesis NB : none_below_one p t l.
Let m := (ax3 (values l) + periods_per_year (dgrain t) * cp_years p)%nat.
Let total := (cp_extrap p + (ax3 (values t) - 1))%nat.
Lemma k_le_m : (k <= ax3 (values t) - 1)%nat /\ (k <= m)%nat.
Proof. destruct FF as [F2 F (F3 & F1 & F4)]. unfold starts_at in SA. unfold m. destruct (cp_attach p); lia. Qed.
(** Cells of the result where the regression succeeds. *)
Lemma tail_curve_cells r : tail_curve p t l = Ok r -> forall i c, curve_input p t l i c ->
  forall d, (k <= d <= m)%nat -> (m <= total)%nat -> rt_cell r i c 0 d =
    if Req_EM_T (curve_slope p t l i c) 0 then (if (d <? m)%nat then None else if (m <? total)%nat then None else Some 1)
    else Some (if (d <? m)%nat then 1 + curve_value (cp_curve p) (curve_slope p t l i c) (curve_icept p t l i c) d
               else rprod_from m total (fun j => 1 + curve_value (cp_curve p) (curve_slope p t l i c) (curve_icept p t l i c) j)).
Proof.
  intros E i c CI d Hd MT. destruct (tail_curve_eq p t l k FF PO SA NB) as (r' & use & E' & HU & _ & _ & _ & _ & _ & _ & _ & _ & _ & _ & _ & C).
  rewrite E in E'. injection E' as <-. rewrite C. destruct (Nat.ltb_spec d k); [lia|]. fold m total.
  rewrite (curve_line_ok p t l i c use _ CI HU).
  2:{ intros j Hj. destruct FF as [F2 F (F3 & F1 & F4)]. destruct (Nat.ltb_spec j (ax3 (values l))); [reflexivity|lia]. }
  unfold tail_prediction. rewrite Nat.min_l by lia. destruct (Req_EM_T (curve_slope p t l i c) 0).
  - destruct (Nat.ltb_spec d m); [rewrite curve_at_none; reflexivity|]. destruct (Nat.ltb_spec m total).
    + apply rcprod_none; [lia|]. rewrite curve_at_none. reflexivity.
    + replace (total - m)%nat with 0%nat by lia. reflexivity.
  - destruct (Nat.ltb_spec d m); [rewrite curve_at_some; reflexivity|].
    rewrite (rcprod_ext _ _ (fun j => Some (1 + curve_value (cp_curve p) (curve_slope p t l i c) (curve_icept p t l i c) (m + j)%nat))).
    + rewrite rcprod_some. reflexivity.
    + intros j _. rewrite curve_at_some. reflexivity.
Qed.
Lemma tail_fits : (m <= total)%nat -> exists r, tail_curve p t l = Ok r /\
  kdims (rt_frame r) = kdims l /\ key_labels (rt_frame r) = key_labels l /\ vdims (rt_frame r) = vdims l /\ odims (rt_frame r) = odims l /\ vdate (rt_frame r) = vdate l /\ same_flags l (rt_frame r) /\
  ddims (rt_frame r) = Ages (dlist (ddims l) ++ map (fun j => last (dlist (ddims l)) 0 + grain_months (dgrain t) * (Z.of_nat j + 1))%Z (seq 0 (S (periods_per_year (dgrain t) * cp_years p)))) /\
  ax0 (values (rt_frame r)) = ax0 (values l) /\ ax1 (values (rt_frame r)) = ax1 (values l) /\ ax2 (values (rt_frame r)) = 1%nat /\ ax3 (values (rt_frame r)) = S m /\
  (forall i c d, (d < k)%nat -> rt_cell r i c 0 d = r_of (cel l i c 0 d)) /\
  (forall i c, curve_input p t l i c -> exists s b,
     best_line (ax3 (values t) - 1) (takes_part p t l i c) (curve_x (cp_curve p)) (fun d => ln (excess l i c d)) s b /\
     (s <> 0 -> (forall d, (k <= d < m)%nat -> rt_cell r i c 0 d = Some (1 + curve_value (cp_curve p) s b d)) /\
                rt_cell r i c 0 m = Some (rprod_from m total (fun d => 1 + curve_value (cp_curve p) s b d))) /\
     (s = 0 -> forall d, (k <= d < m)%nat -> rt_cell r i c 0 d = None)).
Proof.
  intros MT. destruct (tail_curve_eq p t l k FF PO SA NB) as (r & use & E & HU & H1 & H2 & H3 & H4 & H5 & H6 & H7 & H8 & H9 & H10 & H11 & C).
  exists r. split; [exact E|]. do 10 (split; [assumption|]). split. { rewrite H11. fold m total. rewrite Nat.min_l by lia. reflexivity. }
  split.
  { intros i c d Hd. rewrite C. destruct (Nat.ltb_spec d k); [|lia]. destruct k_le_m. destruct FF as [F2 F (F3 & F1 & F4)]. destruct (Nat.ltb_spec d (ax3 (values l))); [reflexivity|lia]. }
  intros i c CI. exists (curve_slope p t l i c), (curve_icept p t l i c). split; [apply line_best, (fi_two _ _ _ _ _ CI)|].
  destruct k_le_m as [K1 K2]. split; intros S.
  - split; [intros d Hd; rewrite (tail_curve_cells r E i c CI) by lia|rewrite (tail_curve_cells r E i c CI) by lia]; destruct (Req_EM_T _ 0); try contradiction.
    + destruct (Nat.ltb_spec d m); [reflexivity|lia].
    + rewrite Nat.ltb_irrefl. reflexivity.
  - intros d Hd. rewrite (tail_curve_cells r E i c CI) by lia. destruct (Req_EM_T _ 0); [|contradiction]. destruct (Nat.ltb_spec d m); [reflexivity|lia].
Qed.
End Fit.
Section Tail.
Variables (p : curve_params) (t l : tri) (k : nat).
Hypothesis FF : factors_for t l.
Hypothesis PO : period_ok t (cp_fit p).
Hypothesis SA : starts_at (cp_attach p) t k.
Hypothesis NB : none_below_one p t l.
Let m := (ax3 (values l) + periods_per_year (dgrain t) * cp_years p)%nat.
Let total := (cp_extrap p + (ax3 (values t) - 1))%nat.
Lemma whole_tail_ok r i c : (m <= total)%nat -> tail_curve p t l = Ok r -> curve_input p t l i c -> curve_slope p t l i c <> 0 ->
  whole_tail t r i c = rprod_from (ax3 (values t) - 1) total (fun d => 1 + curve_value (cp_curve p) (curve_slope p t l i c) (curve_icept p t l i c) d).
Proof.
  intros MT E CI S. destruct (k_le_m p t l k FF SA) as [K1 K2]. fold m in K2.
  destruct (tail_curve_eq p t l k FF PO SA NB) as (r' & use & E' & _ & _ & _ & _ & _ & _ & _ & _ & _ & _ & _ & A3 & _). rewrite E in E'. injection E' as <-.
  unfold whole_tail. rewrite A3. fold m total. rewrite Nat.min_l by lia.
  assert (NM : (ax3 (values t) - 1 <= m)%nat). { destruct FF as [F2 F (F3 & F1 & F4)]. unfold m. lia. }
  rewrite rprod_from_S by lia. rewrite (rprod_from_split _ m total) by lia.
  assert (CE := tail_curve_cells p t l k FF PO SA NB r E i c CI). fold m total in CE. f_equal.
  - unfold rprod_from. apply rprodn_ext. intros j Hj. rewrite CE by lia. destruct (Req_EM_T _ 0); [contradiction|]. destruct (Nat.ltb_spec (ax3 (values t) - 1 + j) m); [reflexivity|lia].
  - rewrite CE by lia. destruct (Req_EM_T _ 0); [contradiction|]. rewrite Nat.ltb_irrefl. reflexivity.
Qed.
End Tail.
Lemma tail_product p t l k r i c : factors_for t l -> period_ok t (cp_fit p) -> starts_at (cp_attach p) t k -> none_below_one p t l ->
  (ax3 (values l) + periods_per_year (dgrain t) * cp_years p <= cp_extrap p + (ax3 (values t) - 1))%nat -> tail_curve p t l = Ok r -> curve_input p t l i c ->
  exists s b, best_line (ax3 (values t) - 1) (takes_part p t l i c) (curve_x (cp_curve p)) (fun d => ln (excess l i c d)) s b /\
   (s <> 0 -> whole_tail t r i c = rprod_from (ax3 (values t) - 1) (ax3 (values t) - 1 + cp_extrap p) (fun d => 1 + curve_value (cp_curve p) s b d)).
Proof.
  intros FF PO SA NB MT E CI. exists (curve_slope p t l i c), (curve_icept p t l i c). split; [apply line_best, (fi_two _ _ _ _ _ CI)|]. intros S.
  rewrite (whole_tail_ok p t l k FF PO SA NB r i c MT E CI S). rewrite (Nat.add_comm (cp_extrap p)). reflexivity.
Qed.
Lemma projection_free p t l k y r r' i c : factors_for t l -> period_ok t (cp_fit p) -> starts_at (cp_attach p) t k -> none_below_one p t l ->
  (ax3 (values l) + periods_per_year (dgrain t) * cp_years p <= cp_extrap p + (ax3 (values t) - 1))%nat -> (ax3 (values l) + periods_per_year (dgrain t) * y <= cp_extrap p + (ax3 (values t) - 1))%nat ->
  tail_curve p t l = Ok r -> tail_curve (with_years p y) t l = Ok r' -> curve_input p t l i c ->
  (exists s b, best_line (ax3 (values t) - 1) (takes_part p t l i c) (curve_x (cp_curve p)) (fun d => ln (excess l i c d)) s b /\ s <> 0) -> whole_tail t r i c = whole_tail t r' i c.
Proof.
  intros FF PO SA NB M1 M2 E E' CI (s & b & BL & S). assert (S' : curve_slope p t l i c <> 0).
  { destruct (best_line_unique _ _ _ _ _ _ _ _ (line_best _ _ _ _ (fi_two _ _ _ _ _ CI)) BL) as [EQ _]. unfold curve_slope. rewrite EQ. exact S. }
  rewrite (whole_tail_ok p t l k FF PO SA NB r i c M1 E CI S').
  assert (CI' : curve_input (with_years p y) t l i c) by (destruct CI as [A1 A2 A3]; constructor; assumption).
  exact (eq_sym (whole_tail_ok (with_years p y) t l k FF PO SA NB r' i c M2 E' CI' S')).
Qed.
(** Factors on the curve are reproduced. *)
Lemma curve_reproduced p t l k s b r i c : factors_for t l -> period_ok t (cp_fit p) -> starts_at (cp_attach p) t k -> none_below_one p t l ->
  (ax3 (values l) + periods_per_year (dgrain t) * cp_years p <= cp_extrap p + (ax3 (values t) - 1))%nat -> tail_curve p t l = Ok r -> curve_input p t l i c -> s <> 0 ->
  (forall d, (d < ax3 (values t) - 1)%nat -> takes_part p t l i c d = true -> excess l i c d = curve_value (cp_curve p) s b d) ->
  (forall d, (k <= d < ax3 (values l) + periods_per_year (dgrain t) * cp_years p)%nat -> rt_cell r i c 0%nat d = Some (1 + curve_value (cp_curve p) s b d)) /\
  whole_tail t r i c = rprod_from (ax3 (values t) - 1) (ax3 (values t) - 1 + cp_extrap p) (fun d => 1 + curve_value (cp_curve p) s b d).
Proof.
  intros FF PO SA NB MT E CI S ON.
  destruct (exact_line (ax3 (values t) - 1) (takes_part p t l i c) (curve_x (cp_curve p)) (fun d => ln (excess l i c d)) s b (fi_two _ _ _ _ _ CI)) as [E1 E2].
  { intros d Hd U. rewrite (ON d Hd U). apply curve_value_line. }
  assert (ES : curve_slope p t l i c = s) by exact E1. assert (EI : curve_icept p t l i c = b) by exact E2. split.
  - intros d Hd. destruct (k_le_m p t l k FF SA). rewrite (tail_curve_cells p t l k FF PO SA NB r E i c CI) by lia. rewrite ES, EI. destruct (Req_EM_T s 0); [contradiction|].
    match goal with |- context [(d <? ?x)%nat] => destruct (Nat.ltb_spec d x) end; [reflexivity|lia].
  - rewrite (whole_tail_ok p t l k FF PO SA NB r i c MT E CI) by (rewrite ES; exact S). rewrite ES, EI. rewrite (Nat.add_comm (cp_extrap p)). reflexivity.
Qed.
(** errors = 'raise' *)
Lemma tail_refuses p t l i c d q : factors_for t l -> period_ok t (cp_fit p) -> cp_raise p = true ->
  (i < ax0 (values l))%nat -> (c < ax1 (values l))%nat -> (d < ax3 (values t) - 1)%nat -> cel l i c 0 d = Some q -> (q < 1)%Qc -> tail_curve p t l = Err OtherError.
Proof.
  intros FF PO R Hi Hc Hd Q L. destruct FF as [F2 (xs & Ex & Lx) (F3 & F1 & F4)]. destruct (fit_positions_ok _ _ PO) as (use & EU & HU).
  unfold tail_curve. rewrite EU. cbn [rbind]. unfold tail_base. rewrite Ex. cbn [rbind].
  unfold set_ddims, set_dims, set_values. cbv zeta. cbn [values ax0 ax1 ax2 ax3 av]. rewrite R.
  match goal with |- (if ?b then _ else _) = _ => assert (B : b = true) end.
  { cbn [andb]. apply existsb_exists. exists i. split; [apply in_seq; lia|]. apply existsb_exists. exists c. split; [apply in_seq; lia|]. apply existsb_exists. exists 0%nat. split; [apply in_seq; lia|].
    apply existsb_exists. exists d. split; [apply in_seq; lia|]. destruct (Nat.ltb_spec d (ax3 (values l))); [|lia]. unfold cel in Q. rewrite Q. cbn. destruct (Qc_ltb_spec q 1%Qc); [reflexivity|contradiction]. }
  rewrite B. reflexivity.
Qed.

(** * Statistics of the tail *)
Lemma always_two n : (2 <= n)%nat -> two_points n always period_no.
Proof. intros H. exists 0%nat, 1%nat. repeat split; try lia. intros E. apply period_no_inj in E. lia. Qed.
Lemma ols_always n y z : (2 <= n)%nat -> (forall k, (k < n)%nat -> y k = Some (z k)) ->
  ols n (fun _ => 1) y = if Req_EM_T (slope n always period_no z) 0 then (None, None) else (Some (slope n always period_no z), Some (icept n always period_no z)).
Proof. intros H Y. rewrite ols_is. apply (ols_ok n always); auto. apply always_two, H. Qed.
Lemma tail_of_known l k i c : (i < ax0 (values l))%nat -> (c < ax1 (values l))%nat -> tail_known l k -> tail_of l k i c = Some (tail_product_of l k i c).
Proof.
  intros Hi Hc TK. unfold tail_of, tail_product_of. assert (G : forall f, (forall j, (j < k)%nat -> f j <> None) -> cprod k f = Some (prodn k (fun j => nz (f j)))).
  { clear. induction k as [|k IH]; intros f H; [reflexivity|]. cbn. rewrite IH by auto. specialize (H k ltac:(lia)). destruct (f k); [reflexivity|congruence]. }
  apply G. intros j Hj. apply TK; auto.
Qed.
Lemma some_tail_ok l k i c : (i < ax0 (values l))%nat -> (c < ax1 (values l))%nat -> tail_known l k -> (1 < tail_product_of l k i c)%Qc -> some_tail l k = true.
Proof.
  intros Hi Hc TK G. unfold some_tail. apply andb_true_iff. split.
  - apply forallb_forall. intros x Ix. apply in_concat in Ix. destruct Ix as (xs & Ixs & Ix). apply in_map_iff in Ixs. destruct Ixs as (i' & <- & Ii). apply in_map_iff in Ix. destruct Ix as (c' & <- & Ic).
    apply in_seq in Ii, Ic. rewrite tail_of_known by (auto; lia). reflexivity.
  - apply existsb_exists. exists (tail_of l k i c). split.
    + apply in_concat. eexists. split; [apply in_map_iff; exists i; split; [reflexivity|apply in_seq; lia]|]. apply in_map_iff. exists c. split; [reflexivity|apply in_seq; lia].
    + rewrite tail_of_known by auto. destruct (Qc_ltb_spec 1%Qc (tail_product_of l k i c)); [reflexivity|contradiction].
Qed.
Definition time_slope l0 i c := slope (ax3 (values l0)) always period_no (fun d => ln (excess l0 i c d)).
Definition time_icept l0 i c := icept (ax3 (values l0)) always period_no (fun d => ln (excess l0 i c d)).
Lemma tail_time_reg l0 i c : above_one l0 i c ->
  ols (ax3 (values l0)) (fun _ => 1) (fun d => match r_of (cel l0 i c 0 d) with Some v => if Rle_dec v 1 then None else Some (ln (v - 1)) | None => None end) =
  if Req_EM_T (time_slope l0 i c) 0 then (None, None) else (Some (time_slope l0 i c), Some (time_icept l0 i c)).
Proof.
  intros [T A]. apply ols_always; [exact T|]. intros d Hd. destruct (A d Hd) as (q & E & Q). unfold excess. rewrite E. cbn [r_of option_map nz]. apply rv_lt in Q. rewrite rv_1 in Q. destruct (Rle_dec (rv q) 1); [lra|reflexivity].
Qed.
Lemma tail_time_ok l0 l k i c : above_one l0 i c -> (i < ax0 (values l))%nat -> (c < ax1 (values l))%nat -> tail_known l k -> (1 < tail_product_of l k i c)%Qc -> time_slope l0 i c <> 0 ->
  tail_time l0 l k i c = Some ((ln (rv (tail_product_of l k i c) - 1) - time_icept l0 i c) / time_slope l0 i c).
Proof.
  intros AO Hi Hc TK G S. unfold tail_time. rewrite (tail_time_reg l0 i c AO). destruct (Req_EM_T (time_slope l0 i c) 0); [contradiction|].
  rewrite (some_tail_ok l k i c) by auto. rewrite tail_of_known by auto. apply rv_lt in G. rewrite rv_1 in G. cbn [r_of option_map rsub rlog fst snd].
  destruct (Rlt_dec 0 (rv (tail_product_of l k i c) - 1)); [|lra]. cbn [rsub rdiv]. destruct (Req_EM_T _ 0); [contradiction|reflexivity].
Qed.
Definition log_dev (s : rrow) (i c d : nat) : R := ln (nzr (s i c d)).
Lemma tail_stat_line n (zm : bool) s0 i c : deviations n s0 i c ->
  ols n (fun _ => 1) (fun j => rlog (if zm then rn2n (s0 i c j) else s0 i c j)) =
  if Req_EM_T (slope n always period_no (log_dev s0 i c)) 0 then (None, None) else (Some (slope n always period_no (log_dev s0 i c)), Some (icept n always period_no (log_dev s0 i c))).
Proof.
  intros [T A]. apply ols_always; [exact T|]. intros d Hd. destruct (A d Hd) as (v & E & P). unfold log_dev. rewrite E. cbn [nzr].
  assert (Z : (if zm then rn2n (Some v) else Some v) = Some v). { destruct zm; auto. cbn [rn2n]. destruct (Req_EM_T v 0); [lra|reflexivity]. }
  rewrite Z. cbn [rlog]. destruct (Rlt_dec 0 v); [reflexivity|contradiction].
Qed.
Lemma no_tail_sum l k : tail_known l k -> no_tail l k = Qc_eqb (sumn (ax0 (values l)) (fun i => sumn (ax1 (values l)) (fun c => tail_product_of l k i c))) (qc (Z.of_nat (ax0 (values l) * ax1 (values l)))).
Proof.
  intros TK. unfold no_tail.
  assert (IN : forall i, (i < ax0 (values l))%nat -> forall n z, (n <= ax1 (values l))%nat -> fold_right (fun c acc => cadd (tail_of l k i c) acc) (Some z) (seq 0 n) = Some (sumn n (fun c => tail_product_of l k i c) + z)%Qc).
  { intros i Hi n. induction n as [|n IH]; intros z Hn; [cbn; f_equal; ring|]. rewrite seq_S, fold_right_app. cbn [fold_right]. rewrite Nat.add_0_l, tail_of_known by (auto; lia). cbn [cadd]. rewrite IH by lia.
    change (sumn (S n) (fun c => tail_product_of l k i c)) with (sumn n (fun c => tail_product_of l k i c) + tail_product_of l k i n)%Qc. f_equal. ring. }
  assert (OUT : forall n z, (n <= ax0 (values l))%nat -> fold_right (fun i acc => fold_right (fun c acc => cadd (tail_of l k i c) acc) acc (seq 0 (ax1 (values l)))) (Some z) (seq 0 n) = Some (sumn n (fun i => sumn (ax1 (values l)) (fun c => tail_product_of l k i c)) + z)%Qc).
  { intros n. induction n as [|n IH]; intros z Hn; [cbn; f_equal; ring|]. rewrite seq_S, fold_right_app. cbn [fold_right]. rewrite Nat.add_0_l, IN by lia. rewrite IH by lia.
    change (sumn (S n) (fun i => sumn (ax1 (values l)) (fun c => tail_product_of l k i c))) with (sumn n (fun i => sumn (ax1 (values l)) (fun c => tail_product_of l k i c)) + sumn (ax1 (values l)) (fun c => tail_product_of l k n c))%Qc. f_equal. ring. }
  rewrite OUT by lia. f_equal. ring.
Qed.
Lemma count_ones n m : sumn n (fun _ => sumn m (fun _ => 1%Qc)) = qc (Z.of_nat (n * m)).
Proof.
  assert (A : forall a b, qc (Z.of_nat (a + b)) = (qc (Z.of_nat a) + qc (Z.of_nat b))%Qc).
  { intros a b. rewrite Nat2Z.inj_add. apply Qc_is_canon. unfold qc. cbn [this Qcplus Q2Qc]. rewrite !Qred_correct. unfold Qeq, Qplus, inject_Z. cbn. lia. }
  assert (B : forall b, sumn b (fun _ => 1%Qc) = qc (Z.of_nat b)).
  { induction b; [reflexivity|]. change (sumn (S b) (fun _ => 1%Qc)) with (sumn b (fun _ => 1%Qc) + 1)%Qc. rewrite IHb. replace (S b) with (b + 1)%nat by lia. rewrite A. reflexivity. }
  rewrite (sumn_ext n _ (fun _ => qc (Z.of_nat m))) by (intros; apply B). induction n; [reflexivity|].
  change (sumn (S n) (fun _ => qc (Z.of_nat m))) with (sumn n (fun _ => qc (Z.of_nat m)) + qc (Z.of_nat m))%Qc. rewrite IHn, <- A. f_equal. f_equal. lia.
Qed.
Lemma no_tail_false l k i c : (i < ax0 (values l))%nat -> (c < ax1 (values l))%nat -> tail_known l k -> none_under_one l k -> (1 < tail_product_of l k i c)%Qc -> no_tail l k = false.
Proof.
  intros Hi Hc TK NU G. rewrite no_tail_sum by auto. rewrite <- count_ones.
  match goal with |- Qc_eqb ?a ?b = false => destruct (Qc_eqb_spec a b) as [E|]; [exfalso|reflexivity] end.
  assert (P : (0 < sumn (ax0 (values l)) (fun i => sumn (ax1 (values l)) (fun c => tail_product_of l k i c - 1)))%Qc).
  { apply (sumn_pos _ _ i); auto.
    - apply (sumn_pos _ _ c); auto; [qlra|]. intros c' Hc'. specialize (NU i c' Hi Hc'). qlra.
    - intros i' Hi'. apply sumn_nonneg. intros c' Hc'. specialize (NU i' c' Hi' Hc'). qlra. }
  rewrite (sumn_ext _ _ (fun i => sumn (ax1 (values l)) (fun c => tail_product_of l k i c) - sumn (ax1 (values l)) (fun _ => 1))%Qc) in P by (intros; apply sumn_minus).
  rewrite sumn_minus in P. rewrite E in P. qlra.
Qed.
Lemma no_tail_true l k : tail_known l k -> all_one l k -> no_tail l k = true.
Proof.
  intros TK AO. rewrite no_tail_sum by auto. rewrite <- count_ones. match goal with |- Qc_eqb ?a ?b = true => destruct (Qc_eqb_spec a b) as [E|N]; [reflexivity|exfalso; apply N] end.
  apply sumn_ext. intros i Hi. apply sumn_ext. intros c Hc. apply AO; auto.
Qed.
Lemma tail_deviation_eq sg t l0 l years s i c : tail_deviation sg t l0 l years s i c (ax3 (values t) - 1)%nat =
  let v := option_map exp (line (ols (ax3 (values t) - 1) (fun _ => 1) (fun j => rlog (if negb sg then rn2n (s i c j) else s i c j))) (tail_time l0 l (periods_per_year (dgrain t) * years + 1) i c)) in
  if no_tail l (periods_per_year (dgrain t) * years + 1) then rmul v (Some 0) else v.
Proof. unfold tail_deviation. destruct sg; unfold tail_sigma, tail_std_err, tail_stat; rewrite Nat.ltb_irrefl, per_year_periods; reflexivity. Qed.
Lemma tail_deviation_kept sg t l0 l years s i c d : (d < ax3 (values t) - 1)%nat -> tail_deviation sg t l0 l years s i c d = s i c d.
Proof. intros H. unfold tail_deviation. destruct sg; unfold tail_sigma, tail_std_err, tail_stat, tail_row; apply Nat.ltb_lt in H; rewrite H; reflexivity. Qed.
Lemma tail_deviation_ok sg t l0 l years s i c : let n := (ax3 (values t) - 1)%nat in let k := (periods_per_year (dgrain t) * years + 1)%nat in
  deviations n s i c -> above_one l0 i c -> (i < ax0 (values l))%nat -> (c < ax1 (values l))%nat -> tail_known l k -> none_under_one l k -> (1 < tail_product_of l k i c)%Qc ->
  exists s1 b1 s2 b2, best_line (ax3 (values l0)) always period_no (fun d => ln (excess l0 i c d)) s1 b1 /\ best_line n always period_no (log_dev s i c) s2 b2 /\
    (s1 <> 0 -> s2 <> 0 -> exists T, exp (s1 * T + b1) = rv (tail_product_of l k i c) - 1 /\ tail_deviation sg t l0 l years s i c n = Some (exp (s2 * T + b2))) /\
    (s1 = 0 \/ s2 = 0 -> tail_deviation sg t l0 l years s i c n = None).
Proof.
  intros n k DV AO Hi Hc TK NU G. exists (time_slope l0 i c), (time_icept l0 i c), (slope n always period_no (log_dev s i c)), (icept n always period_no (log_dev s i c)).
  split; [apply line_best, always_two, (ao_two _ _ _ AO)|]. split; [apply line_best, always_two, (dv_two _ _ _ _ DV)|].
  unfold n. rewrite tail_deviation_eq. cbv zeta. fold k n. rewrite (no_tail_false l k i c) by auto. rewrite (tail_stat_line n (negb sg) s i c DV).
  split.
  - intros S1 S2. exists ((ln (rv (tail_product_of l k i c) - 1) - time_icept l0 i c) / time_slope l0 i c). split.
    + replace (time_slope l0 i c * ((ln (rv (tail_product_of l k i c) - 1) - time_icept l0 i c) / time_slope l0 i c) + time_icept l0 i c) with (ln (rv (tail_product_of l k i c) - 1)) by (field; auto).
      apply exp_ln. apply rv_lt in G. rewrite rv_1 in G. lra.
    + rewrite (tail_time_ok l0 l k i c) by auto. destruct (Req_EM_T _ 0); [contradiction|]. cbn [line fst snd rmul radd option_map]. f_equal. f_equal. fold n. ring.
  - intros [S1|S2].
    + assert (tail_time l0 l k i c = None) as ->.
      { unfold tail_time. rewrite (tail_time_reg l0 i c AO). destruct (Req_EM_T (time_slope l0 i c) 0); [|contradiction]. cbn [fst snd]. destruct (rlog _); reflexivity. }
      destruct (Req_EM_T _ 0); reflexivity.
    + fold n. destruct (Req_EM_T _ 0); [|contradiction]. cbn [line fst snd]. destruct (tail_time l0 l k i c); reflexivity.
Qed.
Lemma tail_deviation_exact sg t l0 l years s i c s1 b1 s2 b2 T : let n := (ax3 (values t) - 1)%nat in let k := (periods_per_year (dgrain t) * years + 1)%nat in
  (2 <= n)%nat -> above_one l0 i c -> (i < ax0 (values l))%nat -> (c < ax1 (values l))%nat -> tail_known l k -> none_under_one l k -> s1 <> 0 -> s2 <> 0 ->
  (forall d, (d < ax3 (values l0))%nat -> excess l0 i c d = exp (s1 * period_no d + b1)) -> (forall d, (d < n)%nat -> s i c d = Some (exp (s2 * period_no d + b2))) ->
  rv (tail_product_of l k i c) - 1 = exp (s1 * T + b1) -> tail_deviation sg t l0 l years s i c n = Some (exp (s2 * T + b2)).
Proof.
  intros n k N2 AO Hi Hc TK NU S1 S2 X1 X2 XT.
  assert (DV : deviations n s i c). { constructor; auto. intros d Hd. eexists. split; [apply X2; auto|apply exp_pos]. }
  assert (G : (1 < tail_product_of l k i c)%Qc). { destruct (Qclt_le_dec 1%Qc (tail_product_of l k i c)) as [|L]; auto. exfalso. apply rv_le in L. rewrite rv_1 in L. pose proof (exp_pos (s1 * T + b1)). lra. }
  destruct (tail_deviation_ok sg t l0 l years s i c DV AO Hi Hc TK NU G) as (u1 & v1 & u2 & v2 & B1 & B2 & OK & _).
  destruct (exact_line (ax3 (values l0)) always period_no (fun d => ln (excess l0 i c d)) s1 b1 (always_two _ (ao_two _ _ _ AO))) as [E1 E2]; [intros d Hd _; rewrite (X1 d Hd); apply ln_exp|].
  destruct (exact_line n always period_no (log_dev s i c) s2 b2 (always_two _ N2)) as [E3 E4]; [intros d Hd _; unfold log_dev; rewrite (X2 d Hd); cbn [nzr]; apply ln_exp|].
  destruct (best_line_unique _ _ _ _ _ _ _ _ B1 (line_best _ _ _ _ (always_two _ (ao_two _ _ _ AO)))) as [-> ->].
  destruct (best_line_unique _ _ _ _ _ _ _ _ B2 (line_best _ _ _ _ (always_two _ N2))) as [-> ->].
  rewrite E1, E2, E3, E4 in OK. destruct (OK S1 S2) as (T' & H1 & H2). fold k n in H1, H2. rewrite H2. rewrite XT in H1. apply exp_inv in H1.
  assert (T' = T) as ->; [|reflexivity]. apply (Rmult_eq_reg_l s1); auto. lra.
Qed.
Lemma tail_deviation_zero sg t l0 l years s i c : let n := (ax3 (values t) - 1)%nat in let k := (periods_per_year (dgrain t) * years + 1)%nat in
  deviations n s i c -> above_one l0 i c -> tail_known l k -> all_one l k -> (i < ax0 (values l))%nat -> (c < ax1 (values l))%nat ->
  time_slope l0 i c <> 0 -> slope n always period_no (log_dev s i c) <> 0 -> tail_deviation sg t l0 l years s i c n = Some 0.
Proof.
  intros n k DV AO TK A1 Hi Hc S1 S2. unfold n. rewrite tail_deviation_eq. cbv zeta. fold k n. rewrite (no_tail_true l k) by auto. rewrite (tail_stat_line n (negb sg) s i c DV).
  destruct (Req_EM_T _ 0); [contradiction|]. unfold tail_time. rewrite (tail_time_reg l0 i c AO). destruct (Req_EM_T (time_slope l0 i c) 0); [contradiction|].
  assert (ST : some_tail l k = false).
  { apply not_true_iff_false. intros E. unfold some_tail in E. apply andb_true_iff in E. destruct E as [_ E]. apply existsb_exists in E. destruct E as (x & Ix & E).
    apply in_concat in Ix. destruct Ix as (xs & Ixs & Ix). apply in_map_iff in Ixs. destruct Ixs as (i' & <- & Ii). apply in_map_iff in Ix. destruct Ix as (c' & <- & Ic). apply in_seq in Ii, Ic.
    rewrite tail_of_known, A1 in E by (auto; lia). discriminate E. }
  rewrite ST. cbn [rsub rlog]. destruct (Rlt_dec 0 (1001 / 1000 - 1)); [|lra]. cbn [fst snd rsub rdiv]. destruct (Req_EM_T (time_slope l0 i c) 0); [contradiction|].
  cbn [line fst snd rmul radd option_map]. f_equal. ring.
Qed.

(** * Where it fails *)
Lemma sigma_flat n y v : two_points n (is_known y) period_no -> 0 < v -> (forall k u, (k < n)%nat -> y k = Some u -> u = v) -> forall k, y k = None -> loglinear n y k = None.
Proof.
  intros TP P H k K. assert (PR : positive_row n y) by (intros j u Hj E; rewrite (H j u Hj E); auto).
  rewrite (loglinear_missing n y k TP PR K). destruct (exact_line n (is_known y) period_no (log_of y) 0 (ln v) TP) as [E _].
  { intros j Hj U. unfold log_of. unfold is_known in U. destruct (y j) as [u|] eqn:E; [|discriminate]. cbn [nzr]. rewrite (H j u Hj E). ring. }
  rewrite E. destruct (Req_EM_T 0 0); [reflexivity|contradiction].
Qed.
Lemma tail_flat p t l k r i c v : factors_for t l -> period_ok t (cp_fit p) -> starts_at (cp_attach p) t k -> none_below_one p t l ->
  (ax3 (values l) + periods_per_year (dgrain t) * cp_years p <= cp_extrap p + (ax3 (values t) - 1))%nat -> tail_curve p t l = Ok r -> curve_input p t l i c ->
  (forall d, (d < ax3 (values t) - 1)%nat -> takes_part p t l i c d = true -> excess l i c d = v) ->
  forall d, (k <= d < ax3 (values l) + periods_per_year (dgrain t) * cp_years p)%nat -> rt_cell r i c 0%nat d = None.
Proof.
  intros FF PO SA NB MT E CI ON d Hd.
  destruct (exact_line (ax3 (values t) - 1) (takes_part p t l i c) (curve_x (cp_curve p)) (fun d => ln (excess l i c d)) 0 (ln v) (fi_two _ _ _ _ _ CI)) as [E1 _].
  { intros j Hj U. rewrite (ON j Hj U). ring. }
  rewrite (tail_curve_cells p t l k FF PO SA NB r E i c CI) by lia. assert (ES : curve_slope p t l i c = 0) by exact E1. destruct (Req_EM_T _ 0); [|contradiction].
  match goal with |- context [(d <? ?x)%nat] => destruct (Nat.ltb_spec d x) end; [reflexivity|lia].
Qed.
Lemma tail_with_one p t l k r i c e : factors_for t l -> period_ok t (cp_fit p) -> starts_at (cp_attach p) t k -> none_below_one p t l -> cp_raise p = true ->
  (ax3 (values l) + periods_per_year (dgrain t) * cp_years p <= cp_extrap p + (ax3 (values t) - 1))%nat -> tail_curve p t l = Ok r ->
  (e < ax3 (values t) - 1)%nat -> marked t (cp_fit p) e = true -> cel l i c 0 e = Some 1%Qc ->
  forall d, (k <= d < ax3 (values l) + periods_per_year (dgrain t) * cp_years p)%nat -> rt_cell r i c 0%nat d = None.
Proof.
  intros FF PO SA NB R MT E He M C1 d Hd. destruct (tail_curve_eq p t l k FF PO SA NB) as (r' & use & E' & HU & _ & _ & _ & _ & _ & _ & _ & _ & _ & _ & _ & C).
  rewrite E in E'. injection E' as <-. rewrite C. destruct (Nat.ltb_spec d k); [lia|].
  assert (CL : curve_line p use (ax3 (values t) - 1) (fun d => if (d <? ax3 (values l))%nat then cel l i c 0 d else Some 1%Qc) = (None, None)).
  { unfold curve_line. match goal with |- (if ?b then _ else _) = _ => assert (B : b = true) end; [|rewrite B; reflexivity].
    apply existsb_exists. exists e. split; [apply in_seq; lia|]. rewrite (HU e He), M, R. destruct FF as [F2 F (F3 & F1 & F4)]. destruct (Nat.ltb_spec e (ax3 (values l))); [|lia]. rewrite C1. reflexivity. }
  rewrite CL. unfold tail_prediction. rewrite Nat.min_l by lia. match goal with |- context [(d <? ?x)%nat] => destruct (Nat.ltb_spec d x) end; [|lia]. rewrite curve_at_none. reflexivity.
Qed.
Lemma tail_short p t l k r : factors_for t l -> period_ok t (cp_fit p) -> starts_at (cp_attach p) t k -> none_below_one p t l ->
  (cp_extrap p + (ax3 (values t) - 1) < ax3 (values l) + periods_per_year (dgrain t) * cp_years p)%nat -> tail_curve p t l = Ok r ->
  (ax3 (values (rt_frame r)) < List.length (dlist (ddims (rt_frame r))))%nat.
Proof.
  intros FF PO SA NB L E. destruct (tail_curve_eq p t l k FF PO SA NB) as (r' & use & E' & _ & _ & _ & _ & _ & _ & _ & D & _ & _ & _ & A3 & _).
  rewrite E in E'. injection E' as <-. rewrite A3, D. cbn [dlist]. rewrite app_length, map_length, seq_length. destruct FF as [F2 (xs & Ex & Lx) (F3 & F1 & F4)]. rewrite Ex. cbn [dlist]. rewrite Lx. lia.
Qed.
(** A missing point in the middle turns a falling line into a rising one. *)
Lemma ols_gap a y : a <> 0 -> y 0%nat = Some (- a) -> y 1%nat = None -> y 2%nat = Some (- (3 * a)) -> ols 3 (fun _ => 1) y = (Some a, Some (- (4 * a))).
Proof.
  intros A Y0 Y1 Y2. unfold ols. cbv beta zeta.
  assert (I : forall X (u v : X), (if Req_EM_T 1 0 then u else v) = v) by (intros; destruct (Req_EM_T 1 0); [lra|reflexivity]).
  unfold rnanmean, rnansum, rcount. cbn [rsumn]. rewrite !I, Y0, Y1, Y2. cbn [rmul nzr rdiv]. cbn [INR].
  destruct (Req_EM_T (0 + 1 + 0 + 1) 0); [lra|]. destruct (Req_EM_T (0 + 1 + 1 + 1) 0); [lra|]. cbn [rsub rmul rn2n].
  destruct (Req_EM_T _ 0) as [E|_]; [exfalso; field_simplify in E; lra|]. destruct (Req_EM_T _ 0) as [E|_]; [exfalso; field_simplify in E; lra|]. cbn [rdiv].
  destruct (Req_EM_T _ 0) as [E|_]; [exfalso; field_simplify in E; lra|]. cbn [rmul rsub rdiv]. destruct (Req_EM_T _ 0) as [E|_]; [exfalso; field_simplify in E; lra|]. cbn [rmul rsub]. f_equal; f_equal; field.
Qed.
Lemma ln_half_pow n : ln ((/ 2) ^ n) = - (INR n * ln 2).
Proof. rewrite pow_inv by lra. rewrite ln_Rinv by (apply pow_lt; lra). rewrite ln_pow by lra. reflexivity. Qed.
Lemma tail_gap sg t l0 l years s i c : let k := (periods_per_year (dgrain t) * years + 1)%nat in
  ax3 (values t) = 4%nat -> ax3 (values l0) = 3%nat -> cel l0 i c 0 0 = Some (qc 3 / qc 2)%Qc -> (exists q, cel l0 i c 0 1 = Some q /\ (q <= 1)%Qc) -> cel l0 i c 0 2 = Some (qc 9 / qc 8)%Qc ->
  (i < ax0 (values l))%nat -> (c < ax1 (values l))%nat -> tail_known l k -> none_under_one l k -> tail_product_of l k i c = (qc 33 / qc 32)%Qc ->
  (forall d, (d < 3)%nat -> s i c d = Some ((/ 2) ^ S d)) -> tail_deviation sg t l0 l years s i c 3%nat = Some 2.
Proof.
  intros k A3 L3 C0 (q & C1 & Q1) C2 Hi Hc TK NU TP DS.
  assert (L2 : 0 < ln 2) by (rewrite <- ln_1; apply ln_increasing; lra).
  assert (V : forall a b : positive, rv (Q2Qc (Zpos a # b)) = IZR (Zpos a) / IZR (Zpos b)).
  { intros. unfold rv. cbn [this Q2Qc]. rewrite (Qeq_eqR _ _ (Qred_correct (Zpos a # b))). reflexivity. }
  assert (V3 : rv (qc 3 / qc 2)%Qc = 3 / 2) by (replace (qc 3 / qc 2)%Qc with (Q2Qc (3 # 2)) by (apply Qc_is_canon; reflexivity); apply V).
  assert (V9 : rv (qc 9 / qc 8)%Qc = 9 / 8) by (replace (qc 9 / qc 8)%Qc with (Q2Qc (9 # 8)) by (apply Qc_is_canon; reflexivity); apply V).
  assert (V33 : rv (qc 33 / qc 32)%Qc = 33 / 32) by (replace (qc 33 / qc 32)%Qc with (Q2Qc (33 # 32)) by (apply Qc_is_canon; reflexivity); apply V).
  assert (GT : (1 < tail_product_of l k i c)%Qc) by (rewrite TP; reflexivity).
  assert (DV : deviations 3 s i c). { constructor; [lia|]. intros d Hd. eexists. split; [apply DS; auto|]. apply pow_lt. lra. }
  replace 3%nat with (ax3 (values t) - 1)%nat by lia. rewrite tail_deviation_eq. cbv zeta. fold k. rewrite (no_tail_false l k i c) by auto.
  replace (ax3 (values t) - 1)%nat with 3%nat by lia. rewrite (tail_stat_line 3 (negb sg) s i c DV).
  destruct (exact_line 3 always period_no (log_dev s i c) (- ln 2) 0 (always_two 3 ltac:(lia))) as [E1 E2].
  { intros d Hd _. unfold log_dev. rewrite (DS d Hd). cbn [nzr]. rewrite ln_half_pow. unfold period_no. ring. }
  rewrite E1, E2. destruct (Req_EM_T (- ln 2) 0); [lra|]. unfold tail_time. rewrite L3.
  rewrite (ols_gap (ln 2)); [| lra | | |].
  2:{ rewrite C0. cbn [r_of option_map]. rewrite V3. destruct (Rle_dec (3 / 2) 1); [lra|]. f_equal. replace (3 / 2 - 1) with ((/ 2) ^ 1) by field. rewrite ln_half_pow. cbn [INR]. ring. }
  2:{ rewrite C1. cbn [r_of option_map]. apply rv_le in Q1. rewrite rv_1 in Q1. destruct (Rle_dec (rv q) 1); [reflexivity|lra]. }
  2:{ rewrite C2. cbn [r_of option_map]. rewrite V9. destruct (Rle_dec (9 / 8) 1); [lra|]. f_equal. replace (9 / 8 - 1) with ((/ 2) ^ 3) by field. rewrite ln_half_pow. cbn [INR]. ring. }
  rewrite (some_tail_ok l k i c) by auto. rewrite tail_of_known by auto. rewrite TP. cbn [r_of option_map rsub]. rewrite V33. cbn [rlog]. destruct (Rlt_dec 0 (33 / 32 - 1)); [|lra].
  cbn [fst snd rsub rdiv]. destruct (Req_EM_T (ln 2) 0); [lra|]. cbn [line fst snd rmul radd option_map]. f_equal.
  replace (33 / 32 - 1) with ((/ 2) ^ 5) by field. rewrite ln_half_pow. cbn [INR].
  replace (((- ((1 + 1 + 1 + 1 + 1) * ln 2) - - (4 * ln 2)) / ln 2 * - ln 2 + 0)) with (ln 2) by (field; lra). apply exp_ln. lra.
Qed.
Lemma dev_sigma_fill p how t f i c d : p_n_periods p <> One 1%Z ->
  dev_sigma p how t f i c d = match how with LogLinear => loglinear (ax3 (values t) - 1) (sigma_raw (f_reg f) i c) d | MackFill => mack_fill (sigma_raw (f_reg f) i c) d end.
Proof. intros NP. unfold dev_sigma. destruct (p_n_periods p) as [z| | ]; try reflexivity. destruct z as [|q|]; try reflexivity. destruct q; try reflexivity. congruence. Qed.
