(** On-level factors by day, and closed forms. *)
From Coq Require Import Lia Sorted.
From Verif Require Import NumFacts P_Benk P_Olf SpecOlf.
Local Open Scope Z_scope.

Lemma back_january p : back_a_year (12 * p) = year_start (p - 1) - 1.
Proof.
  unfold back_a_year. replace (12 * p - 1) with (12 * (p - 1) + 11) by lia. replace (12 * p - 13) with (12 * (p - 2) + 11) by lia. rewrite !month_days_of by lia.
  rewrite <- first_day_year. replace (12 * (p - 1)) with (12 * (p - 2) + 11 + 1) by lia. rewrite first_day_S, month_days_of by lia. lia.
Qed.
Lemma year_start_days p : year_start (p + 1) = year_start p + Z.of_nat (year_days p).
Proof. rewrite year_start_S. unfold year_days. destruct (leap_year p); lia. Qed.
Lemma nth_zrange {A} (F : Z -> A) lo hi i d : (i < Z.to_nat (hi - lo + 1))%nat -> nth i (map F (zrange lo hi)) d = F (lo + Z.of_nat i).
Proof.
  intros H. unfold zrange. rewrite map_map. rewrite (nth_indep _ d (F (lo + Z.of_nat 0))) by (rewrite map_length, seq_length; auto).
  rewrite (map_nth (fun k => F (lo + Z.of_nat k)) (seq 0 (Z.to_nat (hi - lo + 1))) 0%nat i), seq_nth by auto. reflexivity.
Qed.
Lemma nth_map_seq {A} (G : nat -> A) m i d : (i < m)%nat -> nth i (map G (seq 0 m)) d = G i.
Proof. intros H. rewrite (nth_indep _ d (G 0%nat)) by (rewrite map_length, seq_length; auto). rewrite (map_nth G (seq 0 m) 0%nat i), seq_nth by auto. reflexivity. Qed.
Lemma len_zrange lo hi : List.length (zrange lo hi) = Z.to_nat (hi - lo + 1).
Proof. unfold zrange. rewrite map_length, seq_length. reflexivity. Qed.

Section Days.
Context (ch : history) (p0 p1 : Z) (v : bool) (SH : sound_history ch) (Hp : p0 <= p1).
Let a := 12 * p0.
Let b := 12 * p1 + 11.
Let T := year_start (p0 - 1) - 1.
Let n := index_len ByDay a b.
Let lev := level ch (index_at ByDay a).
Let R := rate_level ch.
Lemma days_len : Z.of_nat n = year_start (p1 + 1) - T.
Proof.
  unfold n, index_len, a, b. rewrite back_january. fold T. replace (12 * p1 + 11 + 1) with (12 * (p1 + 1)) by lia. rewrite first_day_year.
  pose proof (year_start_lt (p0 - 1) (p1 + 1)). unfold T in *. lia.
Qed.
Lemma days_index i : index_at ByDay a i = T + Z.of_nat i.
Proof. unfold index_at, a. rewrite back_january. reflexivity. Qed.
Lemma days_levels : exists c, (0 < c)%Qc /\ forall i, (i < n)%nat -> R (T + Z.of_nat i) = (c * lev i)%Qc.
Proof.
  exists (R (T - 1)). split; [apply rate_pos, SH|]. intros i Hi.
  pose proof (level_rate ch (index_at ByDay a) n (proj1 SH)) as L. rewrite !days_index in L. change (Z.of_nat 0) with 0 in L. rewrite Z.add_0_r in L. rewrite <- (days_index i). unfold R. rewrite (L); auto.
  intros j Hj. rewrite !days_index. split; [lia|]. intros x Hx. lia.
Qed.
Lemma day_series_pos w x : (1 <= w)%nat -> (0 < day_series v w R x)%Qc.
Proof. intros Hw. assert (forall y, (0 < R y)%Qc) by (intros; apply rate_pos, SH). unfold day_series. destruct v; auto. apply earning_pos; auto. Qed.
Lemma days_rows w k q0 (start : Z -> Z) (len : Z -> nat) : (1 <= w <= k)%nat -> q0 <= p1 + 1 ->
  T + Z.of_nat k = start q0 -> (q0 <= p1 -> start q0 = year_start q0 \/ year_start q0 < start q0 < year_start (q0 + 1)) ->
  (forall p, q0 < p <= p1 -> start p = year_start p) -> (forall p, q0 <= p <= p1 -> start p + Z.of_nat (len p) = year_start (p + 1)) -> (q0 = p1 + 1 -> start q0 = year_start q0) ->
  map (fun r => (fst r, cdiv (Some (lev (n - 1)%nat)) (snd r))) (period_means (fun i => year_of_day (index_at ByDay a i)) (if v then fun i => Some (lev i) else smoothed w lev) k n) =
  map (fun p => (p, Some (R (year_start (p1 + 1) - 1)%Z / average (len p) (day_series v w R) (start p))%Qc)) (zrange q0 p1).
Proof.
  intros Hw Hq Hk Hq0 Hs Hl Hend. destruct days_levels as (c & Pc & L). pose proof days_len as Ln. pose proof (Qc_pos_ne _ Pc) as Nc.
  assert (T + 1 <= year_start (p1 + 1)) by (pose proof (year_start_lt (p0 - 1) (p1 + 1)); unfold T; lia).
  replace (year_start (p1 + 1) - 1) with (T + Z.of_nat (n - 1)) by lia.
  assert (St : forall p, q0 <= p <= p1 -> year_start p <= start p < year_start (p + 1)).
  { intros p Hpp. pose proof (year_start_lt p (p + 1)). destruct (Z.eq_dec p q0) as [->|]; [destruct Hq0; lia|]. rewrite Hs; lia. }
  assert (Mono : forall p q, p <= q -> year_start p <= year_start q).
  { intros p q H0. destruct (Z.eq_dec p q) as [->|]; [lia|]. pose proof (year_start_lt p q). lia. }
  assert (Lo : forall i, (k <= i < n)%nat -> q0 <= year_of_day (index_at ByDay a i) <= p1).
  { intros i Hi. rewrite days_index. pose proof (year_bounds (T + Z.of_nat i)) as B. cbv zeta in B. set (y := year_of_day _) in *. split.
    - destruct (Z.lt_ge_cases y q0) as [L0|]; [exfalso|lia]. destruct (Z.eq_dec q0 (p1 + 1)) as [E|E].
      + rewrite (Hend E), E in Hk. lia.
      + specialize (St q0). pose proof (Mono (y + 1) q0). lia.
    - destruct (Z.lt_ge_cases p1 y) as [L0|]; [exfalso|lia]. pose proof (Mono (p1 + 1) y). lia. }
  apply (rows_ok _ _ (day_series v w R) R T c (lev (n - 1)%nat) k n q0 p1 start len); auto.
  - intros x. apply day_series_pos. lia.
  - rewrite Qcmult_comm, <- L by lia. reflexivity.
  - intros i Hi. unfold day_series. destruct v.
    + f_equal. rewrite L by lia. field. auto.
    + apply smoothed_time; auto; try lia. intros j Hj. apply L. lia.
  - intros i H1 H2. rewrite !days_index. pose proof (year_bounds (T + Z.of_nat i)) as B1. pose proof (year_bounds (T + Z.of_nat (S i))) as B2. cbv zeta in *.
    set (y1 := year_of_day (T + Z.of_nat i)) in *. set (y2 := year_of_day (T + Z.of_nat (S i))) in *. destruct (Z.lt_ge_cases y2 y1) as [L0|]; [exfalso|lia].
    pose proof (Mono (y2 + 1) y1). lia.
  - intros p Hpp. pose proof (St p Hpp). pose proof (Hl p Hpp). pose proof (Mono (p + 1) (p1 + 1)).
    assert (start q0 <= start p). { destruct (Z.eq_dec p q0) as [->|]; [lia|]. rewrite (Hs p) by lia. specialize (St q0). pose proof (Mono (q0 + 1) p). lia. }
    lia.
  - intros p i Hpp Hi. rewrite days_index, year_of_day_iff. rewrite Hl by auto. destruct (Z.eq_dec p q0) as [->|].
    + specialize (St q0 Hpp). lia.
    + rewrite (Hs p) by lia. lia.
Qed.

(** The year before the first one has 365 days. *)
Lemma years_by_day : leap_year (p0 - 1) = false ->
  parallelogram_olf ch (12 * p0) (12 * p1 + 11) GY ByDay v =
    Ok (map (fun p => (p, Some (R (year_start (p1 + 1) - 1)%Z / day_average v R p0 p)%Qc)) (zrange p0 p1)).
Proof.
  intros Hleap. unfold parallelogram_olf. rewrite distinct_ok by apply SH. cbn [negb]. fold a b n lev.
  assert (E : year_start p0 = T + 366). { replace p0 with (p0 - 1 + 1) by lia. rewrite year_start_S, Hleap. unfold T. lia. }
  pose proof (days_rows 365 366 p0 year_start year_days) as F0.
  pose proof (days_rows 366 367 p0 (fun p => if p =? p0 then year_start p + 1 else year_start p) (fun p => if p =? p0 then (year_days p - 1)%nat else year_days p)) as F1.
  assert (Y : forall p, (365 <= year_days p)%nat) by (intros p; unfold year_days; destruct (leap_year p); lia).
  cbv zeta in F0, F1 |- *. cbn [plus] in *.
  match goal with |- context [period_means ?P ?Q 366 n] => change (period_means P Q 366 n) with (period_means P (if v then fun i => Some (lev i) else smoothed 365 lev) 366 n) end.
  match goal with |- context [period_means ?P ?Q 367 n] => change (period_means P Q 367 n) with (period_means P (if v then fun i => Some (lev i) else smoothed 366 lev) 367 n) end.
  rewrite F0; clear F0; auto; try lia; [..|intros; rewrite <- year_start_days; auto].
  rewrite F1; clear F1; try lia.
  - f_equal. rewrite map_length, len_zrange. apply (nth_ext _ _ (0, None) (0, None)); [rewrite !map_length, seq_length, len_zrange; auto|].
    intros i Hi. rewrite map_length, seq_length in Hi. rewrite nth_map_seq by auto. cbv beta. rewrite !nth_zrange by auto. cbn [fst snd]. f_equal. unfold day_average, year_days. destruct (leap_year (p0 + Z.of_nat i)); auto.
    destruct (Z.eqb_spec (p0 + Z.of_nat i) p0); reflexivity.
  - rewrite Z.eqb_refl. lia.
  - intros _. rewrite Z.eqb_refl, year_start_days. specialize (Y p0). lia.
  - intros p H. destruct (Z.eqb_spec p p0); [lia|]. auto.
  - intros p H. rewrite year_start_days. specialize (Y p). destruct (Z.eqb_spec p p0); lia.
Qed.
(** The year before the first one is a leap year: there is a row for it, and the factors of
    leap years are those of the next year. *)
Lemma years_after_leap : leap_year (p0 - 1) = true ->
  parallelogram_olf ch (12 * p0) (12 * p1 + 11) GY ByDay v =
    Ok (map (fun p => (p, if leap_year p then if p <? p1 then Some (R (year_start (p1 + 1) - 1)%Z / average (year_days (p + 1)) (day_series v 366 R) (year_start (p + 1)%Z))%Qc else None
                          else Some (R (year_start (p1 + 1) - 1)%Z / average 365 (day_series v 365 R) (year_start p))%Qc)) (zrange (p0 - 1) p1)).
Proof.
  intros Hleap. unfold parallelogram_olf. rewrite distinct_ok by apply SH. cbn [negb]. fold a b n lev.
  assert (E : year_start p0 = T + 367). { replace p0 with (p0 - 1 + 1) by lia. rewrite year_start_S, Hleap. unfold T. lia. }
  pose proof (days_rows 365 366 (p0 - 1) (fun p => if p =? p0 - 1 then year_start p0 - 1 else year_start p) (fun p => if p =? p0 - 1 then 1%nat else year_days p)) as F0.
  pose proof (days_rows 366 367 p0 year_start year_days) as F1.
  assert (Y : forall p, (365 <= year_days p)%nat) by (intros p; unfold year_days; destruct (leap_year p); lia).
  cbv zeta in F0, F1 |- *. cbn [plus] in *.
  match goal with |- context [period_means ?P ?Q 366 n] => change (period_means P Q 366 n) with (period_means P (if v then fun i => Some (lev i) else smoothed 365 lev) 366 n) end.
  match goal with |- context [period_means ?P ?Q 367 n] => change (period_means P Q 367 n) with (period_means P (if v then fun i => Some (lev i) else smoothed 366 lev) 367 n) end.
  rewrite F1; clear F1; auto; try lia; [..|intros; rewrite <- year_start_days; auto].
  rewrite F0; clear F0; try lia.
  - f_equal. rewrite map_length, len_zrange. apply (nth_ext _ _ (0, None) (0, None)); [rewrite !map_length, seq_length, len_zrange; auto|].
    intros i Hi. rewrite map_length, seq_length in Hi. rewrite nth_map_seq by auto. cbv beta. rewrite (nth_zrange _ (p0 - 1)) by auto. rewrite (nth_zrange _ (p0 - 1)) by auto. cbn [fst snd]. f_equal.
    destruct (leap_year (p0 - 1 + Z.of_nat i)) eqn:Li.
    + destruct (Z.ltb_spec (p0 - 1 + Z.of_nat i) p1).
      * rewrite nth_zrange by lia. cbn [snd]. replace (p0 - 1 + Z.of_nat i + 1) with (p0 + Z.of_nat i) by lia. reflexivity.
      * rewrite nth_overflow; [reflexivity|]. rewrite map_length, len_zrange. lia.
    + destruct (Z.eqb_spec (p0 - 1 + Z.of_nat i) (p0 - 1)) as [Ei|_]; [congruence|]. unfold year_days. rewrite Li. reflexivity.
  - rewrite Z.eqb_refl. lia.
  - intros _. rewrite Z.eqb_refl. right. pose proof (year_start_days (p0 - 1)) as D. replace (p0 - 1 + 1) with p0 in * by lia. specialize (Y (p0 - 1)). lia.
  - intros p H. destruct (Z.eqb_spec p (p0 - 1)); [lia|]. auto.
  - intros p H. destruct (Z.eqb_spec p (p0 - 1)) as [->|]; [replace (p0 - 1 + 1) with p0 by lia; lia|]. rewrite <- year_start_days. reflexivity.
Qed.
End Days.
