(** Proofs about on-level factors. *)
From Coq Require Import Lia Sorted.
From Verif Require Import NumFacts P_Benk P_Core UnionFacts SpecOlf.
Local Open Scope Z_scope.

(** * The calendar *)
Lemma days_from_r s n : days_from s (S n) = days_from s n + month_days (s + Z.of_nat n).
Proof.
  revert s. induction n as [|n IH]; intros s; [cbn [days_from Z.of_nat]; rewrite !Z.add_0_r; reflexivity|].
  change (days_from s (S (S n))) with (month_days s + days_from (s + 1) (S n)). rewrite IH. change (days_from s (S n)) with (month_days s + days_from (s + 1) n).
  replace (s + 1 + Z.of_nat n) with (s + Z.of_nat (S n)) by lia. lia.
Qed.
Lemma month_days_pos m : 28 <= month_days m <= 31.
Proof. unfold month_days. pose proof (Z.mod_pos_bound m 12 ltac:(lia)). destruct (m mod 12) as [|p|p]; try lia. repeat (destruct p as [p|p|]; try lia); destruct (leap_year _); lia. Qed.
Lemma year_start_S y : year_start (y + 1) = year_start y + (if leap_year y then 366 else 365).
Proof.
  unfold year_start, leap_year. destruct (Z.eqb_spec (y mod 4) 0), (Z.eqb_spec (y mod 100) 0), (Z.eqb_spec (y mod 400) 0); cbn [andb orb negb];
    Z.to_euclidean_division_equations; lia.
Qed.
Lemma month_days_of y k : 0 <= k < 12 -> month_days (12 * y + k) = match k with 1 => if leap_year y then 29 else 28 | 3 | 5 | 8 | 10 => 30 | _ => 31 end.
Proof.
  intros H. unfold month_days. replace ((12 * y + k) mod 12) with k; [|rewrite Z.add_comm, Z.mul_comm, Z_mod_plus_full, Z.mod_small; lia].
  replace ((12 * y + k) / 12) with y; [reflexivity|]. rewrite Z.add_comm, Z.mul_comm, Z_div_plus_full, Z.div_small; lia.
Qed.
Lemma year_total y : days_from (12 * y) 12 = if leap_year y then 366 else 365.
Proof.
  do 12 rewrite days_from_r. cbn [days_from]. rewrite !month_days_of by lia. cbn [Z.of_nat Pos.of_succ_nat Pos.succ].
  destruct (leap_year y); reflexivity.
Qed.
Lemma first_day_S m : first_day (m + 1) = first_day m + month_days m.
Proof.
  unfold first_day. pose proof (Z.mod_pos_bound m 12 ltac:(lia)) as B. pose proof (Z.div_mod m 12 ltac:(lia)) as E.
  set (y := m / 12) in *. set (k := m mod 12) in *. clearbody y k. subst m. destruct (Z.eq_dec k 11) as [->|Hk].
  - replace ((12 * y + 11 + 1) / 12) with (y + 1) by (Z.to_euclidean_division_equations; lia).
    replace ((12 * y + 11 + 1) mod 12) with 0 by (Z.to_euclidean_division_equations; lia).
    rewrite year_start_S, <- year_total. change (Z.to_nat 0) with 0%nat. change (Z.to_nat 11) with 11%nat. rewrite (days_from_r _ 11). change (days_from (12 * (y + 1)) 0) with 0. change (Z.of_nat 11) with 11. lia.
  - replace ((12 * y + k + 1) / 12) with y by (Z.to_euclidean_division_equations; lia).
    replace ((12 * y + k + 1) mod 12) with (k + 1) by (Z.to_euclidean_division_equations; lia).
    replace (Z.to_nat (k + 1)) with (S (Z.to_nat k)) by lia. rewrite days_from_r. replace (12 * y + Z.of_nat (Z.to_nat k)) with (12 * y + k) by lia. lia.
Qed.
Lemma first_day_lt m n : m < n -> first_day m < first_day n.
Proof.
  intros H. replace n with (m + 1 + Z.of_nat (Z.to_nat (n - m - 1))) by lia. induction (Z.to_nat (n - m - 1)) as [|k IH].
  - rewrite Z.add_0_r, first_day_S. pose proof (month_days_pos m). lia.
  - replace (m + 1 + Z.of_nat (S k)) with (m + 1 + Z.of_nat k + 1) by lia. rewrite first_day_S. pose proof (month_days_pos (m + 1 + Z.of_nat k)). lia.
Qed.
Lemma first_day_le m n : m <= n -> first_day m <= first_day n.
Proof. intros H. destruct (Z.eq_dec m n) as [->|]; [lia|]. pose proof (first_day_lt m n). lia. Qed.
Lemma first_day_inv m n : first_day m < first_day n -> m < n.
Proof. intros H. destruct (Z.lt_ge_cases m n); auto. pose proof (first_day_le n m). lia. Qed.
Lemma first_day_year y : first_day (12 * y) = year_start y.
Proof.
  unfold first_day. replace (12 * y / 12) with y by (Z.to_euclidean_division_equations; lia). replace ((12 * y) mod 12) with 0 by (Z.to_euclidean_division_equations; lia). cbn. lia.
Qed.
Lemma year_start_lt y z : y < z -> year_start y < year_start z.
Proof. intros H. rewrite <- !first_day_year. apply first_day_lt. lia. Qed.
Lemma year_bounds d : let y := year_of_day d in year_start y <= d < year_start (y + 1).
Proof.
  cbv zeta. unfold year_of_day. set (y := 400 * d / 146097).
  assert (A : year_start (y - 1) <= d < year_start (y + 2)).
  { assert (E : 146097 * y <= 400 * d < 146097 * (y + 1)) by (unfold y; Z.to_euclidean_division_equations; lia). clearbody y.
    unfold year_start. split; Z.to_euclidean_division_equations; lia. }
  destruct (Z.ltb_spec d (year_start y)); [replace (y - 1 + 1) with y by lia; lia|].
  destruct (Z.leb_spec (year_start (y + 1)) d); [replace (y + 1 + 1) with (y + 2) by lia; lia|lia].
Qed.
Lemma year_of_day_iff d y : year_of_day d = y <-> year_start y <= d < year_start (y + 1).
Proof.
  pose proof (year_bounds d) as B. cbv zeta in B. split; [intros <-; auto|]. intros A.
  destruct (Z.lt_trichotomy (year_of_day d) y) as [L|[L|L]]; auto; exfalso.
  - destruct (Z.eq_dec (year_of_day d + 1) y) as [E|E]; [subst y; lia|]. pose proof (year_start_lt (year_of_day d + 1) y). lia.
  - destruct (Z.eq_dec (y + 1) (year_of_day d)) as [E|E]; [rewrite E in A; lia|]. pose proof (year_start_lt (y + 1) (year_of_day d)). lia.
Qed.
Lemma year_of_month m : year_of_day (first_day m) = m / 12.
Proof.
  apply year_of_day_iff. rewrite <- !first_day_year. split; [apply first_day_le|apply first_day_lt]; Z.to_euclidean_division_equations; lia.
Qed.
Lemma filter_count (y k d : Z) : 0 <= k < 12 -> first_day (12 * y + k) <= d < first_day (12 * y + k + 1) ->
  Z.of_nat (List.length (filter (fun j => first_day (12 * y + j) <=? d) [1; 2; 3; 4; 5; 6; 7; 8; 9; 10; 11])) = k.
Proof.
  intros Hk Hd.
  assert (E : forall j, (first_day (12 * y + j) <=? d) = (j <=? k)).
  { intros j. destruct (Z.leb_spec j k).
    - apply Z.leb_le. pose proof (first_day_le (12 * y + j) (12 * y + k)). lia.
    - apply Z.leb_gt. pose proof (first_day_le (12 * y + k + 1) (12 * y + j)). lia. }
  rewrite (filter_ext _ (fun j => j <=? k)) by auto. clear E Hd.
  assert (k = 0 \/ k = 1 \/ k = 2 \/ k = 3 \/ k = 4 \/ k = 5 \/ k = 6 \/ k = 7 \/ k = 8 \/ k = 9 \/ k = 10 \/ k = 11) as C by lia.
  repeat (destruct C as [-> | C]; [reflexivity|]). subst. reflexivity.
Qed.
Lemma month_of_day_iff d m : month_of_day d = m <-> first_day m <= d < first_day (m + 1).
Proof.
  assert (G : first_day (month_of_day d) <= d < first_day (month_of_day d + 1)).
  { pose proof (year_bounds d) as B. cbv zeta in B. unfold month_of_day. set (y := year_of_day d) in *.
    rewrite <- !first_day_year in B.
    assert (exists k, 0 <= k < 12 /\ first_day (12 * y + k) <= d < first_day (12 * y + k + 1)) as (k & Hk & Hd).
    { clear - B. replace (12 * (y + 1)) with (12 * y + Z.of_nat 12) in B by lia.
      assert (P : forall n, (n <= 12)%nat -> d < first_day (12 * y + Z.of_nat n) -> exists k, 0 <= k < Z.of_nat n /\ first_day (12 * y + k) <= d < first_day (12 * y + k + 1)).
      { induction n as [|n IH]; intros Hn Hd; [rewrite Z.add_0_r in Hd; lia|].
        destruct (Z.lt_ge_cases d (first_day (12 * y + Z.of_nat n))) as [L|L].
        - destruct IH as (k & K1 & K2); [lia|auto|]. exists k. split; [lia|auto].
        - exists (Z.of_nat n). split; [lia|]. replace (12 * y + Z.of_nat n + 1) with (12 * y + Z.of_nat (S n)) by lia. lia. }
      destruct (P 12%nat) as (k & K1 & K2); [lia|lia|]. exists k. split; [lia|auto]. }
    rewrite (filter_count y k d Hk Hd). auto. }
  split; [intros <-; auto|]. intros A. destruct (Z.lt_trichotomy (month_of_day d) m) as [L|[L|L]]; auto; exfalso.
  - pose proof (first_day_le (month_of_day d + 1) m). lia.
  - pose proof (first_day_le (m + 1) (month_of_day d)). lia.
Qed.
Lemma month_of_first m : month_of_day (first_day m) = m.
Proof. apply month_of_day_iff. split; [lia|]. apply first_day_lt. lia. Qed.

(** * Rate levels *)
Lemma change_notin ch d : ~ In d (map fst ch) -> change_at ch d = 0%Qc.
Proof.
  induction ch as [|[e r] t IH]; intros H; auto. cbn [change_at map fst In] in *. destruct (Z.eqb_spec e d) as [->|]; [tauto|]. apply IH. tauto.
Qed.
Lemma rate_cons e r t d : rate_level ((e, r) :: t) d = ((if (e <=? d)%Z then 1 + r else 1) * rate_level t d)%Qc.
Proof. reflexivity. Qed.
Lemma rate_step ch x y : x < y -> (forall c, In c ch -> ~ (x < fst c < y)) -> NoDup (map fst ch) ->
  rate_level ch y = (rate_level ch x * (1 + change_at ch y))%Qc.
Proof.
  intros L. induction ch as [|[e r] t IH]; intros B N; [cbn; ring|]. inversion N as [|? ? N1 N2]; subst.
  rewrite !rate_cons, IH; auto; [|intros c Hc; apply B; right; auto]. cbn [change_at]. pose proof (B (e, r) (or_introl eq_refl)) as Be. cbn [fst] in Be.
  destruct (Z.eqb_spec e y) as [->|Hne].
  - rewrite (change_notin t y N1). destruct (Z.leb_spec y y), (Z.leb_spec y x); try lia. ring.
  - destruct (Z.leb_spec e y), (Z.leb_spec e x); try lia; ring.
Qed.
Lemma rate_pos ch d : (forall c, In c ch -> (0 < 1 + snd c)%Qc) -> (0 < rate_level ch d)%Qc.
Proof.
  induction ch as [|[e r] t IH]; intros H; [reflexivity|]. rewrite rate_cons.
  assert (0 < rate_level t d)%Qc by (apply IH; intros; apply H; right; auto). pose proof (H (e, r) (or_introl eq_refl)) as A. cbn [snd] in A.
  destruct (e <=? d); [|qlra]. revert A H0. generalize (1 + r)%Qc (rate_level t d). intros u v. qnra.
Qed.
Lemma level_S ch idx i : level ch idx (S i) = (level ch idx i * (1 + change_at ch (idx (S i))))%Qc.
Proof. reflexivity. Qed.
Lemma level_rate ch idx n : NoDup (map fst ch) -> (forall i, (S i < n)%nat -> idx i < idx (S i) /\ forall c, In c ch -> ~ (idx i < fst c < idx (S i))) ->
  forall i, (i < n)%nat -> rate_level ch (idx i) = (rate_level ch (idx 0%nat - 1)%Z * level ch idx i)%Qc.
Proof.
  intros N H. induction i as [|i IH]; intros Hi.
  - rewrite (rate_step ch (idx 0%nat - 1) (idx 0%nat)); auto; [|lia|intros; lia]. unfold level. cbn [prodn]. ring.
  - destruct (H i Hi) as (L & B). rewrite (rate_step ch _ _ L B N), IH, level_S by lia. ring.
Qed.

(** * Smoothing *)
Lemma qc_ne n : (1 <= n)%nat -> qc (Z.of_nat n) <> 0%Qc.
Proof. intros H E. destruct n as [|n]; [lia|]. pose proof (qc_S n). pose proof (qc_nonneg n). rewrite H0 in E. qlra. Qed.
Lemma qc_two n : qc (2 * Z.of_nat n) = ((1 + 1) * qc (Z.of_nat n))%Qc.
Proof.
  induction n as [|n IH]; [reflexivity|]. rewrite qc_S. replace (2 * Z.of_nat (S n)) with (Z.of_nat (S (S (n + n)))) by lia. rewrite !qc_S.
  replace (Z.of_nat (n + n)) with (2 * Z.of_nat n) by lia. rewrite IH. ring.
Qed.
Lemma smoothed_ok w f i : (1 <= w)%nat -> (w <= i)%nat ->
  smoothed w f i = Some ((f i + (1 + 1) * sumn (w - 1) (fun j => f (i - 1 - j)%nat) + f (i - w)%nat) / qc (2 * Z.of_nat w))%Qc.
Proof.
  intros Hw Hi. destruct i as [|i]; [lia|]. unfold smoothed, rolling. destruct (Nat.ltb_spec (S (S i)) w); [lia|]. destruct (Nat.ltb_spec (S i) w); [lia|].
  destruct w as [|w]; [lia|]. cbn [cadd]. rewrite cdiv_Some by (intros E; qlra). f_equal.
  rewrite (sumn_S_l w (fun j => f (S i - j)%nat)). change (sumn (S w) (fun j => f (i - j)%nat)) with (sumn w (fun j => f (i - j)%nat) + f (i - w)%nat)%Qc.
  replace (S i - 0)%nat with (S i) by lia. replace (S w - 1)%nat with w by lia. replace (S i - S w)%nat with (i - w)%nat by lia.
  rewrite (sumn_ext w (fun j => f (S i - S j)%nat) (fun j => f (i - j)%nat)) by (intros; f_equal; lia).
  rewrite (sumn_ext w (fun j => f (S i - 1 - j)%nat) (fun j => f (i - j)%nat)) by (intros; f_equal; lia).
  rewrite qc_two. pose proof (qc_ne (S w) ltac:(lia)) as Q. set (q := qc _) in *. clearbody q. field. repeat split; auto; intros E; apply (f_equal this) in E; discriminate E.
Qed.
Lemma smoothed_time w R T c f i : (1 <= w)%nat -> (w <= i)%nat -> c <> 0%Qc -> (forall j, (j <= i)%nat -> R (T + Z.of_nat j) = (c * f j)%Qc) ->
  smoothed w f i = Some (earning w R (T + Z.of_nat i) / c)%Qc.
Proof.
  intros Hw Hi Hc H. rewrite smoothed_ok by auto. f_equal. unfold earning.
  rewrite (sumn_ext (w - 1) (fun j => R (T + Z.of_nat i - 1 - Z.of_nat j)) (fun j => (c * f (i - 1 - j)%nat)%Qc)).
  2:{ intros j Hj. rewrite <- H by lia. f_equal. lia. }
  rewrite sumn_scal. replace (T + Z.of_nat i - Z.of_nat w) with (T + Z.of_nat (i - w)) by lia. rewrite !H by lia.
  pose proof (qc_ne w Hw). rewrite qc_two. set (q := qc _) in *. clearbody q. field. repeat split; auto; intros E; apply (f_equal this) in E; discriminate E.
Qed.

(** * Grouping *)
Lemma runs_cons x l : exists r, runs (x :: l) = x :: r /\ (forall z, In z r -> In z l) /\ (forall z, In z l -> z = x \/ In z r).
Proof.
  revert x. induction l as [|y l IH]; intros x; [exists []; repeat split; intros ? []|].
  destruct (IH y) as (r & Er & A & B). change (runs (x :: y :: l)) with (if x =? y then runs (y :: l) else x :: runs (y :: l)). destruct (Z.eqb_spec x y) as [->|Hne].
  - exists r. split; auto. split; [intros z Hz; right; auto|]. intros z [->|Hz]; auto.
  - exists (runs (y :: l)). split; auto. rewrite Er. split; [intros z [->|Hz]; [left; auto|right; auto]|]. intros z [->|Hz]; [right; left; auto|]. destruct (B z Hz) as [->|]; right; [left; auto|right; auto].
Qed.
Lemma runs_in l z : In z (runs l) <-> In z l.
Proof.
  destruct l as [|x l]; [tauto|]. destruct (runs_cons x l) as (r & -> & A & B). cbn. split; [intros [->|H]; auto|]. intros [->|H]; auto. destruct (B z H); auto.
Qed.
Lemma runs_sorted l : StronglySorted Z.le l -> StronglySorted Z.lt (runs l).
Proof.
  induction l as [|x l IH]; intros S; [constructor|]. inversion S as [|? ? S1 F]; subst. destruct l as [|y l]; [constructor; constructor|].
  change (runs (x :: y :: l)) with (if x =? y then runs (y :: l) else x :: runs (y :: l)). destruct (Z.eqb_spec x y) as [->|Hne]; [auto|].
  constructor; auto. apply Forall_forall. intros z Hz. apply (proj1 (runs_in (y :: l) z)) in Hz. inversion S1 as [|? ? _ F1]; subst. inversion F; subst.
  destruct Hz as [->|Hz]; [lia|]. rewrite Forall_forall in F1. specialize (F1 z Hz). lia.
Qed.
Lemma zrange_in lo hi z : In z (zrange lo hi) <-> lo <= z <= hi.
Proof.
  unfold zrange. rewrite in_map_iff. split.
  - intros (k & <- & Hk). apply in_seq in Hk. lia.
  - intros H. exists (Z.to_nat (z - lo)). split; [lia|]. apply in_seq. lia.
Qed.
Lemma zrange_sorted lo hi : StronglySorted Z.lt (zrange lo hi).
Proof.
  unfold zrange. generalize (Z.to_nat (hi - lo + 1)) as n. generalize 0%nat as s. intros s n. revert s. induction n as [|n IH]; intros s; constructor; auto.
  apply Forall_forall. intros z Hz. apply in_map_iff in Hz. destruct Hz as (k & <- & Hk). apply in_seq in Hk. lia.
Qed.
Lemma map_seq_mono (f : nat -> Z) k m : (forall i, (k <= i)%nat -> (S i < k + m)%nat -> f i <= f (S i)) -> StronglySorted Z.le (map f (seq k m)).
Proof.
  revert k. induction m as [|m IH]; intros k H; [constructor|]. cbn [seq map]. constructor; [apply IH; intros; apply H; lia|].
  apply Forall_forall. intros z Hz. apply in_map_iff in Hz. destruct Hz as (j & <- & Hj). apply in_seq in Hj.
  assert (G : forall d, (S k + d < k + S m)%nat -> f k <= f (S k + d)%nat).
  { induction d as [|d IHd]; intros Hd; [rewrite Nat.add_0_r; apply H; lia|]. etransitivity; [apply IHd; lia|]. replace (S k + S d)%nat with (S (S k + d)) by lia. apply H; lia. }
  replace j with (S k + (j - S k))%nat by lia. apply G. lia.
Qed.
Lemma filter_block (P : nat -> bool) k m lo len : (k <= lo)%nat -> (lo + len <= k + m)%nat ->
  (forall i, (k <= i < k + m)%nat -> P i = true <-> (lo <= i < lo + len)%nat) -> filter P (seq k m) = seq lo len.
Proof.
  intros H1 H2 H. assert (SS : forall s n, StronglySorted lt (seq s n)).
  { intros s n. revert s. induction n as [|n IH]; intros s; constructor; auto. apply Forall_forall. intros x Hx. apply in_seq in Hx. lia. }
  apply sorted_lt_ext; auto.
  - clear H1 H2 H. generalize (SS k m). induction 1 as [|a l Hs IH Hf]; cbn [filter]; [constructor|]. destruct (P a); auto. constructor; auto.
    apply Forall_forall. intros x Hx. apply filter_In in Hx. rewrite Forall_forall in Hf. apply Hf. tauto.
  - intros x. rewrite filter_In, !in_seq. split; [intros (A & B); apply H in B; lia|]. intros A. split; [lia|]. apply H; lia.
Qed.
Lemma mean_block f v lo len : (1 <= len)%nat -> (forall k, (k < len)%nat -> f (lo + k)%nat = Some (v k)) ->
  mean_known (map f (seq lo len)) = Some (sumn len v / qc (Z.of_nat len))%Qc.
Proof.
  intros Hl H. assert (E : known_of (map f (seq lo len)) = map v (seq 0 len)).
  { clear Hl. assert (G : forall n s t, (forall k, (k < n)%nat -> f (s + k)%nat = Some (v (t + k)%nat)) -> known_of (map f (seq s n)) = map v (seq t n)).
    { induction n as [|n IH]; intros s t Hn; auto. cbn [seq map]. unfold known_of. cbn [flat_map]. pose proof (Hn 0%nat ltac:(lia)) as H0. rewrite !Nat.add_0_r in H0. rewrite H0. cbn [app]. f_equal.
      apply IH. intros k Hk. replace (S s + k)%nat with (s + S k)%nat by lia. replace (S t + k)%nat with (t + S k)%nat by lia. apply Hn. lia. }
    apply G. intros k Hk. rewrite H by auto. reflexivity. }
  unfold mean_known. rewrite E. destruct (map v (seq 0 len)) as [|x l] eqn:El; [destruct len; [lia|discriminate]|]. rewrite <- El, map_length, seq_length, qsum_map_seq. reflexivity.
Qed.

(** * The factors of a series on a regular time axis *)
Lemma Qc_pos_ne (x : Qc) : (0 < x)%Qc -> x <> 0%Qc.
Proof. intros H E. subst. qlra. Qed.
Lemma Qcdiv_pos (x y : Qc) : (0 < x)%Qc -> (0 < y)%Qc -> (0 < x / y)%Qc.
Proof.
  intros Hx Hy. pose proof (Qc_pos_ne y Hy) as Ny. assert (E : (x / y * y = x)%Qc) by (field; auto). revert E. generalize (x / y)%Qc. intros z E. qnra.
Qed.
Lemma qc_pos n : (1 <= n)%nat -> (0 < qc (Z.of_nat n))%Qc.
Proof. intros H. destruct n as [|n]; [lia|]. rewrite qc_S. pose proof (qc_nonneg n). qlra. Qed.
Lemma earning_pos w R m : (1 <= w)%nat -> (forall x, (0 < R x)%Qc) -> (0 < earning w R m)%Qc.
Proof.
  intros Hw H. unfold earning. apply Qcdiv_pos.
  - assert (0 <= sumn (w - 1) (fun j => R (m - 1 - Z.of_nat j)%Z))%Qc by (apply sumn_nonneg; intros; apply Qclt_le_weak, H).
    pose proof (H m). pose proof (H (m - Z.of_nat w)). revert H0 H1 H2. generalize (sumn (w - 1) (fun j => R (m - 1 - Z.of_nat j)%Z)) (R m) (R (m - Z.of_nat w)). intros. qlra.
  - replace (2 * Z.of_nat w) with (Z.of_nat (2 * w)) by lia. apply qc_pos. lia.
Qed.
Lemma average_pos n f s : (1 <= n)%nat -> (forall x, (0 < f x)%Qc) -> (0 < average n f s)%Qc.
Proof.
  intros Hn H. unfold average. apply Qcdiv_pos; [|apply qc_pos; auto]. apply (sumn_pos _ _ 0%nat); auto. intros; apply Qclt_le_weak, H.
Qed.
Lemma average_1 f s : average 1 f s = f s.
Proof.
  unfold average. cbn [sumn]. change (Z.of_nat 0) with 0. rewrite Z.add_0_r. assert (E : qc (Z.of_nat 1) = 1%Qc) by (apply Qc_is_canon; reflexivity). rewrite E.
  unfold Qcdiv. assert (I : (/ 1 = 1)%Qc) by (apply Qc_is_canon; reflexivity). rewrite I. ring.
Qed.
Lemma rows_ok (per : nat -> Z) (f : nat -> cell) (E R : Z -> Qc) T c crl k n p0 p1 (start : Z -> Z) (len : Z -> nat) :
  c <> 0%Qc -> (forall x, (0 < E x)%Qc) -> (crl * c)%Qc = R (T + Z.of_nat (n - 1)) ->
  (forall i, (k <= i < n)%nat -> f i = Some (E (T + Z.of_nat i)%Z / c)%Qc) ->
  (forall i, (k <= i)%nat -> (S i < n)%nat -> per i <= per (S i)) ->
  (forall i, (k <= i < n)%nat -> p0 <= per i <= p1) ->
  (forall p, p0 <= p <= p1 -> T + Z.of_nat k <= start p /\ start p + Z.of_nat (len p) <= T + Z.of_nat n /\ (1 <= len p)%nat) ->
  (forall p i, p0 <= p <= p1 -> (k <= i < n)%nat -> per i = p <-> start p <= T + Z.of_nat i < start p + Z.of_nat (len p)) ->
  map (fun r => (fst r, cdiv (Some crl) (snd r))) (period_means per f k n) =
  map (fun p => (p, Some (R (T + Z.of_nat (n - 1))%Z / average (len p) E (start p))%Qc)) (zrange p0 p1).
Proof.
  intros Hc HE Hcrl Hf Hm Hp Hs Hi. unfold period_means.
  assert (Er : runs (map per (seq k (n - k))) = zrange p0 p1).
  { apply sorted_Z_ext; [apply runs_sorted, map_seq_mono; intros; apply Hm; lia|apply zrange_sorted|].
    intros z. rewrite runs_in, zrange_in, in_map_iff. split.
    - intros (i & <- & H). apply in_seq in H. apply Hp. lia.
    - intros H. destruct (Hs z H) as (A & B & L). exists (Z.to_nat (start z - T)). split; [apply Hi; lia|]. apply in_seq. lia. }
  rewrite Er, map_map. apply map_ext_in. intros p H. apply zrange_in in H. cbn [fst snd]. f_equal. destruct (Hs p H) as (A & B & L).
  assert (Ef : filter (fun i => per i =? p) (seq k (n - k)) = seq (Z.to_nat (start p - T)) (len p)).
  { apply filter_block; [lia|lia|]. intros i Hk. rewrite Z.eqb_eq, (Hi p i H) by lia. lia. }
  rewrite Ef, (mean_block f (fun j => E (start p + Z.of_nat j)%Z / c)%Qc); auto.
  2:{ intros j Hj. rewrite Hf by lia. do 3 f_equal. lia. }
  assert (P : (0 < average (len p) E (start p))%Qc) by (apply average_pos; auto). pose proof (Qc_pos_ne _ P) as NP.
  assert (Ea : (sumn (len p) (fun j => E (start p + Z.of_nat j)%Z / c) / qc (Z.of_nat (len p)) = average (len p) E (start p) / c)%Qc).
  { unfold average, Qcdiv. rewrite (sumn_scal_r _ (/ c)%Qc). ring. }
  rewrite Ea. rewrite cdiv_Some.
  - f_equal. rewrite <- Hcrl. field. auto.
  - intros Z0. apply NP. rewrite <- (Qcmult_0_l c). rewrite <- Z0. field. auto.
Qed.
Lemma nth_rows {A} (l : list A) d (f : nat -> A -> A) : (forall i, (i < List.length l)%nat -> f i (nth i l d) = nth i l d) -> map (fun i => f i (nth i l d)) (seq 0 (List.length l)) = l.
Proof.
  intros H. apply (nth_ext _ _ d d); [rewrite map_length, seq_length; auto|]. intros i Hi. rewrite map_length, seq_length in Hi.
  rewrite (nth_indep _ d (f 0%nat (nth 0 l d))) by (rewrite map_length, seq_length; auto).
  rewrite (map_nth (fun i => f i (nth i l d)) (seq 0 (List.length l)) 0%nat i), seq_nth by auto. cbn [plus]. apply H. auto.
Qed.
Lemma distinct_ok l : NoDup l -> distinct_dates l = true.
Proof.
  induction 1 as [|x l Hx _ IH]; auto. cbn [distinct_dates]. rewrite IH, andb_true_r. apply negb_true_iff. destruct (existsb (Z.eqb x) l) eqn:E; auto.
  apply existsb_exists in E. destruct E as (y & Hy & Ey). apply Z.eqb_eq in Ey. subst. contradiction.
Qed.

(** * By month *)
Lemma index_months a b : a <= b -> Z.of_nat (index_len ByMonth a b) = b - a + 13.
Proof. intros H. unfold index_len. lia. Qed.
Lemma month_levels ch a b : a <= b -> sound_history ch -> on_month_starts ch ->
  let c := rate_level ch (first_day (a - 12) - 1) in
  (0 < c)%Qc /\ forall i, (i < index_len ByMonth a b)%nat -> month_level ch (a - 12 + Z.of_nat i) = (c * level ch (index_at ByMonth a) i)%Qc.
Proof.
  intros Hab (N & P) M c. split; [apply rate_pos; auto|]. intros i Hi. unfold month_level, c.
  pose proof (level_rate ch (index_at ByMonth a) (index_len ByMonth a b) N) as L. cbn [index_at] in L. rewrite Z.add_0_r in L. rewrite L; auto.
  intros j Hj. cbn [index_at]. split; [apply first_day_lt; lia|]. intros x Hx (A & B). destruct (M x Hx) as (m & E). rewrite E in A, B. apply first_day_inv in A. apply first_day_inv in B. lia.
Qed.
Definition month_series (vertical : bool) (R : Z -> Qc) : Z -> Qc := if vertical then R else earning 12 R.
Lemma month_cells ch a b v : a <= b -> sound_history ch -> on_month_starts ch ->
  exists c, (0 < c)%Qc /\ (level ch (index_at ByMonth a) (index_len ByMonth a b - 1) * c = month_level ch b)%Qc /\
    forall i, (12 <= i < index_len ByMonth a b)%nat ->
      (if v : bool then fun i => Some (level ch (index_at ByMonth a) i) else smoothed 12 (level ch (index_at ByMonth a))) i = Some (month_series v (month_level ch) (a - 12 + Z.of_nat i)%Z / c)%Qc.
Proof.
  intros Hab SH M. destruct (month_levels ch a b Hab SH M) as (Pc & L). pose proof (index_months a b Hab) as Ln. exists (rate_level ch (first_day (a - 12) - 1)). set (c := rate_level _ _) in *.
  split; auto. pose proof (Qc_pos_ne _ Pc) as Nc. split.
  - rewrite Qcmult_comm, <- L by lia. f_equal. lia.
  - intros i Hi. destruct v; cbn [month_series].
    + f_equal. rewrite L by lia. field. auto.
    + apply smoothed_time; auto; try lia. intros j Hj. apply L. lia.
Qed.
Lemma olf_months g ch a b v p0 p1 (start : Z -> Z) (len : Z -> nat) per :
  a <= b -> sound_history ch -> on_month_starts ch -> (g = GY /\ per = (fun m => m / 12) \/ g = GM /\ per = (fun m => m)) ->
  (forall m, a <= m <= b -> p0 <= per m <= p1) ->
  (forall p, p0 <= p <= p1 -> a <= start p /\ start p + Z.of_nat (len p) <= b + 1 /\ (1 <= len p)%nat) ->
  (forall p m, p0 <= p <= p1 -> a <= m <= b -> per m = p <-> start p <= m < start p + Z.of_nat (len p)) ->
  parallelogram_olf ch a b g ByMonth v = Ok (map (fun p => (p, Some (month_level ch b / average (len p) (month_series v (month_level ch)) (start p))%Qc)) (zrange p0 p1)).
Proof.
  intros Hab SH M G Hp Hs Hi. unfold parallelogram_olf. rewrite distinct_ok by apply SH. cbn [negb].
  pose proof (index_months a b Hab) as Ln. destruct (month_cells ch a b v Hab SH M) as (c & Pc & Ec & Hc).
  set (lev := level ch (index_at ByMonth a)) in *. set (n := index_len ByMonth a b) in *.
  set (per' := fun i => match g with GY => year_of_day (index_at ByMonth a i) | _ => month_of_day (index_at ByMonth a i) end).
  assert (Ep : forall i, per' i = per (a - 12 + Z.of_nat i)).
  { intros i. unfold per'. cbn [index_at]. destruct G as [(-> & ->)|(-> & ->)]; [apply year_of_month|apply month_of_first]. }
  assert (Er : map (fun r => (fst r, cdiv (Some (lev (n - 1)%nat)) (snd r))) (period_means per' (if v then fun i => Some (lev i) else smoothed 12 lev) 12 n) =
     map (fun p => (p, Some (month_level ch b / average (len p) (month_series v (month_level ch)) (start p))%Qc)) (zrange p0 p1)).
  { rewrite (rows_ok per' _ (month_series v (month_level ch)) (month_level ch) (a - 12) c (lev (n - 1)%nat) 12 n p0 p1 start len).
    - replace (a - 12 + Z.of_nat (n - 1)) with b by lia. reflexivity.
    - apply Qc_pos_ne; auto.
    - intros x. assert (forall y, (0 < month_level ch y)%Qc) by (intros; apply rate_pos, SH). destruct v; cbn [month_series]; auto. apply earning_pos; auto. lia.
    - replace (a - 12 + Z.of_nat (n - 1)) with b by lia. auto.
    - intros i H. apply Hc. lia.
    - intros i H1 H2. rewrite !Ep. destruct G as [(_ & ->)|(_ & ->)]; [apply Z.div_le_mono; lia|lia].
    - intros i H. rewrite Ep. apply Hp. lia.
    - intros p H. destruct (Hs p H) as (A & B & D). lia.
    - intros p i H1 H2. rewrite Ep. apply Hi; auto. lia. }
  match type of Er with ?F = _ => transitivity (@Ok (list (Z * cell)) (map (fun i => (fst (nth i F (0, None)), snd (nth i F (0, None)))) (seq 0 (List.length F)))) end.
  - destruct G as [(-> & _)|(-> & _)]; reflexivity.
  - rewrite Er. f_equal. apply (nth_rows _ (0, None) (fun i r => (fst r, snd r))). intros i Hl. destruct (nth i _ _); reflexivity.
Qed.
Lemma years_by_month ch a b v : sound_history ch -> on_month_starts ch -> whole_years a b ->
  parallelogram_olf ch a b GY ByMonth v =
    Ok (map (fun p => (p, Some (month_level ch b / average 12 (if v then month_level ch else earning 12 (month_level ch)) (12 * p)%Z)%Qc)) (zrange (a / 12) (b / 12))).
Proof.
  intros SH M (Ha & Hb & Hab). apply (olf_months GY ch a b v (a / 12) (b / 12) (fun p => 12 * p) (fun _ => 12%nat) (fun m => m / 12)); auto.
  - intros m H. split; apply Z.div_le_mono; lia.
  - intros p H. split; [|split; [|lia]]; Z.to_euclidean_division_equations; lia.
  - intros p m H1 H2. split; intros H; Z.to_euclidean_division_equations; lia.
Qed.
Lemma months_by_month ch a b v : sound_history ch -> on_month_starts ch -> a <= b ->
  parallelogram_olf ch a b GM ByMonth v =
    Ok (map (fun m => (m, Some (month_level ch b / (if v then month_level ch m else earning 12 (month_level ch) m))%Qc)) (zrange a b)).
Proof.
  intros SH M Hab. rewrite (olf_months GM ch a b v a b (fun p => p) (fun _ => 1%nat) (fun m => m)); auto; try (intros; lia).
  f_equal. apply map_ext. intros m. do 3 f_equal. rewrite average_1. destruct v; reflexivity.
Qed.
