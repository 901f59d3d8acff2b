From Coq Require Import Lia.
From Coq Require Import ZArith List Bool.
From Verif Require Import Calendar.
Local Open Scope Z_scope.

(** Days from the start of year 0 to the start of month [m], in closed form. *)
Definition leaps (y : Z) : Z := (y + 3) / 4 - (y + 99) / 100 + (y + 399) / 400.
Definition cum_days (k : Z) : Z :=
  match k with 0 => 0 | 1 => 31 | 2 => 59 | 3 => 90 | 4 => 120 | 5 => 151 | 6 => 181 | 7 => 212 | 8 => 243 | 9 => 273 | 10 => 304 | _ => 334 end.
Definition day_number (m : Z) : Z :=
  let y := m / 12 in let k := m mod 12 in
  365 * y + leaps y + cum_days k + (if (2 <=? k) && leap_year y then 1 else 0).

Lemma leaps_step y : leaps (y + 1) = leaps y + if leap_year y then 1 else 0.
Proof.
  unfold leaps, leap_year.
  destruct (Z.eqb_spec (y mod 4) 0), (Z.eqb_spec (y mod 100) 0), (Z.eqb_spec (y mod 400) 0); cbn [andb orb negb]; Z.div_mod_to_equations; lia.
Qed.
Lemma month_cases m : exists y k, m = 12 * y + k /\ 0 <= k < 12 /\ m / 12 = y /\ m mod 12 = k.
Proof. exists (m / 12), (m mod 12). repeat split; try apply Z.mod_pos_bound; try lia. apply Z.div_mod; lia. Qed.
Lemma day_number_step m : day_number (m + 1) = day_number m + month_days m.
Proof.
  destruct (month_cases m) as (y & k & E & K & D & M).
  assert (C : k = 11 \/ 0 <= k < 11) by lia. unfold day_number, month_days. rewrite D, M.
  destruct C as [-> | C].
  - assert (D1 : (m + 1) / 12 = y + 1) by (Z.div_mod_to_equations; lia). assert (M1 : (m + 1) mod 12 = 0) by (Z.div_mod_to_equations; lia).
    rewrite D1, M1, leaps_step. cbn [cum_days andb]. change (2 <=? 0) with false. change (2 <=? 11) with true. cbn [andb]. destruct (leap_year y); lia.
  - assert (D1 : (m + 1) / 12 = y) by (Z.div_mod_to_equations; lia). assert (M1 : (m + 1) mod 12 = k + 1) by (Z.div_mod_to_equations; lia).
    rewrite D1, M1.
    assert (Q : k = 0 \/ k = 1 \/ k = 2 \/ k = 3 \/ k = 4 \/ k = 5 \/ k = 6 \/ k = 7 \/ k = 8 \/ k = 9 \/ k = 10) by lia.
    destruct Q as [-> |[-> |[-> |[-> |[-> |[-> |[-> |[-> |[-> |[-> | ->]]]]]]]]]]; cbn [cum_days Z.add Pos.add Pos.succ]; destruct (leap_year y); cbn; lia.
Qed.
Lemma days_from_closed n : forall m, days_from m n = day_number (m + Z.of_nat n) - day_number m.
Proof.
  induction n as [|n IH]; intros m; cbn [days_from]; [rewrite Z.add_0_r; lia|].
  rewrite IH. replace (m + Z.of_nat (S n)) with (m + 1 + Z.of_nat n) by lia. rewrite (day_number_step m). lia.
Qed.

(** The mean month is 487/16 days; the calendar is 3 days short in 400 years. *)
Lemma drift m : -3 * (m / 12) - 1100 <= 25 * (16 * day_number m - 487 * m) <= -3 * (m / 12) + 900.
Proof.
  destruct (month_cases m) as (y & k & E & K & D & M). unfold day_number. rewrite D, M.
  assert (L : 97 * y - 300 <= 400 * leaps y <= 97 * y + 600) by (unfold leaps; Z.div_mod_to_equations; lia).
  set (b := if (2 <=? k) && leap_year y then 1 else 0). 
  assert (B : -30 <= 16 * (cum_days k + b) - 487 * k <= 10).
  { assert (Q : k = 0 \/ k = 1 \/ k = 2 \/ k = 3 \/ k = 4 \/ k = 5 \/ k = 6 \/ k = 7 \/ k = 8 \/ k = 9 \/ k = 10 \/ k = 11) by lia.
    unfold b. destruct (leap_year y); destruct Q as [-> |[-> |[-> |[-> |[-> |[-> |[-> |[-> |[-> |[-> |[-> | ->]]]]]]]]]]]; cbn; lia. }
  fold b. subst m. lia.
Qed.
Lemma days_drift o n : 0 <= Z.of_nat n <= 12000 -> -200 <= 16 * days_from o n - 487 * Z.of_nat n <= 200.
Proof.
  intros H. rewrite days_from_closed. pose proof (drift o). pose proof (drift (o + Z.of_nat n)).
  assert (0 <= (o + Z.of_nat n) / 12 - o / 12 <= 1000) by (Z.div_mod_to_equations; lia). lia.
Qed.

Lemma round_days_near q a : 2 * Z.abs (q - a * day_ns) < day_ns -> round_days q = a.
Proof.
  intros H. unfold round_days. assert (P : 0 < day_ns) by reflexivity. 
  pose proof (Z.div_mod q day_ns ltac:(lia)) as E. pose proof (Z.mod_pos_bound q day_ns P) as B.
  set (f := q / day_ns) in *. set (r := q mod day_ns) in *. clearbody f r. 
  assert (C : f = a /\ 2 * r < day_ns \/ f = a - 1 /\ day_ns < 2 * r).
  { assert (A : f = a \/ f = a - 1).
    { assert (f <= a) by nia. assert (a - 1 <= f) by nia. lia. }
    destruct A as [-> | ->]; [left|right]; split; auto; nia. }
  destruct C as [(-> & C) | (-> & C)].
  - destruct (Z.ltb_spec (2 * r) day_ns); lia.
  - destruct (Z.ltb_spec (2 * r) day_ns); [lia|]. destruct (Z.ltb_spec day_ns (2 * r)); lia.
Qed.

Theorem lag_months err o v : o <= v -> v - o < 12000 -> Z.abs err <= 1000000000 -> development_lag err o v = v + 1 - o.
Proof.
  intros L R E. unfold development_lag, elapsed_ns. apply round_days_near.
  pose proof (days_drift o (Z.to_nat (v + 1 - o)) ltac:(lia)) as D. rewrite Z2Nat.id in D by lia.
  set (d := days_from o (Z.to_nat (v + 1 - o))) in *. set (a := v + 1 - o) in *. 
  assert (P : 0 < 16 * (d * day_ns - 1)). { assert (1 <= d) by lia. change day_ns with 86400000000000. lia. }
  rewrite Z.quot_div_nonneg by lia.
  change day_ns with 86400000000000 in *.
  assert (Q := Z.div_mod (16 * (d * 86400000000000 - 1)) 487 ltac:(lia)). pose proof (Z.mod_pos_bound (16 * (d * 86400000000000 - 1)) 487 ltac:(lia)).
  set (q := 16 * (d * 86400000000000 - 1) / 487) in *. set (r := _ mod 487) in *. clearbody q r. lia.
Qed.
