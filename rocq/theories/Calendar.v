(** Development lags from dates (core/base.py 260-264).  Definitions only. *)
From Coq Require Import ZArith List Bool.
Import ListNotations.
Local Open Scope Z_scope.

(** The proleptic Gregorian calendar, as used by datetime64.  Month [m] is month
    [m mod 12 + 1] of year [m / 12]. *)
Definition leap_year (y : Z) : bool := (y mod 4 =? 0) && (negb (y mod 100 =? 0) || (y mod 400 =? 0)).
Definition month_days (m : Z) : Z :=
  match m mod 12 with
  | 1 => if leap_year (m / 12) then 29 else 28
  | 3 | 5 | 8 | 10 => 30
  | _ => 31
  end.
Fixpoint days_from (m : Z) (n : nat) : Z := match n with O => 0 | S k => month_days m + days_from (m + 1) k end.
Definition day_ns : Z := 24 * 60 * 60 * 1000000000.
(** The first instant of month [o] and the last nanosecond of month [v] (triangle.py 154-160,
    [to_timestamp] with how "s" and "e"): the time between them. *)
Definition elapsed_ns (o v : Z) : Z := days_from o (Z.to_nat (v + 1 - o)) * day_ns - 1.
(** pandas' [dt.round("1d")]: nearest day, half to even; then [dt.days]. *)
Definition round_days (q : Z) : Z :=
  let f := q / day_ns in let r := q mod day_ns in
  if 2 * r <? day_ns then f else if day_ns <? 2 * r then f + 1 else if Z.even f then f else f + 1.
(** base.py 261-264.  365.25 / 12 is 487 / 16, exactly also as a float.  The division of
    nanoseconds is carried out in floats; [err] is its error in nanoseconds. *)
Definition development_lag (err o v : Z) : Z := round_days (Z.quot (16 * elapsed_ns o v) 487 + err).
