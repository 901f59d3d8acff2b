(** Specification of on-level factors. *)
From Verif Require Export Spec Olf.
Local Open Scope Z_scope.

(** The rate level in force on day [d]: the product of all changes effective by then. *)
Definition rate_level (ch : history) (d : Z) : Qc := qprod (map (fun c => if fst c <=? d then (1 + snd c)%Qc else 1%Qc) ch).
(** The rate level in force in month [m], for changes on the first of a month. *)
Definition month_level (ch : history) (m : Z) : Qc := rate_level ch (first_day m).

(** Policies run for [w] periods and are written evenly in time.  Of the premium earned in
    period [m], policies written in [m] and in [m - w] earn half a share each, those written
    in between a full share: the average level at which premium is earned in [m]. *)
Definition earning (w : nat) (R : Z -> Qc) (m : Z) : Qc :=
  ((R m + (1 + 1) * sumn (w - 1) (fun j => R (m - 1 - Z.of_nat j)%Z) + R (m - Z.of_nat w)%Z) / qc (2 * Z.of_nat w))%Qc.
Definition average (n : nat) (f : Z -> Qc) (s : Z) : Qc := (sumn n (fun k => f (s + Z.of_nat k)%Z) / qc (Z.of_nat n))%Qc.

Definition zrange (lo hi : Z) : list Z := map (fun k => lo + Z.of_nat k) (seq 0 (Z.to_nat (hi - lo + 1))).

(** Distinct dates; no change of -100 percent or less. *)
Definition sound_history (ch : history) : Prop := NoDup (map fst ch) /\ forall c, In c ch -> (0 < 1 + snd c)%Qc.
Definition on_month_starts (ch : history) : Prop := forall c, In c ch -> exists m, fst c = first_day m.
(** Whole calendar years. *)
Definition whole_years (a b : Z) : Prop := a mod 12 = 0 /\ b mod 12 = 11 /\ a <= b.
(** Days of year [p]. *)
Definition year_days (p : Z) : nat := if leap_year p then 366%nat else 365%nat.

(** The average level of year [p] by days; [first] is the first year asked for.  Policies run
    for as many days as the year has.  In a leap year asked for first, the 1st of January is
    not counted. *)
Definition day_series (vertical : bool) (w : nat) (R : Z -> Qc) : Z -> Qc := if vertical then R else earning w R.
Definition day_average (vertical : bool) (R : Z -> Qc) (first p : Z) : Qc :=
  if leap_year p then
    if p =? first then average 365 (day_series vertical 366 R) (year_start p + 1) else average 366 (day_series vertical 366 R) (year_start p)
  else average 365 (day_series vertical 365 R) (year_start p).

(** A history without the condition on dates. *)
Definition positive_changes (ch : history) : Prop := forall c, In c ch -> (0 < 1 + snd c)%Qc.

(** The share of the premium of year [q] that policies written from a change on carry: policies
    run for [w] periods, a year has [w] periods, and the change is [k] periods after the start
    of year [p].  In the year of the change it is the triangle below the parallelogram line. *)
Definition changed_share (w k p q : Z) : Qc :=
  if q <? p then 0%Qc else if q =? p then (qc ((w - k) * (w - k)) / qc (2 * w * w))%Qc
  else if q =? p + 1 then (1 - qc (k * k) / qc (2 * w * w))%Qc else 1%Qc.
(** With a vertical line, premium is charged at the level of its own period. *)
Definition changed_part (w k p q : Z) : Qc :=
  if q <? p then 0%Qc else if q =? p then (qc (w - k) / qc w)%Qc else 1%Qc.

(** [u] has the labels of [t], a single column, and for every origin the number [f origin]. *)
Definition on_diagonal (t u : tri) (f : Z -> Qc) : Prop :=
  kdims u = kdims t /\ key_labels u = key_labels t /\ vdims u = vdims t /\ odims u = odims t /\ vdate u = vdate t /\
  ax0 (values u) = ax0 (values t) /\ ax1 (values u) = ax1 (values t) /\ ax2 (values u) = ax2 (values t) /\ ax3 (values u) = 1%nat /\
  forall i c o, (i < ax0 (values t))%nat -> (c < ax1 (values t))%nat -> (o < ax2 (values t))%nat -> cel u i c o 0%nat = Some (f (nth o (odims t) 0)).

(** No change takes effect after the start of the year before [p] and by month [b]. *)
Definition no_change_since (ch : history) (p b : Z) : Prop := forall c, In c ch -> fst c <= first_day (12 * p - 12) \/ first_day b < fst c.
Definition within_a_month (d : Z) : Prop := forall m, d <> first_day m.
