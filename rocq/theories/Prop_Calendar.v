(** Property C45: development ages from dates. *)
From Coq Require Import Lia ZArith List.
From Verif Require Import Calendar P_Calendar Spec.
Import ListNotations.
Local Open Scope Z_scope.

(** C45. The lag between the first instant of month [o] and the last of month [v] is the
    number of months from [o] to [v], both included.  It holds over 1000 years, and datetime64
    with nanoseconds spans 585; floating point errors up to a second do not matter. *)
Theorem C45_months : forall err o v, o <= v -> v - o < 12000 -> Z.abs err <= 1000000000 -> development_lag err o v = v + 1 - o.
Proof. exact lag_months. Qed.
Print Assumptions C45_months.

(** C45. A cell labelled with this age is valued at the month it came from. *)
Theorem C45_valuation : forall t o d err v xs, ddims t = Ages xs -> nth o (odims t) 0 <= v <= vdate t -> v - nth o (odims t) 0 < 9998 ->
  Z.abs err <= 1000000000 -> nth d xs 0 = development_lag err (nth o (odims t) 0) v -> month_of t o d = v.
Proof.
  intros t o d err v xs E H R A L. rewrite lag_months in L by lia. unfold month_of, age_month. rewrite E, L.
  destruct (Z.eqb_spec (v + 1 - nth o (odims t) 0) 9999); lia.
Qed.
Print Assumptions C45_valuation.

(** The calendar: years have 365 or 366 days, 400 years 146097; January 2000 to February 2000
    is two months, 1677 to 2261 is 7020 months. *)
Example C45_example : days_from (12 * 1900) 12 = 365 /\ days_from (12 * 2000) 12 = 366 /\ days_from (12 * 1700) 4800 = 146097 /\
  development_lag 0 (12 * 2000) (12 * 2000 + 1) = 2 /\ development_lag 0 (12 * 2001 + 6) (12 * 2003 + 11) = 30 /\
  development_lag 500 (12 * 1677) (12 * 2261 + 11) = 7020.
Proof. repeat split; vm_compute; reflexivity. Qed.
