(** Specification of regression lines and fitted tails. *)
From Verif Require Export SpecMack Curve.
Local Open Scope R_scope.

(** Sum of the squared distances of the points [(x k, y k)] marked [use] from the line with slope [s] and intercept [b]. *)
Definition sq_dist (n : nat) (use : nat -> bool) (x y : nat -> R) (s b : R) : R :=
  rsumn n (fun k => if use k then (y k - (s * x k + b)) ^ 2 else 0).
(** The line of least squares. *)
Definition best_line (n : nat) (use : nat -> bool) (x y : nat -> R) (s b : R) : Prop :=
  forall s' b', sq_dist n use x y s b <= sq_dist n use x y s' b' /\ (sq_dist n use x y s' b' = sq_dist n use x y s b -> s' = s /\ b' = b).
(** At least two points, not on a vertical line. *)
Definition two_points (n : nat) (use : nat -> bool) (x : nat -> R) : Prop :=
  exists j k, (j < n)%nat /\ (k < n)%nat /\ use j = true /\ use k = true /\ x j <> x k.
Definition is_known (y : nat -> option R) (k : nat) : bool := match y k with Some _ => true | None => false end.
(** The number of a development period, from 1. *)
Definition period_no (k : nat) : R := INR (S k).

(** * Fitted tails *)
(** The age at which the factor of position [d] starts when the first age is one period. *)
Definition factor_age (g : grain) (d : nat) : Z := (grain_months g * (Z.of_nat d + 1))%Z.
(** The factors named by the fit period: from the first age up to the second, or those marked. *)
Definition marked (t : tri) (f : fit_period) (d : nat) : bool :=
  let age := nth d (dlist (ddims t)) 0%Z in
  match f with
  | FSpan a b => match a with Some x => (x <=? age)%Z | None => true end && match b with Some x => (age <? x)%Z | None => true end
  | FList l => nth d l false
  end.
(** The ages are one, two, three, ... periods, and so are the limits of a fit period; a list has one mark for each factor. *)
Definition whole (g : grain) (a : option Z) : Prop := match a with Some x => exists j : nat, x = factor_age g j | None => True end.
Definition period_ok (t : tri) (f : fit_period) : Prop :=
  match f with
  | FSpan a b => whole (dgrain t) a /\ whole (dgrain t) b /\ forall d, (d < ax3 (values t) - 1)%nat -> nth d (dlist (ddims t)) 0%Z = factor_age (dgrain t) d
  | FList l => List.length l = (ax3 (values t) - 1)%nat
  end.
(** Only factors above 1 and above the lower limit, and not above the upper limit if that exceeds the lower one, are fitted. *)
Definition fit_floor (p : curve_params) : Qc := match cp_low p with Some q => if Qc_leb 1%Qc q then q else 1%Qc | None => 1%Qc end.
Definition in_limits (p : curve_params) (q : Qc) : bool :=
  Qc_ltb (fit_floor p) q && match cp_high p with Some h => if Qc_ltb (fit_floor p) h then Qc_leb q h else true | None => true end.
(** With errors = 'raise' the limits are not used. *)
Definition takes_part (p : curve_params) (t l : tri) (i c d : nat) : bool :=
  marked t (cp_fit p) d && (cp_raise p || in_limits p (nz (cel l i c 0 d))).
Definition curve_x (c : curve) (d : nat) : R := match c with Exponential => period_no d | InversePower => ln (period_no d) end.
(** The excess over 1 of the factor at position [d]: exponential or power decay. *)
Definition curve_value (c : curve) (s b : R) (d : nat) : R :=
  match c with Exponential => exp (s * period_no d + b) | InversePower => exp b * Rpower (period_no d) s end.
Definition excess (l : tri) (i c d : nat) : R := rv (nz (cel l i c 0 d)) - 1.
Definition starts_at (a : option Z) (t : tri) (k : nat) : Prop :=
  match a with
  | None => k = (ax3 (values t) - 1)%nat
  | Some a => a <> 0%Z /\ (k < ax3 (values t))%nat /\ (a <= nth k (dlist (ddims t)) 0%Z)%Z /\ forall j, (j < k)%nat -> (nth j (dlist (ddims t)) 0%Z < a)%Z
  end.
(** The factors to be fitted are known; with errors = 'raise' none is below 1 and those fitted are above 1. *)
Record curve_input (p : curve_params) (t l : tri) (i c : nat) : Prop := {
  fi_known : forall d, (d < ax3 (values t) - 1)%nat -> marked t (cp_fit p) d = true -> cel l i c 0 d <> None;
  fi_above : cp_raise p = true -> forall d, (d < ax3 (values t) - 1)%nat -> marked t (cp_fit p) d = true -> (1 < nz (cel l i c 0 d))%Qc;
  fi_two : two_points (ax3 (values t) - 1) (takes_part p t l i c) (curve_x (cp_curve p)) }.
Definition none_below_one (p : curve_params) (t l : tri) : Prop :=
  cp_raise p = true -> forall i c d q, (i < ax0 (values l))%nat -> (c < ax1 (values l))%nat -> (d < ax3 (values t) - 1)%nat -> cel l i c 0 d = Some q -> (1 <= q)%Qc.
(** Same parameters, another projection period. *)
Definition with_years (p : curve_params) (y : nat) : curve_params := CurveParams (cp_curve p) (cp_fit p) (cp_extrap p) (cp_raise p) (cp_attach p) (cp_low p) (cp_high p) y.
(** The tail: the product of all factors from the last age of the triangle on. *)
Definition whole_tail (t : tri) (r : rtri) (i c : nat) : R :=
  rprod_from (ax3 (values t) - 1) (ax3 (values (rt_frame r))) (fun d => nzr (rt_cell r i c 0%nat d)).

(** * Statistics of the tail *)
Definition always (k : nat) : bool := true.
(** At least two factors, all known and above 1. *)
Record above_one (l : tri) (i c : nat) : Prop := {
  ao_two : (2 <= ax3 (values l))%nat;
  ao_all : forall d, (d < ax3 (values l))%nat -> exists q, cel l i c 0 d = Some q /\ (1 < q)%Qc }.
(** At least two deviations, all known and positive. *)
Record deviations (n : nat) (s : rrow) (i c : nat) : Prop := {
  dv_two : (2 <= n)%nat; dv_all : forall d, (d < n)%nat -> exists v, s i c d = Some v /\ 0 < v }.
(** The tail of a row: the product of the last [k] factors. *)
Definition tail_product_of (l : tri) (k i c : nat) : Qc := prodn k (fun j => nz (cel l i c 0 (ax3 (values l) - k + j))).
(** All factors of the last [k] ages are known, in every row and column. *)
Definition tail_known (l : tri) (k : nat) : Prop :=
  forall i c j, (i < ax0 (values l))%nat -> (c < ax1 (values l))%nat -> (j < k)%nat -> cel l i c 0 (ax3 (values l) - k + j) <> None.
Definition all_one (l : tri) (k : nat) : Prop :=
  forall i c, (i < ax0 (values l))%nat -> (c < ax1 (values l))%nat -> tail_product_of l k i c = 1%Qc.
Definition none_under_one (l : tri) (k : nat) : Prop :=
  forall i c, (i < ax0 (values l))%nat -> (c < ax1 (values l))%nat -> (1 <= tail_product_of l k i c)%Qc.
(** The statistic of the tail: [sigma] says which of sigma_ and std_err_. *)
Definition tail_deviation (sigma : bool) : tri -> tri -> tri -> nat -> rrow -> rrow := if sigma then tail_sigma else tail_std_err.
