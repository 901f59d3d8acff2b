(** Specification of Clark's growth curves and their tails. *)
From Verif Require Export SpecCorr SpecMack Clark.
Local Open Scope R_scope.

(** The growth curves of the documentation: the share of the ultimate amount known at age [x], and none at age 0. *)
Definition growth_curve (g : growth) (om th x : R) : R :=
  match g with
  | Weibull => 1 - exp (- Rpower (x / th) om)
  | _ => Rpower x om / (Rpower x om + Rpower th om)
  end.
Definition known_share (g : growth) (om th x : R) : R := if Rle_dec x 0 then 0 else growth_curve g om th x.
Definition named_growth (g : growth) : Prop := g = LogLogistic \/ g = Weibull.

(** A cumulative triangle with as many origins as ages, spaced by its development period, the first age beyond half of it. *)
Record clark_input (t : tri) (n : nat) : Prop := {
  cl_wf : wf t; cl_blank : blank_future t; cl_plain : is_pattern t = false; cl_cum : is_cumulative t = Some true; cl_n : (2 <= n)%nat;
  cl_square : exists o0 a0 h, square t n o0 a0 h /\ grain_months (dgrain t) = Z.of_nat h /\ (Z.of_nat h < 2 * a0)%Z }.
(** Half a period before the age: the average age of the claims of the origin. *)
Definition average_age (t : tri) (d : nat) : R := IZR (nth d (dlist (ddims t)) 0%Z) - IZR (grain_months (dgrain t)) / 2.
(** The share of the ultimate amount that belongs to the period before age [d]. *)
Definition period_share (g : growth) (t : tri) (om th : R) (d : nat) : R :=
  known_share g om th (average_age t d) - known_share g om th (average_age t d - IZR (grain_months (dgrain t))).
(** The ultimate amount of an origin from its latest amount. *)
Definition grown_ultimate (g : growth) (t : tri) (n : nat) (om th : R) (i c o : nat) : R :=
  rv (amount t i c o (n - 1 - o)) / growth_curve g om th (average_age t (n - 1 - o)).
Definition expected_increment (g : growth) (t : tri) (n : nat) (om th : R) (i c o d : nat) : R := grown_ultimate g t n om th i c o * period_share g t om th d.
(** Expected from an exposure and a loss ratio. *)
Definition exposed_increment (g : growth) (t sw : tri) (om th e : R) (i c o d : nat) : R := rv (amount sw i c o 0) * e * period_share g t om th d.
(** The known cells less the parameters. *)
Definition free_cells_of (n : nat) (weights : bool) : R := INR (n * (n + 1)) / 2 - 2 - (if weights then 1 else INR n).
Definition increment_of (t : tri) (i c o d : nat) : Qc := match d with O => amount t i c o 0 | S k => (amount t i c o d - amount t i c o k)%Qc end.

(** Sums over the known cells. *)
Definition known_sum (n : nat) (f : nat -> nat -> R) : R := rsumn n (fun o => rsumn (n - o) (f o)).
(** Minus the log-likelihood of Poisson increments (Clark 2003) with the expected increments [f]. *)
Definition poisson_loss (n : nat) (x f : nat -> nat -> R) : R := - known_sum n (fun o d => x o d * ln (f o d) - f o d).
(** [om] and [th] are the best of all parameters. *)
Definition best_growth (loss : R -> R -> result R) (om th : R) : Prop :=
  exists v, loss om th = Ok v /\ forall om' th', 0 < om' -> 0 < th' -> exists v', loss om' th' = Ok v' /\ v <= v'.
(** [u] holds the amounts of [t] in another currency. *)
Definition in_currency (t u : tri) (k : Qc) : Prop :=
  ddims u = ddims t /\ dgrain u = dgrain t /\ ax0 (values u) = ax0 (values t) /\ ax1 (values u) = ax1 (values t) /\ forall i c o d, amount u i c o d = (k * amount t i c o d)%Qc.
(** No known increment is 0. *)
Definition moving (t : tri) (n i c : nat) : Prop := forall o d, (o + d < n)%nat -> increment_of t i c o d <> 0%Qc.
(** The latest amounts are positive. *)
Definition positive_latest (t : tri) (n i c : nat) : Prop := forall o, (o < n)%nat -> (0 < amount t i c o (n - 1 - o))%Qc.
(** Exposures by origin. *)
Definition exposure_by_origin (sw : tri) (n i c : nat) : Prop := forall o, (o < n)%nat -> exists q, cel sw i c o 0 = Some q /\ (0 < q)%Qc.

(** ** Tails *)
(** Factors for all ages but the last. *)
Record clark_factors (t l : tri) (n : nat) : Prop := { cf_d : ddims l = dmap (firstn (n - 1)) (ddims t); cf_3 : ax3 (values l) = (n - 1)%nat }.
(** The ages of the triangle continued; the average age of the claims. *)
Definition projected_age (t : tri) (d : nat) : Z := (nth 0 (dlist (ddims t)) 0 + Z.of_nat d * grain_months (dgrain t))%Z.
Definition projected_average (t : tri) (d : nat) : R := IZR (projected_age t d) - IZR (grain_months (dgrain t)) / 2.
(** How many ages a tail has for [years] of projection. *)
Definition tail_length (t : tri) (n years : nat) : nat := (n + periods_per_year (dgrain t) * years)%nat.
(** [k] ages are before the attachment age; by default it is the last but one age of the triangle. *)
Definition attached (t : tri) (n years : nat) (aa : option Z) (k : nat) : Prop :=
  match aa with
  | None => S (S k) = n
  | Some a => a <> 0%Z /\ (k < tail_length t n years)%nat /\ (forall d, (d < k)%nat -> projected_age t d < a)%Z /\ (a <= projected_age t k)%Z
  end.
