(** Specification of the incremental additive method. *)
From Verif Require Export SpecDev SpecCorr Additive.
Local Open Scope nat_scope.

(** The amount added between two ages; the first age counts from 0. *)
Definition increment (t : tri) (i c o d : nat) : Qc :=
  match d with O => amount t i c o 0 | S k => (amount t i c o (S k) - amount t i c o k)%Qc end.
(** Something happened in every period up to the valuation date. *)
Definition all_increments (t : tri) : Prop :=
  forall i c o d, in_range t i c o d -> ~ future t o d -> increment t i c o d <> 0%Qc.

(** What is used of the power [b ** (m / 12)]. *)
Record power_like (pw : Qc -> Z -> Qc) : Prop := {
  pw_zero : forall b, pw b 0%Z = 1%Qc;
  pw_one : forall m, pw 1%Qc m = 1%Qc;
  pw_inv : forall b m, (0 < b)%Qc -> pw (1 / b)%Qc (- m)%Z = pw b m }.

(** One positive exposure for every origin. *)
Definition exposures (t : tri) (e : arr) (E : nat -> nat -> nat -> Qc) : Prop :=
  ax0 e = ax0 (values t) /\ ax1 e = ax1 (values t) /\ ax2 e = ax2 (values t) /\ ax3 e = 1 /\
  forall i c o, i < ax0 (values t) -> c < ax1 (values t) -> o < ax2 (values t) -> av e i c o 0 = Some (E i c o) /\ (0 < E i c o)%Qc.

(** An increment brought to the level of the valuation date. *)
Definition at_level (pw : Qc -> Z -> Qc) (rate : Qc) (t : tri) (i c o d : nat) : Qc :=
  (increment t i c o d * pw (1 + rate) (vdate t - month_of t o d)%Z)%Qc.
(** The average of [y] per unit of [x] over [k] origins. *)
Definition average_rate (a : average) (k : nat) (x y : nat -> Qc) : Qc :=
  match a with
  | Volume => (sumn k y / sumn k x)%Qc
  | Simple => (sumn k (fun o => y o / x o) / qc (Z.of_nat k))%Qc
  | Regression => (sumn k (fun o => x o * y o) / sumn k (fun o => x o * x o))%Qc
  end.
(** The loss per unit of exposure at an age, on the level of the valuation date: at the [d]-th of
    [n] ages the first [n - d] origins are known. *)
Definition loss_rate (pw : Qc -> Z -> Qc) (rate : Qc) (a : average) (t : tri) (n : nat) (E : nat -> nat -> nat -> Qc) (i c d : nat) : Qc :=
  average_rate a (n - d) (fun o => E i c o) (fun o => at_level pw rate t i c o d).
(** The trend of the amounts to come: the parameter for them; the trend of the past if that is missing or 0. *)
Definition trend_ahead (rate : Qc) (fut : option Qc) : Qc :=
  match fut with Some q => if Qc_eqb q 0%Qc then rate else q | None => rate end.
(** An amount projected from the valuation date with loss rates [z] and no further trend. *)
Definition projected (z : nat -> Qc) (t : tri) (n : nat) (E : nat -> nat -> nat -> Qc) (i c o d : nat) : Qc :=
  (amount t i c o (Nat.min d (n - 1 - o)) + E i c o * sumn (S d) (fun k => if (n <=? o + k)%nat then z k else 0))%Qc.

(** The triangles considered. *)
Record additive_input (t : tri) (n : nat) (e : arr) (E : nat -> nat -> nat -> Qc) (avg : per_age average) : Prop := {
  ai_wf : wf t; ai_blank : blank_future t; ai_pat : is_pattern t = false; ai_cum : is_cumulative t = Some true;
  ai_square : exists o0 a0 h, square t n o0 a0 h; ai_n : 3 <= n;
  ai_0 : 1 <= ax0 (values t); ai_1 : 1 <= ax1 (values t);
  ai_inc : all_increments t; ai_exp : exposures t e E;
  ai_avg : forall d, d < n -> param_at t avg d <> None; ai_fit : fits_ages t avg }.
