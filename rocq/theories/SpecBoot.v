(** Specification of the bootstrap. *)
From Verif Require Export SpecFull SpecClark Boot SpecDev.
Local Open Scope nat_scope.

(** The triangles considered: one index row and column, cumulative, [n] origins at [n] ages, with an amount in each known cell. *)
Record boot_input (t : tri) (n : nat) : Prop := {
  bn_wf : wf t; bn_blank : blank_future t; bn_n : 2 <= n; bn_0 : ax0 (values t) = 1; bn_1 : ax1 (values t) = 1;
  bn_cum : is_cumulative t = Some true; bn_pat : is_pattern t = false;
  bn_square : exists o0 a0 h, square t n o0 a0 h /\ grain_months (dgrain t) = Z.of_nat h /\
    (o0 + a0 + Z.of_nat (h * (2 * n)) + 12 < 12 * 2261)%Z /\ (a0 + Z.of_nat (h * n) + 12 < 9999)%Z;
  bn_full : forall o d, o + d < n -> amount t 0 0 o d <> 0%Qc }.
Definition default_boot : boot_params := BP (-1) None None None None.
(** The development factors behind the bootstrap: volume weighted at every age, with the estimator's periods, dropped link ratios,
    dropped diagonals, and highest and lowest link ratios; one link ratio is preserved. *)
Definition plain_development (b : boot_params) : dev_params := {|
  p_n_periods := One (bp_n_periods b); p_average := One Volume;
  p_drop := bp_drop b; p_high := bp_high b; p_low := bp_low b; p_preserve := 1; p_drop_val := bp_drop_val b;
  p_above := One None; p_below := One 0%Qc; p_fillna := None |}.

(** The volumes of the link ratios of an age do not cancel out. *)
Definition volumes (t : tri) (n : nat) : Prop := forall d, S d < n ->
  sumn (n - S d) (fun o => amount t 0 0 o d) <> 0%Qc /\ sumn (n - S d) (fun o => amount t 0 0 o (S d)) <> 0%Qc.

Section Expected.
Variables (b : boot_params) (t : tri) (n : nat).
(** The link ratio of origin [o] from age [d] is selected, and the factor of that age: the volume weighted mean of the selected ones. *)
Definition link_used (d o : nat) : bool := selected (plain_development b) t (bp_n_periods b) 0 0 d o.
Definition step_of (d : nat) : Qc := factor (wavg Volume n (link_used d) (fun o => amount t 0 0 o d) (fun o => amount t 0 0 o (S d))).
(** The amount of an origin expected at age [d], from its latest amount back, and the expected increment. *)
Definition latest_of (o : nat) : Qc := amount t 0 0 o (n - 1 - o).
Definition expected_at (o d : nat) : Qc := (latest_of o / prodn (n - 1 - o - d) (fun k => step_of (d + k)))%Qc.
Definition expected_in (o d : nat) : Qc := match d with O => expected_at o 0 | S k => (expected_at o d - expected_at o k)%Qc end.
(** Pearson residual. *)
Definition residual (o d : nat) : R := ((rv (increment_of t 0 0 o d) - rv (expected_in o d)) / sqrt (Rabs (rv (expected_in o d))))%R.
(** The residual of a known cell counts: the link ratio that ends there (at the first age: that starts there) is selected, and the
    increment is not 0. *)
Definition counted (o d : nat) : bool := link_used (d - 1) o && negb (Qc_eqb (increment_of t 0 0 o d) 0).
(** Those that can be drawn: not 0.  Cells by origin, then age. *)
Definition drawn (p : nat * nat) : bool := counted (fst p) (snd p) && if Req_EM_T (residual (fst p) (snd p)) 0 then false else true.
Definition cells_by_origin : list (nat * nat) := flat_map (fun o => map (pair o) (seq 0 (n - o))) (seq 0 n).
Definition raw_residuals : list R := map (fun p => residual (fst p) (snd p)) (filter drawn cells_by_origin).
(** No expected increment is 0. *)
Definition all_expected : Prop := forall o d, o + d < n -> expected_in o d <> 0%Qc.
(** Some residual that counts is not 0. *)
Definition scattered : Prop := exists o d, o + d < n /\ counted o d = true /\ increment_of t 0 0 o d <> expected_in o d.
(** The sum of the residuals that count, squared. *)
Definition squares : R := known_sum n (fun o d => if counted o d then residual o d ^ 2 else 0)%R.
End Expected.

(** Known cells in the order of the design matrix: by age, then origin; and the row of one: a column for each origin and one for each
    age after the first. *)
Definition cells_by_age (n : nat) : list (nat * nat) := flat_map (fun d => map (fun o => (o, d)) (seq 0 (n - d))) (seq 0 n).
Definition indicator (n : nat) (p : nat * nat) : list Qc :=
  map (fun c => if c =? fst p then 1%Qc else 0%Qc) (seq 0 n) ++ map (fun k => if k <? snd p then 1%Qc else 0%Qc) (seq 0 (n - 1)).
Definition dot (row : list Qc) (x : list R) : R := rsuml (map (fun p => (rv (fst p) * snd p)%R) (combine row x)).
