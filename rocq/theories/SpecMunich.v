(** Specification of the Munich chain ladder. *)
From Verif Require Export SpecCorr SpecMack Munich.
Local Open Scope R_scope.

(** Every amount up to the valuation date is positive. *)
Definition positive (t : tri) : Prop := forall i c o d, in_range t i c o d -> ~ future t o d -> (0 < amount t i c o d)%Qc.
(** A square triangle of [n] origins and ages, and factors from each age to the next. *)
Record munich_input (t ldf : tri) (n : nat) : Prop := {
  mi_wf : wf t; mi_blank : blank_future t; mi_plain : is_pattern t = false; mi_names : NoDup (vdims t);
  mi_square : exists o0 a0 h, square t n o0 a0 h; mi_pos : positive t; mi_n : (3 <= n)%nat;
  mi_ldf : ax2 (values ldf) = 1%nat /\ S (ax3 (values ldf)) = n }.
(** Columns [p] and [q] are the [v]-th pair of names. *)
Definition pair_at (t : tri) (names : list (string * string)) (v p q : nat) : Prop :=
  exists a b, nth_error names v = Some (a, b) /\ nth_error (vdims t) p = Some a /\ nth_error (vdims t) q = Some b.
Definition in_pair (t : tri) (names : list (string * string)) (c : nat) : Prop :=
  exists v y, pair_at t names v c y \/ pair_at t names v y c.
(** The pairs name columns, each at most once as paid and at most once as incurred; no other column comes before one of them. *)
Record pairs_ok (t : tri) (names : list (string * string)) : Prop := {
  po_some : names <> [];
  po_in : forall a b, In (a, b) names -> In a (vdims t) /\ In b (vdims t);
  po_paid : NoDup (map fst names); po_incurred : NoDup (map snd names);
  po_first : forall c c', in_pair t names c -> (c' < c)%nat -> in_pair t names c' }.

(** The total of a column at age number [d]; at that age [n - d] origins are known. *)
Definition total (t : tri) (n i c d : nat) : R := rsumn (n - d) (fun o => rv (amount t i c o d)).
(** The average ratio of column [b] to column [a]. *)
Definition avg_ratio (t : tri) (n i a b d : nat) : R := total t n i b d / total t n i a d.
(** The ratio of one origin. *)
Definition one_ratio (t : tri) (i a b o d : nat) : R := rv (amount t i b o d) / rv (amount t i a o d).
(** Standard deviation of the ratios around the average ratio, weighted with column [a]. *)
Definition ratio_spread (t : tri) (n i a b d : nat) : R :=
  sqrt (rsumn (n - d) (fun o => rv (amount t i a o d) * (one_ratio t i a b o d - avg_ratio t n i a b d) ^ 2) / INR (n - d - 1)).
(** Standardised residuals of a ratio and of a link ratio. *)
Definition ratio_resid (t : tri) (n i a b : nat) (rho : nat -> R) (o d : nat) : R :=
  (one_ratio t i a b o d - avg_ratio t n i a b d) / rho d * sqrt (rv (amount t i a o d)).
Definition link_resid (t : tri) (i c : nat) (f s : nat -> R) (o d : nat) : R :=
  (rv (SpecCorr.ratio t i c o d) - f d) / s d * sqrt (rv (amount t i c o d)).
(** Sum over the cells that have a next amount and where [use] is not 0. *)
Definition used_sum (n : nat) (use g : nat -> nat -> R) : R :=
  rsumn n (fun o => rsumn n (fun d => if (o + d <? n - 1)%nat then if Req_EM_T (use o d) 0 then 0 else g o d else 0)).
(** [l] is the best slope of a line through 0 of [y] against [x], and the only one. *)
Definition only_best_slope (n : nat) (use x y : nat -> nat -> R) (l : R) : Prop :=
  forall b, b <> l -> used_sum n use (fun o d => (y o d - l * x o d) ^ 2) < used_sum n use (fun o d => (y o d - b * x o d) ^ 2).

(** The parameters of one pair are all there: link ratio factors [f], their deviations [s], the deviations of the ratios [r]. *)
Record given (m : munich) (ldf : tri) (sigma : rrow) (n i v p q : nat) (fp fi sp si rp ri : nat -> R) : Prop := {
  gv_f : forall d, (S d < n)%nat -> r_of (cel ldf i p 0 d) = Some (fp d) /\ r_of (cel ldf i q 0 d) = Some (fi d);
  gv_s : forall d, (S d < n)%nat -> sigma i p d = Some (sp d) /\ sigma i q d = Some (si d) /\ sp d <> 0 /\ si d <> 0;
  gv_r : forall d, (S d < n)%nat -> mu_rhos m i v d = (Some (rp d), Some (ri d)) /\ rp d <> 0 /\ ri d <> 0 }.
(** One step of the Munich chain ladder: the factor is changed by the deviation of the ratio of the other amount to the own one
    from the average ratio [q]. *)
Definition munich_step (f l s r q own other : R) : R := own * (f + l * s / r * (other / own - q)).
