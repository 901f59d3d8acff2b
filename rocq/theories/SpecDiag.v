(** Specification of the summary of a fitted reserving method. *)
From Verif Require Export SpecFull SpecCorr SpecLabel Diag.
Local Open Scope nat_scope.

(** A cumulative triangle of [n] yearly origins at [n] yearly ages. *)
Record yearly (t : tri) (n : nat) : Prop := {
  ye_wf : wf t; ye_blank : blank_future t; ye_n : 3 <= n; ye_0 : 1 <= ax0 (values t); ye_1 : 1 <= ax1 (values t);
  ye_square : exists o0 a0, square t n o0 a0 12 /\ (1 <= a0)%Z;
  ye_og : ograin t = GY; ye_dg : dgrain t = GY; ye_cum : is_cumulative t = Some true; ye_pat : is_pattern t = false;
  ye_keys : NoDup (kdims t); ye_cols : NoDup (vdims t); ye_end : before_ultimate t }.

(** What a method fitted to it leaves: factors at yearly ages that include those of the triangle, an ultimate for each origin; the
    ages reach no valuation after 2260, and an origin after the first has an expected amount other than 0. *)
Record fitted_yearly (t l ult : tri) (n : nat) : Prop := {
  fy_t : yearly t n; fy_pattern : pattern_for t l; fy_ult : ultimate_frame t ult; fy_ages : even_ages t l; fy_room : projectable t l;
  fy_end : forall ages o a, ddims l = Ages ages -> In o (odims t) -> In a ages -> (o + a - 1 < 12 * 2261)%Z;
  fy_some : exists i c o d, i < ax0 (values t) /\ c < ax1 (values t) /\ 1 <= o < n /\ d < ax3 (values l) /\ (amount ult i c o 0 / to_ultimate l i c d <> 0)%Qc }.

(** The amount expected at an age: the ultimate divided by the factor to ultimate.  The last age is kept. *)
Definition expected_at (l ult : tri) (i c o d : nat) : Qc := (amount ult i c o 0 / to_ultimate l i c (Nat.min d (ax3 (values l) - 1)))%Qc.
(** The latest amount of an origin, and what came in during the last year. *)
Definition latest_amount (t : tri) (n i c o : nat) : Qc := amount t i c o (n - 1 - o).
Definition last_year (t : tri) (n i c o : nat) : Qc := (amount t i c o (n - 1 - o) - (if o + 1 <? n then amount t i c o (n - 2 - o) else 0))%Qc.

(** The entry of a summary for a column, index row and origin of [t]. *)
Definition entry (u t : tri) (model name : string) (i c o : nat) : Qc :=
  amount_at u (nth c (vdims t) EmptyString :: model :: nth i (kdims t) []) name (nth o (odims t) 0%Z) (vdate t).
