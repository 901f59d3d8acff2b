(** Property C56: on-level factors. *)
From Coq Require Import Lia.
From Verif Require Import P_Core Ex P_Olf P_Olf2 P_Olf3 P_Olf4 SpecOlf.
Local Open Scope Z_scope.

(** 1 July 2002: +20 percent; 1 January 2003: -5 percent. *)
Definition jul02 : Z := first_day (12 * 2002 + 6).
Definition jan03 : Z := first_day (12 * 2003).
Definition rates : history := [(jul02, Q2Qc (1 # 5)); (jan03, Q2Qc (- 1 # 20))].
Lemma rates_sound : sound_history rates.
Proof.
  split. { change (NoDup [jul02; jan03]). constructor; [|constructor; [intros []|constructor]]. intros [E|[]]. vm_compute in E. discriminate E. }
  intros c [<-|[<-|[]]]; reflexivity.
Qed.
Lemma rates_months : on_month_starts rates.
Proof. intros c [<-|[<-|[]]]; eexists; reflexivity. Qed.

Fixpoint rows_eqb (x y : list (Z * cell)) : bool :=
  match x, y with [], [] => true | (a, p) :: x', (b, q) :: y' => (a =? b) && cell_eqb p q && rows_eqb x' y' | _, _ => false end.
Definition same_rows (x y : result (list (Z * cell))) : bool := match x, y with Ok a, Ok b => rows_eqb a b | _, _ => false end.
Lemma same_rows_ok x y : same_rows x y = true -> x = y.
Proof.
  destruct x as [x|], y as [y|]; try discriminate. cbn. intros H. f_equal. revert y H. induction x as [|[a p] x IH]; intros [|[b q] y] H; try discriminate; auto.
  cbn [rows_eqb] in H. apply andb_prop in H as [H H2]. apply andb_prop in H as [H1 H3]. apply Z.eqb_eq in H1. apply cell_eqb_eq in H3. rewrite (IH y H2). congruence.
Qed.

(** C56. By month, whole years: the factor of a year is the level at the end of the last year
    over the average level of the year. *)
Theorem C56_years_by_month : forall ch a b v, sound_history ch -> on_month_starts ch -> whole_years a b ->
  parallelogram_olf ch a b GY ByMonth v =
    Ok (map (fun p => (p, Some (month_level ch b / average 12 (if v then month_level ch else earning 12 (month_level ch)) (12 * p)%Z)%Qc)) (zrange (a / 12) (b / 12))).
Proof. exact years_by_month. Qed.
Print Assumptions C56_years_by_month.
Example C56_years_hyps : sound_history rates /\ on_month_starts rates /\ whole_years (12 * 2002) (12 * 2004 + 11).
Proof. split; [exact rates_sound|]. split; [exact rates_months|]. split; [reflexivity|split; [reflexivity|lia]]. Qed.
(** C56. By month, monthly origins. *)
Theorem C56_months_by_month : forall ch a b v, sound_history ch -> on_month_starts ch -> a <= b ->
  parallelogram_olf ch a b GM ByMonth v =
    Ok (map (fun m => (m, Some (month_level ch b / (if v then month_level ch m else earning 12 (month_level ch) m))%Qc)) (zrange a b)).
Proof. exact months_by_month. Qed.
Print Assumptions C56_months_by_month.

(** C56. One change, in month [k] of year [p]: the parallelogram areas. *)
Theorem C56_single_change : forall p k r a b v, 0 <= k < 12 -> (0 < 1 + r)%Qc -> whole_years a b -> 12 * p + k <= b ->
  parallelogram_olf [(first_day (12 * p + k), r)] a b GY ByMonth v =
    Ok (map (fun q => (q, Some ((1 + r) / (1 + r * (if v then changed_part 12 k p q else changed_share 12 k p q)))%Qc)) (zrange (a / 12) (b / 12))).
Proof. exact single_change. Qed.
Print Assumptions C56_single_change.
(** +20 percent on 1 July 2002: an eighth of 2002 and seven eighths of 2003 is at the new level. *)
Example C56_single_test :
  parallelogram_olf [(jul02, Q2Qc (1 # 5))] (12 * 2001) (12 * 2004 + 11) GY ByMonth false =
    Ok [(2001, Some (Q2Qc (6 # 5))); (2002, Some (Q2Qc (48 # 41))); (2003, Some (Q2Qc (48 # 47))); (2004, Some (Q2Qc 1))].
Proof. apply same_rows_ok. vm_compute. reflexivity. Qed.

(** C56. No change since the start of the year before: factor 1. *)
Theorem C56_settled : forall ch a b v p, sound_history ch -> on_month_starts ch -> whole_years a b -> a / 12 <= p <= b / 12 -> no_change_since ch p b ->
  exists rows, parallelogram_olf ch a b GY ByMonth v = Ok rows /\ In (p, Some 1%Qc) rows.
Proof. exact settled. Qed.
Print Assumptions C56_settled.
Example C56_settled_hyps : no_change_since rates 2004 (12 * 2004 + 11) /\ 12 * 2002 / 12 <= 2004 <= (12 * 2004 + 11) / 12.
Proof. split; [|vm_compute; split; discriminate]. intros c [<-|[<-|[]]]; left; vm_compute; discriminate. Qed.

(** C56. By day, whole years, when the year before the first one has 365 days. *)
Theorem C56_years_by_day : forall ch p0 p1 v, sound_history ch -> p0 <= p1 -> leap_year (p0 - 1) = false ->
  parallelogram_olf ch (12 * p0) (12 * p1 + 11) GY ByDay v =
    Ok (map (fun p => (p, Some (rate_level ch (year_start (p1 + 1) - 1)%Z / day_average v (rate_level ch) p0 p)%Qc)) (zrange p0 p1)).
Proof. exact years_by_day. Qed.
Print Assumptions C56_years_by_day.
Example C56_days_hyps : sound_history rates /\ leap_year (2002 - 1) = false /\ leap_year 2004 = true.
Proof. split; [exact rates_sound|]. split; reflexivity. Qed.

(** C56. The estimator puts the factors of its origins on the latest diagonal, for every row
    and column; changes on the same date are multiplied. *)
Theorem C56_fit_by_month : forall ch t p0 p1 v, wf t -> even_diag t -> (1 <= ax0 (values t))%nat -> (1 <= ax1 (values t))%nat -> ograin t = GY -> odims t = map (fun p => 12 * p) (zrange p0 p1) ->
  positive_changes ch -> on_month_starts ch ->
  exists u, fit_olf ch t ByMonth v = Ok u /\
    on_diagonal t u (fun o => month_level ch (12 * p1 + 11) / average 12 (if v then month_level ch else earning 12 (month_level ch)) o)%Qc.
Proof. exact fit_by_month. Qed.
Print Assumptions C56_fit_by_month.
Theorem C56_fit_by_day : forall ch t p0 p1 v, wf t -> even_diag t -> (1 <= ax0 (values t))%nat -> (1 <= ax1 (values t))%nat -> ograin t = GY -> odims t = map (fun p => 12 * p) (zrange p0 p1) ->
  positive_changes ch -> leap_year (p0 - 1) = false ->
  exists u, fit_olf ch t ByDay v = Ok u /\
    on_diagonal t u (fun o => rate_level ch (year_start (p1 + 1) - 1)%Z / day_average v (rate_level ch) p0 (o / 12)%Z)%Qc.
Proof. exact fit_by_day. Qed.
Print Assumptions C56_fit_by_day.
Definition premium : tri := tri_of
  [[Some 100; Some 150; Some 175]; [Some 120; Some 180; None]; [Some 90; None; None]]
  [y 2002; y 2003; y 2004] (Ages [12; 24; 36]) (dec 2004) (Some true) false.
Example C56_fit_hyps : wf premium /\ even_diag premium /\ (1 <= ax0 (values premium))%nat /\ (1 <= ax1 (values premium))%nat /\ ograin premium = GY /\
  odims premium = map (fun p => 12 * p) (zrange 2002 2004) /\ positive_changes rates /\ on_month_starts rates /\ leap_year (2002 - 1) = false.
Proof.
  assert (W : wf premium) by (apply wfb_ok; vm_compute; reflexivity). split; [exact W|]. split.
  { apply (regular_even_diag premium (y 2002) 12 12 1 0 W). split; [lia|]. split; [lia|]. split; [reflexivity|]. split; [reflexivity|]. split; [|split].
    - intros k Hk. change (k < 3)%nat in Hk. lia.
    - reflexivity.
    - cbn. lia. }
  do 2 (split; [cbn; lia|]). split; [reflexivity|]. split; [reflexivity|]. split; [exact (proj2 rates_sound)|]. split; [exact rates_months|reflexivity].
Qed.

(** C56 fails: by day, when the first origin follows a leap year, there is one factor too many
    and fitting raises an error. *)
Theorem C56_after_leap_year_refuted : exists ch t, wf t /\ even_diag t /\ ograin t = GY /\ odims t = map (fun p => 12 * p) (zrange 2001 2003) /\ sound_history ch /\ on_month_starts ch /\
  exists e, fit_olf ch t ByDay false = Err e.
Proof.
  exists rates, ex3. split; [exact ex3_wf|]. split; [exact (regular_even_diag ex3 _ _ _ _ _ ex3_wf ex3_regular)|]. split; [reflexivity|]. split; [reflexivity|].
  split; [exact rates_sound|]. split; [exact rates_months|].
  exact (fit_after_leap rates ex3 2001 2003 false ex3_wf (le_n 1) (le_n 1) eq_refl eq_refl (proj2 rates_sound) eq_refl eq_refl).
Qed.
Print Assumptions C56_after_leap_year_refuted.
(** The rows of the function in that case: a row for the leap year before the first year, leap
    years with the factor of the following year, and none for a leap year at the end. *)
Theorem C56_years_after_leap : forall ch p0 p1 v, sound_history ch -> p0 <= p1 -> leap_year (p0 - 1) = true ->
  parallelogram_olf ch (12 * p0) (12 * p1 + 11) GY ByDay v =
    Ok (map (fun p => (p, if leap_year p then if p <? p1 then Some (rate_level ch (year_start (p1 + 1) - 1)%Z / average (year_days (p + 1)) (day_series v 366 (rate_level ch)) (year_start (p + 1)%Z))%Qc else None
                          else Some (rate_level ch (year_start (p1 + 1) - 1)%Z / average 365 (day_series v 365 (rate_level ch)) (year_start p))%Qc)) (zrange (p0 - 1) p1)).
Proof. exact years_after_leap. Qed.
Print Assumptions C56_years_after_leap.
(** C56 fails: by month, a change within a month is ignored. *)
Theorem C56_within_a_month : forall d r ch a b g v, NoDup (map fst ((d, r) :: ch)) -> within_a_month d ->
  parallelogram_olf ((d, r) :: ch) a b g ByMonth v = parallelogram_olf ch a b g ByMonth v.
Proof. exact mid_month_ignored. Qed.
Print Assumptions C56_within_a_month.
Theorem C56_mid_month_refuted : exists d r, (0 < r)%Qc /\ first_day (12 * 2002) < d < first_day (12 * 2003) /\
  forall v, parallelogram_olf [(d, r)] (12 * 2002) (12 * 2003 + 11) GY ByMonth v = Ok [(2002, Some (Q2Qc 1)); (2003, Some (Q2Qc 1))].
Proof.
  exists (jul02 + 14), (Q2Qc (1 # 5)). split; [reflexivity|]. split; [split; reflexivity|]. intros v.
  rewrite mid_month_ignored.
  - destruct v; apply same_rows_ok; vm_compute; reflexivity.
  - constructor; [intros []|constructor].
  - intros m E. apply (f_equal month_of_day) in E as E'. rewrite month_of_first in E'. rewrite <- E' in E. vm_compute in E. discriminate E.
Qed.
Print Assumptions C56_mid_month_refuted.
(** C56 fails: there are no factors for quarterly and half-yearly origins. *)
Theorem C56_quarters_refuted : forall ch a b ap v, parallelogram_olf ch a b GQ ap v = Err ValueError /\ parallelogram_olf ch a b GS ap v = Err ValueError.
Proof. intros. unfold parallelogram_olf. destruct (negb _); split; reflexivity. Qed.
Print Assumptions C56_quarters_refuted.
