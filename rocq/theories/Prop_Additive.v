(** Property C59: the incremental additive method. *)
From Coq Require Import Lia.
From Verif Require Import P_Additive P_Additive2 P_Additive3 P_Corr5 Ex NumFacts SpecAdditive.
Local Open Scope nat_scope.

(** C59. For every cumulative triangle with as many origins as ages, at least three, an amount in
    every period up to the valuation date and a positive exposure for every origin: the loss rate
    of every age is the chosen average of the increments, brought to the level of the valuation
    date, per unit of exposure. *)
Theorem C59_loss_rates : forall pw rate fut t n e E avg, additive_input t n e E avg -> power_like pw ->
  exists r, additive_fit pw rate fut avg t (Some e) = Ok r /\
    forall i c d a, i < ax0 (values t) -> c < ax1 (values t) -> d < n -> param_at t avg d = Some a ->
      (forall o, o < n -> (~ future t o d <-> o < n - d)) /\
      stores (av (ad_zeta r) i c 0 d) (loss_rate pw rate a t n E i c d).
Proof.
  intros pw rate fut t n e E avg A P. destruct (additive_result_ok pw rate fut t n e E avg A P) as (r & Er & F). exists r. split; [exact Er|]. intros i c d a Hi Hc Hd Pa. split.
  - intros o Ho. destruct (ai_square _ _ _ _ _ A) as (o0 & a0 & h & Q). rewrite (square_future _ _ _ _ _ _ _ Q) by auto. lia.
  - exact (ar_z _ _ _ _ _ _ _ _ F i c d a Hi Hc Hd Pa).
Qed.
Print Assumptions C59_loss_rates.

(** C59. The completed triangle keeps the known increments. *)
Theorem C59_known_increments : forall pw rate fut t n e E avg r i c o d a, additive_input t n e E avg -> power_like pw -> additive_fit pw rate fut avg t (Some e) = Ok r ->
  in_range t i c o d -> param_at t avg d = Some a -> loss_rate pw rate a t n E i c d <> 0%Qc -> ~ future t o d ->
  cel (ad_incremental r) i c o d = Some (increment t i c o d).
Proof.
  intros pw rate fut t n e E avg r i c o d a A P Er (Ri & Rc & Ro & Rd) Pa Nz Fu. destruct (additive_result_ok pw rate fut t n e E avg A P) as (r' & Er' & F). assert (r' = r) by congruence. subst r'.
  destruct (ai_square _ _ _ _ _ A) as (o0 & a0 & h & Q). pose proof Q as (_ & E2 & E3). rewrite E2 in Ro. rewrite E3 in Rd. rewrite (square_future _ _ _ _ _ _ _ Q) in Fu by auto.
  apply (ar_known _ _ _ _ _ _ _ _ F i c o d a); auto. lia.
Qed.
Print Assumptions C59_known_increments.

(** C59. A later increment is the exposure times the loss rate of the age, trended from the
    valuation date to the date of the increment. *)
Theorem C59_future_increments : forall pw rate fut t n e E avg r i c o d a, additive_input t n e E avg -> power_like pw -> additive_fit pw rate fut avg t (Some e) = Ok r ->
  in_range t i c o d -> param_at t avg d = Some a -> loss_rate pw rate a t n E i c d <> 0%Qc -> future t o d -> (0 < 1 + trend_ahead rate fut)%Qc ->
  cel (ad_incremental r) i c o d = Some (E i c o * loss_rate pw rate a t n E i c d * pw (1 + trend_ahead rate fut) (month_of t o d - vdate t)%Z)%Qc.
Proof.
  intros pw rate fut t n e E avg r i c o d a A P Er (Ri & Rc & Ro & Rd) Pa Nz Fu Pf. destruct (additive_result_ok pw rate fut t n e E avg A P) as (r' & Er' & F). assert (r' = r) by congruence. subst r'.
  destruct (ai_square _ _ _ _ _ A) as (o0 & a0 & h & Q). pose proof Q as (_ & E2 & E3). rewrite E2 in Ro. rewrite E3 in Rd. rewrite (square_future _ _ _ _ _ _ _ Q) in Fu by auto.
  apply (ar_future _ _ _ _ _ _ _ _ F i c o d a); auto. lia.
Qed.
Print Assumptions C59_future_increments.
(** C59. It has the labels of the triangle and is valued when the last origin reaches the last age. *)
Theorem C59_frame : forall pw rate fut t n e E avg r, additive_input t n e E avg -> power_like pw -> additive_fit pw rate fut avg t (Some e) = Ok r ->
  kdims (ad_incremental r) = kdims t /\ vdims (ad_incremental r) = vdims t /\ odims (ad_incremental r) = odims t /\ ddims (ad_incremental r) = ddims t /\
  vdate (ad_incremental r) = month_of t (n - 1) (n - 1).
Proof.
  intros pw rate fut t n e E avg r A P Er. destruct (additive_result_ok pw rate fut t n e E avg A P) as (r' & Er' & F). assert (r' = r) by congruence. subst r'.
  destruct (ar_frame _ _ _ _ _ _ _ _ F) as (A1 & A2 & A3 & A4 & _). pose proof (ar_vdate _ _ _ _ _ _ _ _ F). auto.
Qed.
Print Assumptions C59_frame.

(** C59. The factors are those of the amounts projected with the loss rates, without trend. *)
Theorem C59_factors : forall pw rate fut t n e E avg r i c o d z, additive_input t n e E avg -> power_like pw -> additive_fit pw rate fut avg t (Some e) = Ok r ->
  in_range t i c o (S d) -> (forall d a, d < n -> param_at t avg d = Some a -> z d = loss_rate pw rate a t n E i c d) -> (forall d, d < n -> z d <> 0%Qc) ->
  age_to_age (Some (projected z t n E i c o d)) (Some (projected z t n E i c o (S d))) (cel (ad_ldf r) i c o d).
Proof.
  intros pw rate fut t n e E avg r i c o d z A P Er (Ri & Rc & Ro & Rd) Hz Nz. destruct (additive_result_ok pw rate fut t n e E avg A P) as (r' & Er' & F). assert (r' = r) by congruence. subst r'.
  destruct (ai_square _ _ _ _ _ A) as (o0 & a0 & h & Q). pose proof Q as (_ & E2 & E3). apply (ar_ldf _ _ _ _ _ _ _ _ F i c o d z); auto; lia.
Qed.
Print Assumptions C59_factors.

(** C59. Without a trend after the valuation date the factors give the same ultimate amounts as
    the completed triangle: the latest amount times the remaining factors is the latest amount
    plus the later increments. *)
Theorem C59_ultimates : forall pw rate fut t n e E avg r i c o z, additive_input t n e E avg -> power_like pw -> additive_fit pw rate fut avg t (Some e) = Ok r ->
  in_range t i c o 0 -> (forall d a, d < n -> param_at t avg d = Some a -> z d = loss_rate pw rate a t n E i c d) -> (forall d, d < n -> z d <> 0%Qc) ->
  (forall d, n - 1 - o <= d < n -> projected z t n E i c o d <> 0%Qc) -> trend_ahead rate fut = 0%Qc ->
  (amount t i c o (n - 1 - o) * prodn o (fun k => nz (cel (ad_ldf r) i c o (n - 1 - o + k)%nat)) =
   amount t i c o (n - 1 - o) + sumn o (fun k => amount (ad_incremental r) i c o (n - o + k)%nat))%Qc.
Proof.
  intros pw rate fut t n e E avg r i c o z A P Er (Ri & Rc & Ro & _) Hz Nz Np Ft. destruct (additive_result_ok pw rate fut t n e E avg A P) as (r' & Er' & F). assert (r' = r) by congruence. subst r'.
  destruct (ai_square _ _ _ _ _ A) as (o0 & a0 & h & Q). pose proof Q as (_ & E2 & E3). rewrite E2 in Ro. pose proof (ai_n _ _ _ _ _ A) as Hn.
  rewrite (ultimate_of_factors t n z E i c o (fun d => cel (ad_ldf r) i c o d)); auto.
  - f_equal. rewrite <- sumn_scal. apply sumn_ext. intros k Hk. assert (Hd : n - o + k < n) by lia. destruct (param_at t avg (n - o + k)) as [a|] eqn:Pa; [|exfalso; apply (ai_avg _ _ _ _ _ A _ Hd); auto].
    unfold amount. assert (Z : loss_rate pw rate a t n E i c (n - o + k) <> 0%Qc) by (rewrite <- (Hz _ a); auto).
    rewrite (ar_future _ _ _ _ _ _ _ _ F i c o (n - o + k) a); auto; [|lia|change (future_rate rate fut) with (trend_ahead rate fut); rewrite Ft; reflexivity]. cbn [nz]. change (future_rate rate fut) with (trend_ahead rate fut). rewrite Ft, Qcplus_0_r, (pw_one _ P), Qcmult_1_r, (Hz _ a) by auto. reflexivity.
  - intros d Hd. apply (ar_ldf _ _ _ _ _ _ _ _ F i c o d z); auto.
Qed.
Print Assumptions C59_ultimates.

(** C59. The unit of the exposure does not matter: with all exposures multiplied by one positive
    number the completed triangle is the same. *)
Lemma average_rate_scale a k x y q : q <> 0%Qc -> (average_rate a k (fun o => q * x o) y = average_rate a k x y / q)%Qc.
Proof.
  intros Nq. destruct a; cbn [average_rate].
  - rewrite (sumn_ext k (fun o => q * x o * y o)%Qc (fun o => q * (x o * y o))%Qc) by (intros; ring). rewrite (sumn_ext k (fun o => q * x o * (q * x o))%Qc (fun o => q * q * (x o * x o))%Qc) by (intros; ring).
    rewrite !sumn_scal. set (a := sumn k (fun o => x o * y o)%Qc). set (b := sumn k (fun o => x o * x o)%Qc). destruct (Qc_eqb_spec b 0%Qc) as [->|Nb].
    + rewrite Qcmult_0_r. unfold Qcdiv. change (/ 0)%Qc with 0%Qc. ring.
    + field. auto.
  - rewrite sumn_scal. set (b := sumn k x). destruct (Qc_eqb_spec b 0%Qc) as [->|Nb].
    + rewrite Qcmult_0_r. unfold Qcdiv. change (/ 0)%Qc with 0%Qc. ring.
    + field. auto.
  - rewrite (sumn_ext k (fun o => y o / (q * x o))%Qc (fun o => / q * (y o / x o))%Qc).
    + rewrite sumn_scal. unfold Qcdiv. ring.
    + intros o Ho. destruct (Qc_eqb_spec (x o) 0%Qc) as [->|Nb]; [rewrite Qcmult_0_r; unfold Qcdiv; change (/ 0)%Qc with 0%Qc; ring|field; auto].
Qed.
Theorem C59_exposure_unit : forall pw rate fut t n e e' E avg q r r' i c o d, additive_input t n e E avg -> additive_input t n e' (fun i c o => q * E i c o)%Qc avg -> power_like pw -> (0 < q)%Qc -> (0 < 1 + trend_ahead rate fut)%Qc ->
  additive_fit pw rate fut avg t (Some e) = Ok r -> additive_fit pw rate fut avg t (Some e') = Ok r' -> in_range t i c o d ->
  cel (ad_incremental r') i c o d = cel (ad_incremental r) i c o d.
Proof.
  intros pw rate fut t n e e' E avg q r r' i c o d A A' P Pq Pf Er Er' (Ri & Rc & Ro & Rd). pose proof (qpos_nz _ Pq) as Nq.
  destruct (additive_result_ok pw rate fut t n e E avg A P) as (r1 & Er1 & F). assert (r1 = r) by congruence. subst r1.
  destruct (additive_result_ok pw rate fut t n e' _ avg A' P) as (r1 & Er1' & F'). assert (r1 = r') by congruence. subst r1.
  destruct (ai_square _ _ _ _ _ A) as (o0 & a0 & h & Q). pose proof Q as (_ & E2 & E3). rewrite E2 in Ro. rewrite E3 in Rd.
  destruct (param_at t avg d) as [a|] eqn:Pa; [|exfalso; apply (ai_avg _ _ _ _ _ A _ Rd); auto].
  assert (Z : loss_rate pw rate a t n (fun i c o => q * E i c o)%Qc i c d = (loss_rate pw rate a t n E i c d / q)%Qc) by (unfold loss_rate; apply (average_rate_scale a (n - d) (fun o => E i c o)); auto).
  destruct (Qc_eqb_spec (loss_rate pw rate a t n E i c d) 0%Qc) as [Z0|Z0].
  - rewrite (ar_missing _ _ _ _ _ _ _ _ F i c o d a), (ar_missing _ _ _ _ _ _ _ _ F' i c o d a); auto. rewrite Z, Z0. unfold Qcdiv. ring.
  - assert (Z1 : loss_rate pw rate a t n (fun i c o => q * E i c o)%Qc i c d <> 0%Qc).
    { rewrite Z. intros H. apply Z0. replace (loss_rate pw rate a t n E i c d) with (loss_rate pw rate a t n E i c d / q * q)%Qc by (field; auto). rewrite H. ring. }
    destruct (Nat.lt_ge_cases (o + d) n).
    + rewrite (ar_known _ _ _ _ _ _ _ _ F i c o d a), (ar_known _ _ _ _ _ _ _ _ F' i c o d a); auto.
    + rewrite (ar_future _ _ _ _ _ _ _ _ F i c o d a), (ar_future _ _ _ _ _ _ _ _ F' i c o d a); auto. f_equal. rewrite Z. field. auto.
Qed.
Print Assumptions C59_exposure_unit.

(** C59. A triangle in the valuation view is refused, and so is a missing exposure. *)
Theorem C59_refused : forall pw rate fut avg t e,
  (forall l, ddims t = Vals l -> additive_fit pw rate fut avg t e = Err ValueError) /\
  (forall l, ddims t = Ages l -> additive_fit pw rate fut avg t None = Err AttributeError).
Proof. intros pw rate fut avg t e. unfold additive_fit. split; intros l ->; reflexivity. Qed.
Print Assumptions C59_refused.

(** ** Cases *)
Definition years (b : Qc) (m : Z) : Qc := if (0 <=? m)%Z then Qcpow b (Z.to_nat (m / 12)) else Qcpow (1 / b) (Z.to_nat ((- m) / 12)).
Lemma pow_one k : Qcpow 1 k = 1%Qc.
Proof. induction k as [|k IH]; [reflexivity|]. cbn [Qcpow]. rewrite IH. reflexivity. Qed.
Example C59_power : power_like years.
Proof.
  constructor.
  - intros b. reflexivity.
  - intros m. unfold years. replace (1 / 1)%Qc with 1%Qc by reflexivity. rewrite !pow_one. destruct (0 <=? m)%Z; reflexivity.
  - intros b m Pb. apply qpos_nz in Pb. unfold years. destruct (Z.leb_spec 0 m) as [L|L]; destruct (Z.leb_spec 0 (- m)) as [L'|L'].
    + replace m with 0%Z by lia. reflexivity.
    + rewrite Z.opp_involutive. replace (1 / (1 / b))%Qc with b by (field; repeat split; try discriminate; auto). reflexivity.
    + reflexivity.
    + lia.
Qed.
Definition ex59 : tri := tri_of
  [[Some 100; Some 150; Some 175]; [Some 120; Some 180; None]; [Some 90; None; None]]%Z
  [y 2001; y 2002; y 2003] (Ages [12; 24; 36]%Z) (dec 2003) (Some true) false.
Definition exp59 : arr := arr_of [[Some 1000]; [Some 1100]; [Some 1200]]%Z.
Definition E59 (i c o : nat) : Qc := nz (av exp59 0 0 o 0).
Definition incb (t : tri) : bool :=
  forallb (fun o => forallb (fun d => (vdate t <? month_of t o d)%Z || negb (Qc_eqb (increment t 0 0 o d) 0%Qc)) (seq 0 (ax3 (values t)))) (seq 0 (ax2 (values t))).
Lemma incb_ok t : ax0 (values t) = 1 -> ax1 (values t) = 1 -> incb t = true -> all_increments t.
Proof.
  intros A0 A1 H i c o d (Ri & Rc & Ro & Rd) Fu. unfold incb in H. rewrite forallb_forall in H. specialize (H o ltac:(apply in_seq; lia)). rewrite forallb_forall in H. specialize (H d ltac:(apply in_seq; lia)).
  replace i with 0 by lia. replace c with 0 by lia. unfold future in Fu. destruct (Z.ltb_spec (vdate t) (month_of t o d)); [contradiction|]. cbn [orb] in H. destruct (Qc_eqb_spec (increment t 0 0 o d) 0%Qc); [discriminate|auto].
Qed.
Lemma in59 avg : (exists a, avg = One a) -> additive_input ex59 3 exp59 E59 avg.
Proof.
  intros (a & ->). constructor; try (vm_compute; reflexivity || lia).
  - apply wfb_ok; vm_compute; reflexivity.
  - apply blank_futureb_ok; vm_compute; reflexivity.
  - exists (y 2001), 12%Z, 12. split; [|split; reflexivity]. split; [lia|]. split; [lia|]. split; [reflexivity|]. split; [reflexivity|]. split; [|split; [reflexivity|vm_compute; lia]].
    intros k Hk. change (ax3 (values ex59)) with 3 in Hk. lia.
  - apply incb_ok; vm_compute; reflexivity.
  - split; [reflexivity|]. split; [reflexivity|]. split; [reflexivity|]. split; [reflexivity|]. intros i c o Hi Hc Ho. change (ax0 (values ex59)) with 1 in Hi. change (ax1 (values ex59)) with 1 in Hc. change (ax2 (values ex59)) with 3 in Ho.
    replace i with 0 by lia. replace c with 0 by lia. destruct o as [|[|[|o]]]; [split; reflexivity..|lia].
  - intros d Hd. discriminate.
Qed.
Example C59_case : forall a, additive_input ex59 3 exp59 E59 (One a).
Proof. intros a. apply in59. eauto. Qed.
Definition fit59 (trend : Qc) (fut : option Qc) : result additive := additive_fit years trend fut (One Volume) ex59 (Some exp59).
Definition cells_of (t : tri) : list cell := flat_map (fun o => map (fun d => cel t 0 0 o d) (seq 0 (ax3 (values t)))) (seq 0 (ax2 (values t))).
Definition ceqb (a b : cell) : bool := match a, b with Some x, Some y => Qc_eqb x y | None, None => true | _, _ => false end.
Definition all_eqb (a b : list cell) : bool := (List.length a =? List.length b) && forallb (fun p => ceqb (fst p) (snd p)) (combine a b).
Example C59_values : match fit59 0%Qc None with
  | Ok r => all_eqb (cells_of (ad_incremental r)) (map Some [qc 100; qc 50; qc 25; qc 120; qc 60; (qc 55 / qc 2)%Qc; qc 90; (qc 440 / qc 7)%Qc; qc 30])
  | Err _ => false end = true.
Proof. vm_compute. reflexivity. Qed.

(** C59, violated: with a trend the factors do not give the ultimate amounts of the completed
    triangle, since they leave out the trend after the valuation date. *)
Theorem C59_ultimates_refuted : exists pw rate fut t n e E avg r z,
  additive_input t n e E avg /\ power_like pw /\ additive_fit pw rate fut avg t (Some e) = Ok r /\
  (forall d a, d < n -> param_at t avg d = Some a -> z d = loss_rate pw rate a t n E 0 0 d) /\ (forall d, d < n -> z d <> 0%Qc) /\
  (forall d, n - 1 - 2 <= d < n -> projected z t n E 0 0 2 d <> 0%Qc) /\
  (amount t 0 0 2 (n - 1 - 2) * prodn 2 (fun k => nz (cel (ad_ldf r) 0 0 2 (n - 1 - 2 + k)%nat)) <>
   amount t 0 0 2 (n - 1 - 2) + sumn 2 (fun k => amount (ad_incremental r) 0 0 2 (n - 2 + k)%nat))%Qc.
Proof.
  destruct (additive_result_ok years 0%Qc (Some 1%Qc) ex59 3 exp59 E59 (One Volume) (C59_case _) C59_power) as (r & Er & F).
  assert (Nz : forall d, d < 3 -> loss_rate years 0%Qc Volume ex59 3 E59 0 0 d <> 0%Qc).
  { intros d Hd X. apply (f_equal this) in X. destruct d as [|[|[|d]]]; [vm_compute in X; discriminate X..|lia]. }
  assert (Np : forall d, d < 3 -> projected (loss_rate years 0%Qc Volume ex59 3 E59 0 0) ex59 3 E59 0 0 2 d <> 0%Qc).
  { intros d Hd X. apply (f_equal this) in X. destruct d as [|[|[|d]]]; [vm_compute in X; discriminate X..|lia]. }
  exists years, 0%Qc, (Some 1%Qc), ex59, 3, exp59, E59, (One Volume), r, (loss_rate years 0%Qc Volume ex59 3 E59 0 0).
  split; [apply C59_case|]. split; [exact C59_power|]. split; [exact Er|]. split; [intros d a _ Pa; cbn [param_at] in Pa; injection Pa as <-; reflexivity|]. split; [exact Nz|]. split; [intros d Hd; apply Np; lia|].
  rewrite (ultimate_of_factors ex59 3 (loss_rate years 0%Qc Volume ex59 3 E59 0 0) E59 0 0 2 (fun d => cel (ad_ldf r) 0 0 2 d)); [|lia| |intros d Hd; apply Np; lia].
  - assert (A1 : amount (ad_incremental r) 0 0 2 1 = (E59 0 0 2 * loss_rate years 0 Volume ex59 3 E59 0 0 1 * years (1 + trend_ahead 0 (Some 1%Qc)) (month_of ex59 2 1 - vdate ex59)%Z)%Qc).
    { unfold amount. rewrite (ar_future _ _ _ _ _ _ _ _ F 0 0 2 1 Volume); auto; try lia; vm_compute; reflexivity. }
    assert (A2 : amount (ad_incremental r) 0 0 2 2 = (E59 0 0 2 * loss_rate years 0 Volume ex59 3 E59 0 0 2 * years (1 + trend_ahead 0 (Some 1%Qc)) (month_of ex59 2 2 - vdate ex59)%Z)%Qc).
    { unfold amount. rewrite (ar_future _ _ _ _ _ _ _ _ F 0 0 2 2 Volume); auto; try lia; vm_compute; reflexivity. }
    cbn [sumn]. change (3 - 2 + 0) with 1. change (3 - 2 + 1) with 2. rewrite A1, A2.
    intros X. apply (f_equal this) in X. vm_compute in X. discriminate X.
  - intros d Hd. refine (ar_ldf _ _ _ _ _ _ _ _ F 0 0 2 d (loss_rate years 0%Qc Volume ex59 3 E59 0 0) _ _ _ _ _ _).
    + vm_compute. lia.
    + vm_compute. lia.
    + lia.
    + lia.
    + intros k a _ Pa. cbn [param_at] in Pa. injection Pa as <-. reflexivity.
    + exact Nz.
Qed.
Print Assumptions C59_ultimates_refuted.

(** C59, violated: a future trend of 0 is not applied; the past trend is used instead. *)
Theorem C59_zero_future_trend_refuted : exists pw rate t n e E avg r i c o d a,
  additive_input t n e E avg /\ power_like pw /\ additive_fit pw rate (Some 0%Qc) avg t (Some e) = Ok r /\ in_range t i c o d /\ future t o d /\ param_at t avg d = Some a /\
  cel (ad_incremental r) i c o d <> Some (E i c o * loss_rate pw rate a t n E i c d * pw (1 + 0) (month_of t o d - vdate t)%Z)%Qc.
Proof.
  destruct (additive_result_ok years 1%Qc (Some 0%Qc) ex59 3 exp59 E59 (One Volume) (C59_case _) C59_power) as (r & Er & F).
  exists years, 1%Qc, ex59, 3, exp59, E59, (One Volume), r, 0, 0, 1, 2, Volume. split; [apply C59_case|]. split; [exact C59_power|]. split; [exact Er|]. split; [vm_compute; lia|]. split; [vm_compute; reflexivity|]. split; [reflexivity|].
  rewrite (ar_future _ _ _ _ _ _ _ _ F 0 0 1 2 Volume); try (vm_compute; reflexivity || lia); auto.
  - intros X. apply (f_equal (fun c => this (nz c))) in X. vm_compute in X. discriminate X.
  - intros X. apply (f_equal this) in X. vm_compute in X. discriminate X.
Qed.
Print Assumptions C59_zero_future_trend_refuted.

(** C59, violated: an origin without an increment at an age is left out of the loss rate with
    its exposure, so the rate is not the total loss over the total exposure. *)
Definition ex59z : tri := tri_of
  [[Some 100; Some 150; Some 175]; [Some 120; Some 120; None]; [Some 90; None; None]]%Z
  [y 2001; y 2002; y 2003] (Ages [12; 24; 36]%Z) (dec 2003) (Some true) false.
Theorem C59_zero_increment_refuted : exists t e r,
  wf t /\ blank_future t /\ square t 3 (y 2001) 12 12 /\ exposures t e E59 /\ additive_fit years 0%Qc None (One Volume) t (Some e) = Ok r /\
  ~ stores (av (ad_zeta r) 0 0 0 1) (loss_rate years 0%Qc Volume t 3 E59 0 0 1).
Proof.
  assert (G : match additive_fit years 0%Qc None (One Volume) ex59z (Some exp59) with Ok r => ceqb (av (ad_zeta r) 0 0 0 1) (Some (qc 1 / qc 20)%Qc) | Err _ => false end = true) by (vm_compute; reflexivity).
  destruct (additive_fit years 0%Qc None (One Volume) ex59z (Some exp59)) as [r|] eqn:Er; [|discriminate].
  exists ex59z, exp59, r. split; [apply wfb_ok; vm_compute; reflexivity|]. split; [apply blank_futureb_ok; vm_compute; reflexivity|]. split.
  { split; [|split; reflexivity]. split; [lia|]. split; [lia|]. split; [reflexivity|]. split; [reflexivity|]. split; [|split; [reflexivity|vm_compute; lia]].
    intros k Hk. change (ax3 (values ex59z)) with 3 in Hk. lia. }
  split; [exact (ai_exp _ _ _ _ _ (C59_case Volume))|]. split; [exact Er|]. intros (_ & S2).
  assert (Nz : loss_rate years 0%Qc Volume ex59z 3 E59 0 0 1 <> 0%Qc) by (intros X; apply (f_equal this) in X; vm_compute in X; discriminate X).
  rewrite (S2 Nz) in G. vm_compute in G. discriminate G.
Qed.
Print Assumptions C59_zero_increment_refuted.

(** C59, violated: with two ages the missing increment of the second origin counts as minus its
    amount at the first age. *)
Definition ex59t : tri := tri_of [[Some 100; Some 150]; [Some 120; None]]%Z [y 2001; y 2002] (Ages [12; 24]%Z) (dec 2002) (Some true) false.
Definition exp59t : arr := arr_of [[Some 1000]; [Some 1000]]%Z.
Theorem C59_two_ages_refuted : exists t e r,
  wf t /\ blank_future t /\ all_increments t /\ square t 2 (y 2001) 12 12 /\ additive_fit years 0%Qc None (One Volume) t (Some e) = Ok r /\
  av (ad_zeta r) 0 0 0 1 = Some (qc 1 / qc 20)%Qc /\ av e 0 0 1 0 = Some (qc 1000) /\
  cel (ad_incremental r) 0 0 1 1 = Some (qc (-70)).
Proof.
  assert (G : match additive_fit years 0%Qc None (One Volume) ex59t (Some exp59t) with Ok r => ceqb (av (ad_zeta r) 0 0 0 1) (Some (qc 1 / qc 20)%Qc) && ceqb (cel (ad_incremental r) 0 0 1 1) (Some (qc (-70))) | Err _ => false end = true) by (vm_compute; reflexivity).
  destruct (additive_fit years 0%Qc None (One Volume) ex59t (Some exp59t)) as [r|] eqn:Er; [|discriminate].
  apply andb_true_iff in G. destruct G as (G1 & G2).
  assert (Cq : forall a q, ceqb a (Some q) = true -> a = Some q) by (intros [x|] q H; [|discriminate]; cbn in H; destruct (Qc_eqb_spec x q); [congruence|discriminate]).
  exists ex59t, exp59t, r. split; [apply wfb_ok; vm_compute; reflexivity|]. split; [apply blank_futureb_ok; vm_compute; reflexivity|]. split; [apply incb_ok; vm_compute; reflexivity|]. split.
  { split; [|split; reflexivity]. split; [lia|]. split; [lia|]. split; [reflexivity|]. split; [reflexivity|]. split; [|split; [reflexivity|vm_compute; lia]].
    intros k Hk. change (ax3 (values ex59t)) with 2 in Hk. lia. }
  split; [exact Er|]. split; [apply Cq; auto|]. split; [reflexivity|apply Cq; auto].
Qed.
Print Assumptions C59_two_ages_refuted.

(** C59, violated: annual origins developed half-yearly are refused with a shape error. *)
Definition ex59h : tri := Tri [["Total"%string]] ["Total"%string] ["paid"%string] [y 2001; y 2002] (Ages [6; 12; 18; 24]%Z)
  (arr_of [[Some 60; Some 100; Some 130; Some 150]; [Some 70; Some 120; None; None]]%Z) (dec 2002) (Some true) false GY GS.
Theorem C59_finer_ages_refuted : exists t e, wf t /\ blank_future t /\ all_increments t /\ regular t (y 2001) 6 6 2 1 /\ ax2 e = ax2 (values t) /\ ax3 e = 1 /\
  additive_fit years 0%Qc None (One Volume) t (Some e) = Err ValueError.
Proof.
  exists ex59h, exp59t. split; [apply wfb_ok; vm_compute; reflexivity|]. split; [apply blank_futureb_ok; vm_compute; reflexivity|]. split; [apply incb_ok; vm_compute; reflexivity|]. split.
  { split; [lia|]. split; [lia|]. split; [reflexivity|]. split; [reflexivity|]. split; [|split; [reflexivity|vm_compute; lia]]. intros k Hk. change (ax3 (values ex59h)) with 4 in Hk. lia. }
  split; [reflexivity|]. split; [reflexivity|]. vm_compute. reflexivity.
Qed.
Print Assumptions C59_finer_ages_refuted.
