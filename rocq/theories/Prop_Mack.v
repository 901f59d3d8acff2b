(** Properties of the Mack standard errors. *)
From Coq Require Import Lia Lra.
From Verif Require Import P_Mack ExDev ExMethods Prop_FullTri.
Local Open Scope R_scope.

(** C39. With sigma known the fit succeeds and returns the full triangle of the chain ladder and three risks: the parameter
    and process risk with the triangle's origins, the total parameter risk with one; their columns are the ages and the ultimate. *)
Theorem C39_accepts : forall t a lat sigma, mack_input t a lat -> ma_sigma a = Some sigma ->
  exists u x r, cl_ultimate t (ma_ldf a) = Ok u /\ full_triangle t (ma_ldf a) u = Ok x /\ mack_fit t a = Ok (x, r) /\
    risk_labels t (odims t) (mr_parameter r) /\ risk_labels t (odims t) (mr_process r) /\ risk_labels t (firstn 1 (odims t)) (mr_total_parameter r).
Proof. exact mack_accepts. Qed.
Print Assumptions C39_accepts.
(** Without sigma (factors that were not estimated) the fit is refused. *)
Theorem C39_no_sigma : forall t a lat, mack_input t a lat -> ma_sigma a = None -> mack_fit t a = Err ValueError.
Proof. exact mack_refuses. Qed.
Print Assumptions C39_no_sigma.
(** The parameter risk is not negative and 0 where the data is known.  Its square is the sum, over the ages passed since the
    latest one, of the amount of the full triangle times the standard error of the factor, carried forward with the later factors. *)
Theorem C39_parameter_risk : forall t a lat x r, mack_input t a lat -> mack_fit t a = Ok (x, r) ->
  forall i c o, (i < ax0 (values t))%nat -> (c < ax1 (values t))%nat -> (o < ax2 (values t))%nat -> factors_present (ma_ldf a) i c ->
    (forall d, 0 <= risk_at (mr_parameter r) i c o d) /\ (forall d, (d <= lat o)%nat -> risk_at (mr_parameter r) i c o d = 0) /\
    (row_known (ma_se a) i c (ax3 (values t)) -> forall d, (lat o <= d <= ax3 (values t))%nat ->
      risk_at (mr_parameter r) i c o d ^ 2 = carried (step_factor t (ma_ldf a) i c) (parameter_step a x i c o) (lat o) d).
Proof. exact parameter_risk_ok. Qed.
Print Assumptions C39_parameter_risk.
(** The same for the process risk, with the spread of the next amount around its expected value. *)
Theorem C39_process_risk : forall t a lat x r, mack_input t a lat -> mack_fit t a = Ok (x, r) ->
  forall i c o, (i < ax0 (values t))%nat -> (c < ax1 (values t))%nat -> (o < ax2 (values t))%nat -> factors_present (ma_ldf a) i c ->
    (forall d, 0 <= risk_at (mr_process r) i c o d) /\ (forall d, (d <= lat o)%nat -> risk_at (mr_process r) i c o d = 0) /\
    (forall d, (lat o <= d <= ax3 (values t))%nat ->
      risk_at (mr_process r) i c o d ^ 2 = carried (step_factor t (ma_ldf a) i c) (process_step a x i c o) (lat o) d).
Proof. exact process_risk_ok. Qed.
Print Assumptions C39_process_risk.
(** The standard error of an origin combines both risks. *)
Theorem C39_std_err : forall r i c o d,
  risk_at (mack_std_err r) i c o d = sqrt (risk_at (mr_parameter r) i c o d ^ 2 + risk_at (mr_process r) i c o d ^ 2) /\
  rt_frame (mack_std_err r) = rt_frame (mr_parameter r).
Proof. exact std_err_ok. Qed.
Print Assumptions C39_std_err.
(** Totals: the process risks of the origins are independent, so their squares add.  The origins share the factors, so the
    amounts not yet final are added before their parameter risk is carried forward. *)
Theorem C39_total_parameter : forall t a lat x r, mack_input t a lat -> mack_fit t a = Ok (x, r) ->
  forall i c, (i < ax0 (values t))%nat -> (c < ax1 (values t))%nat -> factors_present (ma_ldf a) i c -> row_known (ma_se a) i c (ax3 (values t)) ->
    forall d, (d <= ax3 (values t))%nat -> 0 <= risk_at (mr_total_parameter r) i c 0 d /\
      risk_at (mr_total_parameter r) i c 0 d ^ 2 = carried (step_factor t (ma_ldf a) i c) (total_step t a x lat i c) 0 d.
Proof. exact total_parameter_ok. Qed.
Print Assumptions C39_total_parameter.
Theorem C39_totals : forall t a lat x r, mack_input t a lat -> mack_fit t a = Ok (x, r) -> forall i c,
  (forall o d, risk_at (total_process_risk r) i c o d = sqrt (rsumn (ax2 (values t)) (fun o => risk_at (mr_process r) i c o d ^ 2))) /\
  nzr (total_mack_std_err r i c) = sqrt (risk_at (total_process_risk r) i c 0 (ax3 (values t)) ^ 2 + risk_at (mr_total_parameter r) i c 0 (ax3 (values t)) ^ 2).
Proof. exact totals_ok. Qed.
Print Assumptions C39_totals.
(** Parameter risks of the origins are positively correlated: with positive amounts and factors the total is at least the root
    of the sum of their squares and at most their sum. *)
Theorem C39_total_parameter_bounds : forall t a lat x r, mack_input t a lat -> mack_fit t a = Ok (x, r) ->
  forall i c, (i < ax0 (values t))%nat -> (c < ax1 (values t))%nat -> factors_present (ma_ldf a) i c -> row_known (ma_se a) i c (ax3 (values t)) ->
    (forall o d, (o < ax2 (values t))%nat -> (lat o <= d < ax3 (values t))%nat -> 0 <= amount x i c o d)%Qc ->
    let total := risk_at (mr_total_parameter r) i c 0 (ax3 (values t)) in
    rsumn (ax2 (values t)) (fun o => risk_at (mr_parameter r) i c o (ax3 (values t)) ^ 2) <= total ^ 2 /\
    total <= rsumn (ax2 (values t)) (fun o => risk_at (mr_parameter r) i c o (ax3 (values t))).
Proof. exact total_bounds. Qed.
Print Assumptions C39_total_parameter_bounds.
(** Mack's formula (1993) for the ultimate of an origin, with volume-weighted factors. *)
Theorem C39_mack_formula : forall t a lat x r, mack_input t a lat -> mack_fit t a = Ok (x, r) ->
  forall i c o, (i < ax0 (values t))%nat -> (c < ax1 (values t))%nat -> (o < ax2 (values t))%nat -> factors_present (ma_ldf a) i c ->
    row_known (ma_se a) i c (ax3 (values t)) ->
    (0 < amount t i c o (lat o))%Qc -> (forall d, (lat o <= d < ax3 (values (ma_ldf a)))%nat -> 0 < factor (cel (ma_ldf a) i c 0 d))%Qc ->
    to_ultimate (ma_ldf a) i c (lat o) <> 1%Qc ->
    (forall d, (lat o <= d < ax3 (values t))%nat -> average_at a d = Volume /\ weight_at a o d = 1) ->
    let ult := rv (amount t i c o (lat o) * to_ultimate (ma_ldf a) i c (lat o))%Qc in
    let reached d := rv (amount t i c o (lat o) * growth (ma_ldf a) i c (lat o) d)%Qc in
    risk_at (mack_std_err r) i c o (ax3 (values t)) ^ 2 =
      ult ^ 2 * rsum_from (lat o) (ax3 (values t)) (fun k =>
        (nzr (sigma_row (ma_sigma a) i c k) ^ 2 / reached k + nzr (ma_se a i c k) ^ 2) / step_factor t (ma_ldf a) i c k ^ 2).
Proof. exact mack_formula. Qed.
Print Assumptions C39_mack_formula.
(** Sigma and standard error of an estimated factor: the residual variance, and the same over the volume, number or squares
    of the amounts averaged. *)
Theorem C39_factor_errors : forall p how t r, wf t -> blank_future t -> is_pattern t = false -> (2 <= ax3 (values t))%nat -> oldest_complete t -> fittable p t ->
  dev_fit p t = Ok r -> forall i c d a n f, (i < ax0 (values t))%nat -> (c < ax1 (values t))%nat -> (S d < ax3 (values t))%nat ->
    param_at t (p_average p) d = Some a -> param_at t (p_n_periods p) d = Some n -> cel (f_ldf r) i c 0 d = Some f ->
    (forall o, (o < ax2 (values t))%nat -> selected p t n i c d o = true -> 0 < amount t i c o d)%Qc ->
    (a = Regression -> forall o, (o < ax2 (values t))%nat -> amount t i c o d = 0%Qc -> amount t i c o (S d) = 0%Qc) ->
    (1 < sum_over (ax2 (values t)) (selected p t n i c d) (fun _ => 1))%Qc ->
    exists s e, 0 <= s /\ 0 <= e /\
      s ^ 2 * (rv (sum_over (ax2 (values t)) (selected p t n i c d) (fun _ => 1)%Qc) - 1) = rv (mse_num a t (selected p t n i c d) i c d f) /\
      e ^ 2 * rv (avg_den a (ax2 (values t)) (selected p t n i c d) (fun o => amount t i c o d)) = s ^ 2 /\
      dev_std_err p how t r i c d = Some e /\ (s <> 0 -> dev_sigma p how t r i c d = Some s) /\ (how = LogLinear -> nzr (dev_sigma p how t r i c d) = s).
Proof. exact dev_errors. Qed.
Print Assumptions C39_factor_errors.
(** More volatile factors never give less risk. *)
Theorem C39_monotone : forall t a a' lat x r x' r', mack_input t a lat -> mack_input t a' lat -> ma_ldf a' = ma_ldf a -> ma_average a' = ma_average a -> ma_w a' = ma_w a ->
  mack_fit t a = Ok (x, r) -> mack_fit t a' = Ok (x', r') ->
  forall i c, (i < ax0 (values t))%nat -> (c < ax1 (values t))%nat -> factors_present (ma_ldf a) i c -> row_known (ma_se a) i c (ax3 (values t)) -> row_known (ma_se a') i c (ax3 (values t)) ->
    (forall k, (k < ax3 (values t))%nat -> 0 <= nzr (sigma_row (ma_sigma a) i c k) <= nzr (sigma_row (ma_sigma a') i c k)) ->
    (forall k, (k < ax3 (values t))%nat -> 0 <= nzr (ma_se a i c k) <= nzr (ma_se a' i c k)) ->
    forall o d, (o < ax2 (values t))%nat -> (d <= ax3 (values t))%nat ->
      risk_at (mr_process r) i c o d <= risk_at (mr_process r') i c o d /\ risk_at (mr_parameter r) i c o d <= risk_at (mr_parameter r') i c o d /\
      risk_at (mack_std_err r) i c o d <= risk_at (mack_std_err r') i c o d.
Proof. exact risks_monotone. Qed.
Print Assumptions C39_monotone.
(** Factors without any uncertainty give no risk. *)
Theorem C39_certain_factors : forall t a lat x r, mack_input t a lat -> mack_fit t a = Ok (x, r) ->
  forall i c, (i < ax0 (values t))%nat -> (c < ax1 (values t))%nat -> factors_present (ma_ldf a) i c ->
    (forall k, (k < ax3 (values t))%nat -> nzr (sigma_row (ma_sigma a) i c k) = 0 /\ ma_se a i c k = Some 0) ->
    forall o d, (o < ax2 (values t))%nat -> (d <= ax3 (values t))%nat -> risk_at (mack_std_err r) i c o d = 0.
Proof. exact no_risk. Qed.
Print Assumptions C39_certain_factors.

(** Three origins, factors 3/2 and 7/6 and a tail of 6/5; sigma 2 and standard error 1 for every age. *)
Definition ones (n k : nat) : arr := Arr 1 1 n k (fun _ _ _ _ => Some 1%Qc).
Definition exattrs (s e : R) (w : arr) : mack_attrs := MackAttrs expat (Some (fun _ _ _ => Some s)) (fun _ _ _ => Some e) [Volume; Volume] w.
Lemma exattrs_input s e w : ax0 w = 1%nat -> ax1 w = 1%nat -> ax2 w = 3%nat -> ax3 w = 2%nat -> mack_input ex3 (exattrs s e w) exlat.
Proof.
  intros W0 W1 W2 W3. destruct expat_runoff as [MI PF UF PJ UL LA EH EA]. constructor; auto; cbn [exattrs ma_ldf ma_w ma_average]; try (cbn; lia).
Qed.
Lemma expat_present : factors_present expat 0 0.
Proof. intros d Hd. cbn in Hd. destruct d as [|[|[|[|]]]]; [..|lia]; apply cell_eqb_eq; vm_compute; reflexivity. Qed.
Lemma exattrs_known s e w i c : row_known (ma_se (exattrs s e w)) i c (ax3 (values ex3)).
Proof. intros d _. exists e. reflexivity. Qed.
Example C39_hyps : mack_input ex3 (exattrs 2 1 (ones 3 2)) exlat /\ factors_present expat 0 0 /\ row_known (ma_se (exattrs 2 1 (ones 3 2))) 0 0 (ax3 (values ex3)) /\
  (exists x r, mack_fit ex3 (exattrs 2 1 (ones 3 2)) = Ok (x, r) /\
   (forall o d, (o < 3)%nat -> (exlat o <= d < 3)%nat -> (0 <= amount x 0 0 o d)%Qc) /\
   (* the oldest origin has the tail to go: 175 * 6/5 is expected, with process variance 4 * 175 and parameter variance 175^2 *)
   risk_at (mack_std_err r) 0 0 0 3 ^ 2 = 175 ^ 2 + 4 * 175) /\
  (0 < amount ex3 0 0 2 (exlat 2))%Qc /\ (forall d, (exlat 2 <= d < 4)%nat -> 0 < factor (cel expat 0 0 0 d))%Qc /\ to_ultimate expat 0 0 (exlat 2) <> 1%Qc /\
  (forall d, (exlat 2 <= d < 3)%nat -> average_at (exattrs 2 1 (ones 3 2)) d = Volume /\ weight_at (exattrs 2 1 (ones 3 2)) 2 d = 1).
Proof.
  assert (IN := exattrs_input 2 1 (ones 3 2) eq_refl eq_refl eq_refl eq_refl).
  split; [exact IN|]. split; [apply expat_present|]. split; [apply exattrs_known|]. split; [|split; [|split; [|split]]].
  - destruct (mack_accepts ex3 _ exlat _ IN eq_refl) as (u & x & r & E1 & E2 & E3 & _). exists x, r. split; [exact E3|].
    change (ma_ldf (exattrs 2 1 (ones 3 2))) with expat in E1, E2.
    assert (Eu : u = Ex.get ex3 (cl_ultimate ex3 expat)) by (rewrite E1; reflexivity).
    assert (Ex : x = Ex.get ex3 (full_triangle ex3 expat (Ex.get ex3 (cl_ultimate ex3 expat)))) by (rewrite <- Eu, E2; reflexivity).
    split.
    + intros o d Ho Hd. rewrite Ex. destruct o as [|[|[|]]]; [..|lia]; destruct d as [|[|[|]]]; try (cbn in Hd; lia); apply Qle_bool_iff; vm_compute; reflexivity.
    + rewrite (proj1 (std_err_ok r 0 0 0 3)). rewrite sqrt_sq by (apply Rplus_le_le_0_compat; apply pow2_ge_0).
      destruct (parameter_risk_ok ex3 _ exlat x r IN E3 0 0 0 ltac:(cbn; lia) ltac:(cbn; lia) ltac:(cbn; lia) expat_present) as (_ & _ & P). rewrite (P (exattrs_known _ _ _ _ _) 3%nat) by (cbn; lia).
      destruct (process_risk_ok ex3 _ exlat x r IN E3 0 0 0 ltac:(cbn; lia) ltac:(cbn; lia) ltac:(cbn; lia) expat_present) as (_ & _ & Q). rewrite (Q 3%nat) by (cbn; lia).
      change (exlat 0) with 2%nat. rewrite carried_S, carried_end by lia. rewrite carried_S, carried_end by lia.
      assert (Am : amount x 0 0 0 2 = qc 175) by (rewrite Ex; apply qeqb; vm_compute; reflexivity).
      unfold parameter_step, process_step. rewrite Am. cbn [exattrs ma_se ma_sigma sigma_row nzr average_at ma_average List.length Nat.sub Nat.min nth spread weight_at ma_w ones ax3 Nat.ltb Nat.leb].
      replace (rv (qc 175)) with 175 by (unfold rv; cbn; lra). destruct (Rlt_dec 0 175); [|lra].
      replace ((2 * sqrt 175 * 1) ^ 2) with (4 * (sqrt 175 * sqrt 175)) by ring. rewrite sqrt_sqrt by lra. ring.
  - vm_compute. reflexivity.
  - intros d Hd. cbn in Hd. destruct d as [|[|[|[|]]]]; try lia; vm_compute; reflexivity.
  - intros E. apply (f_equal (fun q => Qc_eqb q 1%Qc)) in E. revert E. vm_compute. discriminate.
  - intros d Hd. cbn in Hd. destruct d as [|[|[|]]]; try lia; cbn; auto; split; try reflexivity; unfold rv; cbn; lra.
Qed.

(** A limit that excludes no ratio leaves the factors as they are but removes process risk: the latest amount of each origin
    has no ratio yet, fails the limit and gets the weight 0. *)
Definition limited (h : option Qc) : dev_params := DevParams (One (-1)%Z) (One Volume) None None None 1 None (One h) (One 0%Qc) None.
Theorem C39_unused_limit_refuted : exists t f f' lat x r x' r',
  dev_fit (limited None) t = Ok f /\ dev_fit (limited (Some (qc 100))) t = Ok f' /\ (forall d, (d < 2)%nat -> cel (f_ldf f') 0 0 0 d = cel (f_ldf f) 0 0 0 d) /\
  mack_input t (exattrs 2 1 (f_w f)) lat /\ mack_input t (exattrs 2 1 (f_w f')) lat /\
  mack_fit t (exattrs 2 1 (f_w f)) = Ok (x, r) /\ mack_fit t (exattrs 2 1 (f_w f')) = Ok (x', r') /\
  0 < risk_at (mr_process r) 0 0 1 2 /\ risk_at (mr_process r') 0 0 1 2 = 0.
Proof.
  set (d0 := DevFitted ex3 (ones 1 1) (WLS (ones 1 1) (ones 1 1) (ones 1 1))).
  set (f := Ex.get d0 (dev_fit (limited None) ex3)). set (f' := Ex.get d0 (dev_fit (limited (Some (qc 100))) ex3)).
  assert (IN : mack_input ex3 (exattrs 2 1 (f_w f)) exlat) by (apply exattrs_input; vm_compute; reflexivity).
  assert (IN' : mack_input ex3 (exattrs 2 1 (f_w f')) exlat) by (apply exattrs_input; vm_compute; reflexivity).
  destruct (mack_accepts ex3 _ exlat _ IN eq_refl) as (u & x & r & E1 & E2 & E3 & _).
  destruct (mack_accepts ex3 _ exlat _ IN' eq_refl) as (u' & x' & r' & E1' & E2' & E3' & _).
  exists ex3, f, f', exlat, x, r, x', r'. split; [apply get_ok; vm_compute; reflexivity|]. split; [apply get_ok; vm_compute; reflexivity|].
  split. { intros d Hd. destruct d as [|[|]]; [..|lia]; apply cell_eqb_eq; vm_compute; reflexivity. }
  split; [exact IN|]. split; [exact IN'|]. split; [exact E3|]. split; [exact E3'|].
  change (ma_ldf (exattrs 2 1 (f_w f))) with expat in E1, E2.
  assert (Eu : u = Ex.get ex3 (cl_ultimate ex3 expat)) by (rewrite E1; reflexivity).
  assert (Ex : x = Ex.get ex3 (full_triangle ex3 expat (Ex.get ex3 (cl_ultimate ex3 expat)))) by (rewrite <- Eu, E2; reflexivity).
  destruct (process_risk_ok ex3 _ exlat x r IN E3 0 0 1 ltac:(cbn; lia) ltac:(cbn; lia) ltac:(cbn; lia) expat_present) as (P0 & _ & P). specialize (P 2%nat ltac:(cbn; lia)).
  destruct (process_risk_ok ex3 _ exlat x' r' IN' E3' 0 0 1 ltac:(cbn; lia) ltac:(cbn; lia) ltac:(cbn; lia) expat_present) as (Q0 & _ & Q). specialize (Q 2%nat ltac:(cbn; lia)).
  change (exlat 1) with 1%nat in P, Q. rewrite carried_S, carried_end in P, Q by lia.
  assert (Am : amount x 0 0 1 1 = qc 180) by (rewrite Ex; apply qeqb; vm_compute; reflexivity).
  assert (V : rv (qc 180) = 180) by (unfold rv; cbn; lra).
  assert (Wf : av (f_w f) 0%nat 0%nat 1%nat 1%nat = Some 1%Qc) by (apply cell_eqb_eq; vm_compute; reflexivity).
  assert (Wf' : av (f_w f') 0%nat 0%nat 1%nat 1%nat = Some 0%Qc) by (apply cell_eqb_eq; vm_compute; reflexivity).
  assert (W3 : ax3 (f_w f) = 2%nat) by (vm_compute; reflexivity). assert (W3' : ax3 (f_w f') = 2%nat) by (vm_compute; reflexivity).
  clearbody f f'. unfold process_step, weight_at in P, Q. cbn [exattrs ma_w] in P, Q. rewrite W3, Wf, rv_1 in P. rewrite W3', Wf', rv_0 in Q. cbn [Nat.ltb Nat.leb] in P, Q.
  split.
  - rewrite Am, V in P. cbn [exattrs ma_sigma sigma_row nzr average_at ma_average List.length Nat.sub Nat.min nth spread] in P. destruct (Rlt_dec 0 180); [|lra].
    assert (S : 0 < sqrt 180) by (apply sqrt_lt_R0; lra). destruct (Rle_lt_or_eq_dec _ _ (P0 2%nat)) as [|Z]; [assumption|]. rewrite <- Z in P. nra.
  - destruct (Rmult_integral (risk_at (mr_process r') 0 0 1 2) (risk_at (mr_process r') 0 0 1 2)); auto. transitivity (risk_at (mr_process r') 0 0 1 2 ^ 2); [ring|]. rewrite Q. ring.
Qed.
Print Assumptions C39_unused_limit_refuted.

(** A tail that ends at the last age (projection period 0): the risks have labels for the ages and the ultimate, but no column
    for the ultimate. *)
Definition expat36 : tri := Tri [["Total"%string]] ["Total"%string] ["paid"%string] [y 2001] (Ages [12; 24; 36]%Z)
  (Arr 1 1 1 3 (fun _ _ _ d => nth d [Some (qc 3 / qc 2)%Qc; Some (qc 7 / qc 6)%Qc; Some (qc 6 / qc 5)%Qc] None)) ULT_VAL (Some false) true GY GY.
Lemma expat36_pattern : pattern_for ex3 expat36.
Proof.
  constructor; try reflexivity; try discriminate.
  - apply wfb_ok; vm_compute; reflexivity.
  - exists [12; 24; 36]%Z, []. auto.
Qed.
Theorem C39_unprojected_tail_refuted : exists t a u lat x r, runoff_input t (ma_ldf a) u lat /\ cl_ultimate t (ma_ldf a) = Ok u /\ ax3 (values (ma_ldf a)) = ax3 (values t) /\
  mack_fit t a = Ok (x, r) /\ List.length (dlist (ddims (rt_frame (mr_parameter r)))) = 4%nat /\ ax3 (values (rt_frame (mr_parameter r))) = 3%nat.
Proof.
  set (a := MackAttrs expat36 (Some (fun _ _ _ => Some 2)) (fun _ _ _ => Some 1) [Volume; Volume] (ones 3 2)).
  destruct (cl_ultimate_ok ex3 expat36 ex3_method expat36_pattern) as (u & Eu & UF & _).
  assert (RI : runoff_input ex3 expat36 u exlat) by (eapply ex3_runoff; [apply expat36_pattern|reflexivity|auto|exact UF]).
  destruct (full_triangle_ok ex3 expat36 u exlat RI) as (x & Ex & Wx & Fx & Cx). destruct RI as [MI PF _ PJ UL LA EH EA].
  destruct (open_sum_ok ex3 expat36 x exlat _ MI PF PJ UL LA EH eq_refl Wx Fx) with (se := ma_se a) as (os & Eos & _).
  { intros i c o d Hi Hc Ho Hd. apply (Cx i c o Hi Hc Ho). auto. }
  eexists ex3, a, u, exlat, x, _. split; [constructor; auto|]. split; [exact Eu|]. split; [reflexivity|]. split; [|split].
  - unfold mack_fit. change (ma_ldf a) with expat36. rewrite Eu. cbn [rbind]. cbn [a ma_sigma]. rewrite Ex. cbn [rbind]. unfold full_std_err.
    change ((ax0 (ma_w a) =? 1) && (ax1 (ma_w a) =? 1) && (ax2 (ma_w a) =? ax2 (values ex3)) && (ax3 (ma_w a) + 1 =? ax3 (values ex3)))%nat with true. cbn [rbind].
    change (ma_se a) with (fun _ _ _ : nat => Some 1) in Eos |- *. rewrite Eos. cbn [rbind]. reflexivity.
  - cbn [mr_parameter rt_frame risk_frame ddims dlist]. rewrite (rn_d _ _ _ _ Fx). reflexivity.
  - reflexivity.
Qed.
Print Assumptions C39_unprojected_tail_refuted.

(** If no factor exceeds 1 the standard error of the tail is undefined; the parameter risk of every origin then falls to 0 at
    the ultimate. *)
Definition exdec : tri := tri_of [[Some 200; Some 150; Some 120]; [Some 180; Some 140; Ex.N]; [Some 160; Ex.N; Ex.N]]%Z [y 2001; y 2002; y 2003] (Ages [12; 24; 36]%Z) (dec 2003) (Some true) false.
Definition exdecpat (k : nat) : tri := Tri [["Total"%string]] ["Total"%string] ["paid"%string] [y 2001] (Ages (firstn k [12; 24; 36; 48]%Z))
  (Arr 1 1 1 k (fun _ _ _ d => nth d [Some (qc 3 / qc 4)%Qc; Some (qc 4 / qc 5)%Qc; Some 1%Qc; Some 1%Qc] None)) ULT_VAL (Some false) true GY GY.
Lemma exdecpat_pattern : pattern_for exdec (exdecpat 4).
Proof.
  constructor; try reflexivity; try discriminate.
  - apply wfb_ok; vm_compute; reflexivity.
  - exists [12; 24; 36]%Z, [48%Z]. auto.
Qed.
Lemma exdec_method : method_input exdec.
Proof.
  constructor; try reflexivity; try (cbn; lia).
  - apply wfb_ok; vm_compute; reflexivity.
  - apply blank_futureb_ok. vm_compute. reflexivity.
  - split.
    + intros o Ho. cbn in Ho. exists (2 - o)%nat. split; [change (2 - o < 3)%nat; lia|]. do 3 (destruct o as [|o]; [reflexivity|]). lia.
    + exists 0%nat, 1%nat, 3%nat. split; [lia|]. intros d Hd. cbn in Hd. split; [intros _; exists d; lia|].
      intros _. exists (2 - d)%nat. split; [change (2 - d < 3)%nat; lia|]. do 3 (destruct d as [|d]; [reflexivity|]). lia.
Qed.
Theorem C39_no_growth_refuted : exists t l0 a lat x r, mack_input t a lat /\ mack_fit t a = Ok (x, r) /\ factors_present (ma_ldf a) 0 0 /\
  (forall d, (d < 2)%nat -> cel (ma_ldf a) 0 0 0 d = cel l0 0 0 0 d) /\
  ma_se a = tail_std_err t l0 (ma_ldf a) 1 (fun _ _ _ => Some 1) /\
  (forall d, (0 < d <= 2)%nat -> 0 < risk_at (mr_parameter r) 0 0 2 d) /\ forall o, risk_at (mr_parameter r) 0 0 o 3 = 0.
Proof.
  set (se := tail_std_err exdec (exdecpat 2) (exdecpat 4) 1 (fun _ _ _ => Some 1)).
  set (a := MackAttrs (exdecpat 4) (Some (fun _ _ _ => Some 2)) se [Volume; Volume] (ones 3 2)).
  assert (IN : mack_input exdec a exlat).
  { constructor; cbn [a ma_ldf ma_w ma_average ones ax0 ax1 ax2 ax3]; try (cbn; lia).
    - apply exdec_method.
    - apply exdecpat_pattern.
    - intros ages E'. injection E' as <-. split.
      + intros z Hz. cbn in Hz. intuition lia.
      + intros o z Ho Hz. change (odims exdec) with [y 2001; y 2002; y 2003] in Ho. unfold y, dec, ULT_VAL in *. cbn in Ho, Hz; intuition lia.
    - split; vm_compute; repeat constructor; auto.
    - intros o Ho. cbn in Ho. destruct o as [|[|[|]]]; [..|lia]; split; try reflexivity; cbn; lia.
    - cbv; lia.
    - intros ages d E' Hd. injection E' as <-. change (grain_months (dgrain exdec)) with 12%Z. cbn in Hd; destruct d as [|[|[|d]]]; try reflexivity; lia. }
  assert (FP : factors_present (exdecpat 4) 0 0) by (intros d Hd; cbn in Hd; destruct d as [|[|[|[|]]]]; [..|lia]; apply cell_eqb_eq; vm_compute; reflexivity).
  assert (S01 : forall d, (d < 2)%nat -> se 0%nat 0%nat d = Some 1) by (intros d Hd; apply tail_std_err_kept; exact Hd).
  assert (S2 : se 0%nat 0%nat 2%nat = None).
  { apply (tail_std_err_none exdec). intros d q Hd. cbn in Hd. destruct d as [|[|]]; [| |lia]; intros [= <-]; vm_compute; discriminate. }
  assert (SE : se = tail_std_err exdec (exdecpat 2) (exdecpat 4) 1 (fun _ _ _ => Some 1)) by reflexivity. clearbody se.
  destruct (mack_cells exdec a exlat _ IN eq_refl) as (u & x & r & E1 & _ & E2 & E3 & _ & _ & _ & _ & _ & C).
  exists exdec, (exdecpat 2), a, exlat, x, r. split; [exact IN|]. split; [exact E3|]. split; [exact FP|]. split. { intros d Hd. destruct d as [|[|]]; [..|lia]; reflexivity. }
  split; [exact SE|]. destruct (C 0%nat 0%nat ltac:(cbn; lia) ltac:(cbn; lia)) as (C1 & _ & _). unfold risk_at.
  assert (Eu : u = Ex.get exdec (cl_ultimate exdec (exdecpat 4))) by (cbn [a ma_ldf] in E1; rewrite E1; reflexivity).
  assert (Ex : x = Ex.get exdec (full_triangle exdec (exdecpat 4) (Ex.get exdec (cl_ultimate exdec (exdecpat 4))))) by (cbn [a ma_ldf] in E2; rewrite <- Eu, E2; reflexivity).
  assert (Am : (0 < amount x 0 0 2 0)%Qc /\ (0 < amount x 0 0 2 1)%Qc) by (rewrite Ex; split; vm_compute; reflexivity).
  split.
  - destruct Am as [A0 A1]. apply rv_lt in A0, A1. rewrite rv_0 in A0, A1.
    assert (F : forall d, (d < 3)%nat -> mack_factor exdec (ma_ldf a) 0 0 d = Some (step_factor exdec (ma_ldf a) 0 0 d)) by (intros d Hd; apply (mack_factor_ok exdec a exlat IN); auto; cbn; lia).
    assert (K : forall d, (0 < d <= 2)%nat -> keep_of exdec 2 d = 1) by (intros d Hd; apply (keep_open exdec a exlat IN); cbn; lia).
    intros d Hd. rewrite C1. cbn [nzr]. destruct d as [|d]; [lia|]. cbn [risk]. rewrite (F d) by lia. cbn [a ma_se]. rewrite S01 by lia. cbn [rmul]. rewrite K, Rmult_1_r by lia.
    apply sqrt_lt_R0. apply Rplus_lt_le_0_compat; [|apply pow2_ge_0]. apply pow_lt. destruct d as [|[|]]; [lra|lra|lia].
  - intros o. rewrite C1. cbn [nzr risk a ma_se]. rewrite S2. cbn [rmul]. reflexivity.
Qed.
Print Assumptions C39_no_growth_refuted.

(** A triangle with more than one line of business is refused: the weights then have a row for each line. *)
Definition ex3two : tri := Tri [["A"%string]; ["B"%string]] ["Line"%string] ["paid"%string] (odims ex3) (ddims ex3)
  (Arr 2 1 3 3 (fun _ c o d => av (values ex3) 0%nat c o d)) (vdate ex3) (Some true) false GY GY.
Definition expat_two : tri := Tri [["A"%string]; ["B"%string]] ["Line"%string] ["paid"%string] (odims expat) (ddims expat)
  (Arr 2 1 1 4 (fun _ c o d => av (values expat) 0%nat c o d)) ULT_VAL (Some false) true GY GY.
Theorem C39_several_lines_refuted : exists t l lat f, method_input t /\ pattern_for t l /\ projectable t l /\ uniq_labels t /\ latest_ages t lat /\ enough_history t lat /\ even_ages t l /\
  dev_fit (limited None) t = Ok f /\ forall sigma se avg, mack_fit t (MackAttrs l (Some sigma) se avg (f_w f)) = Err ValueError.
Proof.
  set (d0 := DevFitted ex3 (ones 1 1) (WLS (ones 1 1) (ones 1 1) (ones 1 1))).
  set (f := Ex.get d0 (dev_fit (limited None) ex3two)).
  assert (MI : method_input ex3two).
  { constructor; try reflexivity; try (cbn; lia).
    - apply wfb_ok; vm_compute; reflexivity.
    - apply blank_futureb_ok. vm_compute. reflexivity.
    - apply (mi_diag _ ex3_method). }
  assert (PF : pattern_for ex3two expat_two).
  { constructor; try reflexivity; try discriminate.
    - apply wfb_ok; vm_compute; reflexivity.
    - exists [12; 24; 36]%Z, [48%Z]. auto. }
  destruct expat_runoff as [_ _ _ PJ _ LA EH EA].
  assert (UL : uniq_labels ex3two) by (split; [apply NoDup_cons; [intros [H|[]]; discriminate H|apply NoDup_cons; [intros []|apply NoDup_nil]]|apply NoDup_cons; [intros []|apply NoDup_nil]]).
  exists ex3two, expat_two, exlat, f. split; [exact MI|]. split; [exact PF|]. split; [exact PJ|]. split; [exact UL|]. split; [exact LA|]. split; [exact EH|]. split; [exact EA|].
  split; [apply get_ok; vm_compute; reflexivity|]. intros sigma se avg.
  apply (mack_weights_refused ex3two _ exlat sigma); auto. left. cbn [ma_w]. assert (W : ax0 (f_w f) = 2%nat) by (vm_compute; reflexivity). rewrite W. discriminate.
Qed.
Print Assumptions C39_several_lines_refuted.
