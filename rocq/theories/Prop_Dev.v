(** Statements: the Development estimator. *)
From Coq Require Import Lia.
From Verif Require Import P_Dev2 DevFit ExDev.
Local Open Scope Z_scope.

(** C25. Fitting succeeds and every factor is the chosen average (volume, simple
    or regression) of exactly the selected ratios; the selected ratios are those with
    positive weight whose two amounts are known. *)
Theorem C25_factors_are_averages : forall p t,
  wf t -> blank_future t -> is_pattern t = false -> (2 <= ax3 (values t))%nat -> oldest_complete t -> fittable p t ->
  exists r, dev_fit p t = Ok r /\ fit_result p t (f_ldf r) /\
    (forall i c o d n, in_range t i c o d -> (S d < ax3 (values t))%nat -> param_at t (p_n_periods p) d = Some n ->
       used t (f_w r) i c d o = selected p t n i c d o).
Proof. exact dev_fit_ok. Qed.
Print Assumptions C25_factors_are_averages.
(** The residual variance behind sigma and the standard error: the weighted
    squared residuals over the number of ratios less one (missing for one ratio). *)
Theorem C25_residual_variance : forall p t r,
  wf t -> blank_future t -> is_pattern t = false -> (2 <= ax3 (values t))%nat -> oldest_complete t -> fittable p t ->
  dev_fit p t = Ok r -> forall i c d a n f, (i < ax0 (values t))%nat -> (c < ax1 (values t))%nat -> (S d < ax3 (values t))%nat ->
    param_at t (p_average p) d = Some a -> param_at t (p_n_periods p) d = Some n -> cel (f_ldf r) i c 0 d = Some f ->
    (forall o, (o < ax2 (values t))%nat -> selected p t n i c d o = true -> 0 < amount t i c o d)%Qc ->
    (a = Regression -> forall o, (o < ax2 (values t))%nat -> amount t i c o d = 0%Qc -> amount t i c o (S d) = 0%Qc) ->
    av (wls_mse (f_reg r)) i c 0 d = cdiv (Some (mse_num a t (selected p t n i c d) i c d f))
       (n2n (Some (sum_over (ax2 (values t)) (selected p t n i c d) (fun _ => 1) - 1)%Qc)) /\
    av (wls_d (f_reg r)) i c 0 d = n2n (Some (avg_den a (ax2 (values t)) (selected p t n i c d) (fun o => amount t i c o d))).
Proof. exact mse_ok. Qed.
Print Assumptions C25_residual_variance.
Example C25_hyps : wf ex3 /\ blank_future ex3 /\ is_pattern ex3 = false /\ (2 <= ax3 (values ex3))%nat /\ oldest_complete ex3 /\
  fittable default_params ex3 /\ fittable (with_n 1) ex3 /\ fittable with_drop ex3 /\ fittable (with_val (dec 2002)) ex3 /\ fittable (with_above (qc 2)) ex3 /\
  exists r, dev_fit default_params ex3 = Ok r /\ cell_eqb (cel (f_ldf r) 0 0 0 0) (Some (qc 3 / qc 2)%Qc) = true.
Proof.
  split; [apply ex3_wf|]. split; [apply ex3_blank|]. split; [reflexivity|]. split; [cbn; lia|]. split; [apply ex3_oldest|].
  split; [apply fit_default|]. split; [apply fit_n|]. split; [apply fit_drop|]. split; [apply fit_val|]. split; [apply fit_above|].
  exists (Ex.get (DevFitted ex3 (values ex3) (WLS (values ex3) (values ex3) (values ex3))) (dev_fit default_params ex3)).
  split; [apply get_ok; vm_compute; reflexivity|vm_compute; reflexivity].
Qed.

(** C26. A factor lies between the smallest and the largest selected ratio. *)
Theorem C26_between_ratios : forall p t,
  wf t -> blank_future t -> is_pattern t = false -> (2 <= ax3 (values t))%nat -> oldest_complete t -> fittable p t ->
  exists r, dev_fit p t = Ok r /\
    forall i c d n lo hi, (i < ax0 (values t))%nat -> (c < ax1 (values t))%nat -> (S d < ax3 (values t))%nat -> param_at t (p_n_periods p) d = Some n ->
      (exists o, (o < ax2 (values t))%nat /\ selected p t n i c d o = true) ->
      (forall o, (o < ax2 (values t))%nat -> selected p t n i c d o = true ->
         0 < amount t i c o d /\ 0 < amount t i c o (S d) /\ lo <= ratio t i c d o /\ ratio t i c d o <= hi)%Qc ->
      exists f, cel (f_ldf r) i c 0 d = Some f /\ (lo <= f)%Qc /\ (f <= hi)%Qc.
Proof.
  intros p t W B Hp Hn Oc F. destruct (dev_fit_ok p t W B Hp Hn Oc F) as (r & E & FR & _). exists r. split; auto.
  intros i c d n lo hi Hi Hc Hd Hnp He H. destruct (param_at t (p_average p) d) as [a|] eqn:Ea; [|destruct (fp_avg _ _ F d Hd Ea)].
  rewrite (fr_cell _ _ _ FR i c d a n) by auto. apply wavg_between; auto.
Qed.
Print Assumptions C26_between_ratios.
(** Equal ratios: the factor is the common ratio and, with two ratios or more,
    the residual variance (hence sigma and the standard error) is 0. *)
Theorem C26_equal_ratios : forall p t,
  wf t -> blank_future t -> is_pattern t = false -> (2 <= ax3 (values t))%nat -> oldest_complete t -> fittable p t ->
  exists r, dev_fit p t = Ok r /\ forall i c d a n f, (i < ax0 (values t))%nat -> (c < ax1 (values t))%nat -> (S d < ax3 (values t))%nat ->
    param_at t (p_average p) d = Some a -> param_at t (p_n_periods p) d = Some n ->
    (exists o, (o < ax2 (values t))%nat /\ selected p t n i c d o = true) ->
    (forall o, (o < ax2 (values t))%nat -> selected p t n i c d o = true -> 0 < amount t i c o d /\ 0 < amount t i c o (S d) /\ ratio t i c d o = f)%Qc ->
    cel (f_ldf r) i c 0 d = Some f /\
    ((exists o1 o2, (o1 < o2)%nat /\ (o2 < ax2 (values t))%nat /\ selected p t n i c d o1 = true /\ selected p t n i c d o2 = true) ->
     (a = Regression -> forall o, (o < ax2 (values t))%nat -> amount t i c o d = 0%Qc -> amount t i c o (S d) = 0%Qc) ->
     av (wls_mse (f_reg r)) i c 0 d = Some 0%Qc).
Proof. exact equal_ratios_fit. Qed.
Print Assumptions C26_equal_ratios.
Example C26_hyps : wf exeq /\ blank_future exeq /\ is_pattern exeq = false /\ (2 <= ax3 (values exeq))%nat /\ oldest_complete exeq /\ fittable default_params exeq /\
  selected default_params exeq (-1) 0 0 0 0 = true /\ selected default_params exeq (-1) 0 0 0 1 = true /\ selected default_params exeq (-1) 0 0 0 2 = false /\
  ratio exeq 0 0 0 0 = ratio exeq 0 0 0 1.
Proof.
  split; [apply exeq_wf|]. split; [apply exeq_blank|]. split; [reflexivity|]. split; [cbn; lia|]. split; [vm_compute; discriminate|].
  split; [apply fit_default|]. repeat (split; [vm_compute; reflexivity|]). apply qeqb. vm_compute. reflexivity.
Qed.

(** C27. Amounts that only enter dropped ratios, or ratios outside n_periods, have
    no influence. *)
Theorem C27_excluded_ratios_irrelevant : forall p t t',
  wf t -> blank_future t -> is_pattern t = false -> (2 <= ax3 (values t))%nat -> oldest_complete t -> fittable p t ->
  p_high p = None -> p_low p = None -> limits_given p = false -> p_drop_val p = None ->
  same_frame t t' -> blank_future t' -> is_pattern t' = false ->
  exists r r', dev_fit p t = Ok r /\ dev_fit p t' = Ok r' /\
    forall i c d n, (i < ax0 (values t))%nat -> (c < ax1 (values t))%nat -> (S d < ax3 (values t))%nat -> param_at t (p_n_periods p) d = Some n ->
      (forall o, (o < ax2 (values t))%nat -> listed p t o d = true \/ in_window t n o d = false \/
         (amount t' i c o d = amount t i c o d /\ amount t' i c o (S d) = amount t i c o (S d))) ->
      cel (f_ldf r') i c 0 d = cel (f_ldf r) i c 0 d.
Proof. exact unused_irrelevant. Qed.
Print Assumptions C27_excluded_ratios_irrelevant.
(** For every drop rule: equal selections with equal amounts give equal factors. *)
Theorem C27_only_selected_matter : forall p t t',
  wf t -> wf t' -> blank_future t -> blank_future t' -> is_pattern t = false -> is_pattern t' = false ->
  (2 <= ax3 (values t))%nat -> oldest_complete t -> fittable p t -> fittable p t' -> same_frame t t' ->
  exists r r', dev_fit p t = Ok r /\ dev_fit p t' = Ok r' /\
    forall i c d n, (i < ax0 (values t))%nat -> (c < ax1 (values t))%nat -> (S d < ax3 (values t))%nat -> param_at t (p_n_periods p) d = Some n ->
      (forall o, (o < ax2 (values t))%nat -> selected p t' n i c d o = selected p t n i c d o) ->
      (forall o, (o < ax2 (values t))%nat -> selected p t n i c d o = true ->
         amount t' i c o d = amount t i c o d /\ amount t' i c o (S d) = amount t i c o (S d)) ->
      cel (f_ldf r') i c 0 d = cel (f_ldf r) i c 0 d.
Proof. exact selected_only. Qed.
Print Assumptions C27_only_selected_matter.
Definition ex3' : tri := tri_of
  [[Some 100; Some 777; Some 175]; [Some 120; Some 180; N]; [Some 90; N; N]]
  [y 2001; y 2002; y 2003] (Ages [12; 24; 36]) (dec 2003) (Some true) false.
Example C27_hyps : fittable (with_n 1) ex3 /\ same_frame ex3 ex3' /\ blank_future ex3' /\
  (forall o, (o < 3)%nat -> listed (with_n 1) ex3 o 0 = true \/ in_window ex3 1 o 0 = false \/
         (amount ex3' 0 0 o 0 = amount ex3 0 0 o 0 /\ amount ex3' 0 0 o 1 = amount ex3 0 0 o 1)) /\ amount ex3' 0 0 0 1 <> amount ex3 0 0 0 1.
Proof.
  split; [apply fit_n|]. split; [constructor; reflexivity|]. split; [apply blank_futureb_ok; vm_compute; reflexivity|]. split.
  - intros o Ho. destruct o as [|[|[|o]]]; [right; left; vm_compute; reflexivity|right; right; split; reflexivity|right; right; split; reflexivity|lia].
  - intros E. vm_compute in E. discriminate E.
Qed.

(** C28. Scaling all amounts (by a positive constant per triangle and column)
    leaves the factors unchanged. *)
Theorem C28_factors_scale_free : forall (k : nat -> nat -> Qc) p t t',
  same_frame t t' -> (forall i c, 0 < k i c)%Qc ->
  (forall i c o d, in_range t i c o d -> cel t' i c o d = option_map (fun q => k i c * q)%Qc (cel t i c o d)) ->
  wf t -> blank_future t -> is_pattern t = false -> is_pattern t' = false -> (2 <= ax3 (values t))%nat -> oldest_complete t -> fittable p t ->
  exists r r', dev_fit p t = Ok r /\ dev_fit p t' = Ok r' /\ same_frame (f_ldf r) (f_ldf r') /\
    forall i c d, (i < ax0 (values t))%nat -> (c < ax1 (values t))%nat -> (S d < ax3 (values t))%nat -> cel (f_ldf r') i c 0 d = cel (f_ldf r) i c 0 d.
Proof. intros k p t t' S K V. exact (scale_fit k p t t' S K V). Qed.
Print Assumptions C28_factors_scale_free.
Definition ex3x10 : tri := set_values ex3 (map_arr (option_map (fun q => qc 10 * q)%Qc) (values ex3)).
Example C28_hyps : same_frame ex3 ex3x10 /\ (forall i c : nat, 0 < (fun _ _ => qc 10) i c)%Qc /\
  (forall i c o d, in_range ex3 i c o d -> cel ex3x10 i c o d = option_map (fun q => (fun _ _ : nat => qc 10) i c * q)%Qc (cel ex3 i c o d)) /\
  fittable with_drop ex3.
Proof. split; [constructor; reflexivity|]. split; [reflexivity|]. split; [reflexivity|apply fit_drop]. Qed.

(** C29. drop_high = h and drop_low = l: with nothing else dropped, a ratio in the
    window keeps its weight iff at least l of the ratios in the window rank below it
    and at least h above it, or if fewer than [preserve] would remain. *)
Theorem C29_kept_by_rank : forall p t,
  wf t -> blank_future t -> is_pattern t = false -> (2 <= ax3 (values t))%nat -> oldest_complete t -> fittable p t ->
  p_drop p = None -> p_drop_val p = None -> limits_given p = false ->
  exists r, dev_fit p t = Ok r /\
    forall i c o d n, in_range t i c o d -> (S d < ax3 (values t))%nat -> param_at t (p_n_periods p) d = Some n ->
      let eligible q := has_ratio t i c d q && in_window t n q d in
      used t (f_w r) i c d o = eligible o && survives_high_low p t eligible i c d o.
Proof.
  intros p t W B Hp Hn Oc F Hd Hv Hl. destruct (dev_fit_ok p t W B Hp Hn Oc F) as (r & E & _ & U). exists r. split; auto.
  intros i c o d n R Hd' Hnp. cbv zeta. rewrite (U i c o d n) by auto. unfold selected, listed, val_listed, survives_above_below.
  rewrite Hd, Hv, Hl. cbn [negb orb]. rewrite !andb_true_r. reflexivity.
Qed.
Print Assumptions C29_kept_by_rank.
(** Exactly N - h - l of N ratios are kept. *)
Theorem C29_number_kept : forall p t E i c d,
  let n := ax2 (values t) in let h := count_at (p_high p) d in let l := count_at (p_low p) d in
  0 <= h -> 0 <= l -> p_preserve p <= how_many n E - h - l -> 0 <= how_many n E - h - l ->
  how_many n (fun o => E o && survives_high_low p t E i c d o) = how_many n E - h - l.
Proof. exact survivors_count. Qed.
Print Assumptions C29_number_kept.
(** Every dropped ratio is at most, or at least, every kept one. *)
Theorem C29_dropped_are_extreme : forall p t E i c d o,
  (o < ax2 (values t))%nat -> E o = true -> survives_high_low p t E i c d o = false ->
  (forall o', (o' < ax2 (values t))%nat -> E o' = true -> survives_high_low p t E i c d o' = true -> (ratio t i c d o <= ratio t i c d o')%Qc) \/
  (forall o', (o' < ax2 (values t))%nat -> E o' = true -> survives_high_low p t E i c d o' = true -> (ratio t i c d o' <= ratio t i c d o)%Qc).
Proof. exact dropped_extreme. Qed.
Print Assumptions C29_dropped_are_extreme.
Example C29_hyps : fittable with_drop ex3 /\ fittable (with_high (One (-1))) ex3 /\
  survives_high_low (with_high (One (-1))) ex3 (fun o => has_ratio ex3 0 0 0 o && in_window ex3 (-1) o 0) 0 0 0 0 = true /\
  survives_high_low (with_high (One (-1))) ex3 (fun o => has_ratio ex3 0 0 0 o && in_window ex3 (-1) o 0) 0 0 0 1 = false.
Proof.
  split; [apply fit_drop|]. split; [|split; vm_compute; reflexivity].
  unfold with_high. prove_fittable.
  - intros d n Hd [= <-]. left. left. lia.
  - intros v [= <-]. exact I.
  - intros _. exists (-1). split; [reflexivity|]. split; [intros d; cbn; lia|].
    intros i c d Hi Hc Hd. cbn in Hi, Hc, Hd. assert (i = 0%nat) as -> by lia. assert (c = 0%nat) as -> by lia.
    do 2 (destruct d as [|d]; [vm_compute; discriminate|]). lia.
Qed.
(** Outside the guard on the number of ratios the claim fails: with four origins
    and two ages, drop_high=1 keeps one ratio instead of three. *)
Theorem C29_more_origins_than_ages_refuted : exists t r,
  wf t /\ blank_future t /\ oldest_complete t /\ dev_fit (with_high (One (-1))) t = Ok r /\
  how_many (ax2 (values t)) (has_ratio t 0 0 0) = 4 /\ how_many (ax2 (values t)) (used t (f_w r) 0 0 0) = 1.
Proof.
  exists ex42, (Ex.get (DevFitted ex3 (values ex3) (WLS (values ex3) (values ex3) (values ex3))) (dev_fit (with_high (One (-1))) ex42)).
  split; [apply ex42_wf|]. split; [apply ex42_blank|]. split; [vm_compute; discriminate|]. split; [apply get_ok; vm_compute; reflexivity|].
  split; vm_compute; reflexivity.
Qed.
Print Assumptions C29_more_origins_than_ages_refuted.
(** With n_periods given per age, drop_high raises. *)
Theorem C29_n_periods_list_refuted : exists t,
  wf t /\ blank_future t /\ oldest_complete t /\ ax3 (values t) = 4%nat /\
  dev_fit (with_high (Many [-1; -1; -1; -1])) t = Err IndexError /\ dev_fit (with_high (Many [-1; -1; -1])) t = Err ValueError.
Proof.
  exists ex44. split; [apply ex44_wf|]. split; [apply ex44_blank|]. split; [vm_compute; discriminate|]. repeat split; vm_compute; reflexivity.
Qed.
Print Assumptions C29_n_periods_list_refuted.

(** C30. drop_above / drop_below: with nothing else dropped, a ratio in the window
    keeps its weight iff it lies strictly between the limits, or if fewer than
    [preserve] ratios of that age do. *)
Theorem C30_kept_within_limits : forall p t,
  wf t -> blank_future t -> is_pattern t = false -> (2 <= ax3 (values t))%nat -> oldest_complete t -> fittable p t ->
  p_drop p = None -> p_drop_val p = None -> p_high p = None -> p_low p = None -> limits_given p = true ->
  exists r, dev_fit p t = Ok r /\
    forall i c o d n, in_range t i c o d -> (S d < ax3 (values t))%nat -> param_at t (p_n_periods p) d = Some n ->
      let inside o := Qc_ltb (limit_at 0%Qc (p_below p) d) (ratio t i c d o) &&
                      match limit_at None (p_above p) d with None => true | Some h => Qc_ltb (ratio t i c d o) h end in
      used t (f_w r) i c d o = has_ratio t i c d o && in_window t n o d &&
        ((how_many (ax2 (values t)) (fun q => has_ratio t i c d q && inside q) <? p_preserve p) || inside o).
Proof.
  intros p t W B Hp Hn Oc F Hd Hv Hh Hl Hg. destruct (dev_fit_ok p t W B Hp Hn Oc F) as (r & E & _ & U). exists r. split; auto.
  intros i c o d n R Hd' Hnp. cbv zeta. rewrite (U i c o d n) by auto. unfold selected, listed, val_listed, survives_above_below, within_limits, survives_high_low.
  rewrite Hd, Hv, Hg, Hh, Hl. cbn [negb orb count_at]. rewrite !andb_true_r.
  assert (Z0 : forall f, 0 <=? how_many (ax2 (values t)) f = true) by (intros f; apply Z.leb_le; unfold how_many; lia).
  rewrite !Z0. cbn [andb]. rewrite orb_true_r, andb_true_r. reflexivity.
Qed.
Print Assumptions C30_kept_within_limits.
Example C30_hyps : fittable (with_above (qc 3 / qc 2)%Qc) ex3 /\ limits_given (with_above (qc 3 / qc 2)%Qc) = true /\
  within_limits (with_above (qc 3 / qc 2)%Qc) ex3 0 0 0 0 = false /\ within_limits (with_above (qc 3 / qc 2)%Qc) ex3 0 0 1 0 = true.
Proof. split; [apply fit_above|]. repeat split; vm_compute; reflexivity. Qed.
(** drop_above alone also drops a ratio below zero, since the default lower limit
    becomes active. *)
Theorem C30_drop_above_alone_refuted : exists t r,
  wf t /\ blank_future t /\ oldest_complete t /\ dev_fit (with_above (qc 2)) t = Ok r /\
  has_ratio t 0 0 0 0 = true /\ (ratio t 0 0 0 0 < qc 2)%Qc /\ used t (f_w r) 0 0 0 0 = false.
Proof.
  exists exneg, (Ex.get (DevFitted ex3 (values ex3) (WLS (values ex3) (values ex3) (values ex3))) (dev_fit (with_above (qc 2)) exneg)).
  split; [apply exneg_wf|]. split; [apply exneg_blank|]. split; [vm_compute; discriminate|]. split; [apply get_ok; vm_compute; reflexivity|].
  repeat split; vm_compute; reflexivity.
Qed.
Print Assumptions C30_drop_above_alone_refuted.

(** C46. n_periods = n (at least 1, less than the number of origins minus one) on
    a regular triangle uses exactly the n latest ratios of every age: a ratio whose
    two amounts are observed is used iff fewer than n later origins have reached the
    same age. *)
Theorem C46_latest_n_ratios : forall p t n,
  wf t -> blank_future t -> is_pattern t = false -> (2 <= ax3 (values t))%nat -> oldest_complete t -> fittable p t ->
  p_drop p = None -> p_drop_val p = None -> p_high p = None -> p_low p = None -> limits_given p = false ->
  p_n_periods p = One n -> regular_grains t -> 1 <= n < Z.of_nat (ax2 (values t)) - 1 ->
  exists r, dev_fit p t = Ok r /\
    forall i c o d, in_range t i c o d -> (S d < ax3 (values t))%nat -> has_ratio t i c d o = true ->
      used t (f_w r) i c d o =
        (how_many (ax2 (values t)) (fun q => (o <? q)%nat && (month_of t q (S d) <=? vdate t)) <? n).
Proof.
  intros p t n W B Hp Hn Oc F Hd Hv Hh Hl Hg Hnp RG Hr. destruct (dev_fit_ok p t W B Hp Hn Oc F) as (r & E & _ & U). exists r. split; auto.
  intros i c o d R Hd' HR. rewrite (U i c o d n); [|auto|auto|rewrite Hnp; reflexivity].
  unfold selected, listed, val_listed, survives_above_below, survives_high_low.
  rewrite Hd, Hv, Hg, Hh, Hl, HR. cbn [negb orb count_at andb]. rewrite !andb_true_r.
  assert (Z0 : forall f, 0 <=? how_many (ax2 (values t)) f = true) by (intros f; apply Z.leb_le; unfold how_many; lia).
  rewrite !Z0. cbn [andb]. rewrite orb_true_r, andb_true_r. destruct R as (R0 & R1 & R2 & R3). apply window_latest; auto.
  apply Z.nlt_ge. intros L. unfold has_ratio, amount in HR. rewrite (B i c o (S d)) in HR; [|repeat split; auto|exact L].
  cbn [nz] in HR. rewrite andb_false_r in HR. discriminate.
Qed.
Print Assumptions C46_latest_n_ratios.
Example C46_hyps : fittable (with_n 1) ex3 /\ regular_grains ex3 /\ 1 <= 1 < Z.of_nat (ax2 (values ex3)) - 1 /\
  has_ratio ex3 0 0 0 0 = true /\ in_window ex3 1 0 0 = false /\ in_window ex3 1 1 0 = true.
Proof. split; [apply fit_n|]. split; [apply ex3_grains|]. split; [cbn; lia|]. repeat split; vm_compute; reflexivity. Qed.

(** C47. drop_valuation: on triangles with equal origin and development periods,
    with nothing else dropped, exactly the ratios that start at the close of a listed
    period lose their weight. *)
Theorem C47_drop_valuation : forall p t vs,
  wf t -> blank_future t -> is_pattern t = false -> (2 <= ax3 (values t))%nat -> oldest_complete t -> fittable p t ->
  p_drop p = None -> p_drop_val p = Some vs -> p_high p = None -> p_low p = None -> limits_given p = false ->
  exists r, dev_fit p t = Ok r /\
    forall i c o d n, in_range t i c o d -> (S d < ax3 (values t))%nat -> param_at t (p_n_periods p) d = Some n ->
      used t (f_w r) i c d o = has_ratio t i c d o && in_window t n o d &&
        negb (existsb (fun v => period_close (ograin t) v =? month_of t o d) vs).
Proof.
  intros p t vs W B Hp Hn Oc F Hd Hv Hh Hl Hg. destruct (dev_fit_ok p t W B Hp Hn Oc F) as (r & E & _ & U). exists r. split; auto.
  intros i c o d n R Hd' Hnp. rewrite (U i c o d n) by auto. unfold selected, listed, val_listed, survives_above_below, survives_high_low.
  rewrite Hd, Hv, Hg, Hh, Hl. cbn [negb orb count_at]. rewrite !andb_true_r.
  assert (Z0 : forall f, 0 <=? how_many (ax2 (values t)) f = true) by (intros f; apply Z.leb_le; unfold how_many; lia).
  rewrite !Z0. cbn [andb]. rewrite orb_true_r, andb_true_r. reflexivity.
Qed.
Print Assumptions C47_drop_valuation.
Example C47_hyps : fittable (with_val (dec 2002)) ex3 /\ val_listed (with_val (dec 2002)) ex3 0 1 = true /\ val_listed (with_val (dec 2002)) ex3 1 0 = true /\
  val_listed (with_val (dec 2002)) ex3 0 0 = false.
Proof. split; [apply fit_val|]. repeat split; vm_compute; reflexivity. Qed.
(** With annual origins and quarterly ages, dropping December 2001 removes the
    ratio from age 3 (March 2001) and keeps the one from age 12 (December 2001). *)
Theorem C47_finer_ages_refuted : exists t r,
  wf t /\ blank_future t /\ oldest_complete t /\ dev_fit (with_val (dec 2001)) t = Ok r /\
  (forall d, (S d < ax3 (values t))%nat -> has_ratio t 0 0 d 0 = true) /\
  month_of t 0 3 = dec 2001 /\ used t (f_w r) 0 0 3 0 = true /\
  month_of t 0 0 <> dec 2001 /\ used t (f_w r) 0 0 0 0 = false.
Proof.
  exists exq, (Ex.get (DevFitted ex3 (values ex3) (WLS (values ex3) (values ex3) (values ex3))) (dev_fit (with_val (dec 2001)) exq)).
  split; [apply exq_wf|]. split; [apply exq_blank|]. split; [vm_compute; discriminate|]. split; [apply get_ok; vm_compute; reflexivity|].
  split; [intros d Hd; cbn in Hd; do 7 (destruct d as [|d]; [vm_compute; reflexivity|]); lia|].
  split; [reflexivity|]. split; [vm_compute; reflexivity|]. split; [vm_compute; discriminate|vm_compute; reflexivity].
Qed.
Print Assumptions C47_finer_ages_refuted.
