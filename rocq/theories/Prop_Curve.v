(** Interpolated deviations, fitted tails and the statistics of a tail. *)
From Coq Require Import Lia Lra Qreals.
From Verif Require Import P_Curve ExDev.
Local Open Scope R_scope.

(** C49. Deviations known from the data are kept by Development.  Missing ones lie, with log-linear interpolation, on the curve
    exp(s x + b) whose logarithm is the least-squares line through the known ones. *)
Theorem C49_log_linear : forall p t f i c, p_n_periods p <> One 1%Z ->
  let n := (ax3 (values t) - 1)%nat in let known := sigma_raw (f_reg f) i c in
  two_points n (is_known known) period_no -> (forall d v, (d < n)%nat -> known d = Some v -> 0 < v) ->
  exists s b, best_line n (is_known known) period_no (fun d => ln (nzr (known d))) s b /\
    (forall d v, known d = Some v -> nzr (dev_sigma p LogLinear t f i c d) = v) /\
    (s <> 0 -> forall d, known d = None -> dev_sigma p LogLinear t f i c d = Some (exp (s * period_no d + b))) /\
    (s = 0 -> forall d, known d = None -> dev_sigma p LogLinear t f i c d = None).
Proof.
  intros p t f i c NP n known TP PR. assert (E : forall d, dev_sigma p LogLinear t f i c d = loglinear n known d).
  { intros d. exact (dev_sigma_fill p _ t f i c d NP). }
  destruct (sigma_least_squares n known TP PR) as (s & b & H1 & H2 & H3 & H4). exists s, b. split; [exact H1|].
  split; [intros d v K; rewrite E; auto|]. split; intros S d K; rewrite E; auto.
Qed.
Print Assumptions C49_log_linear.
Definition ex44_fit : dev_fitted := match dev_fit default_params ex44 with Ok f => f | Err _ => DevFitted ex44 (values ex44) (WLS (values ex44) (values ex44) (values ex44)) end.
Lemma ex44_known : exists u v, sigma_raw (f_reg ex44_fit) 0%nat 0%nat 0%nat = Some u /\ sigma_raw (f_reg ex44_fit) 0%nat 0%nat 1%nat = Some v /\ 0 < u /\ 0 < v /\ u <> v /\ sigma_raw (f_reg ex44_fit) 0%nat 0%nat 2%nat = None.
Proof.
  assert (P : forall g d q, av (wls_mse g) 0%nat 0%nat 0%nat d = Some q -> (0 < q)%Qc -> sigma_raw g 0%nat 0%nat d = Some (sqrt (rv q)) /\ 0 < sqrt (rv q)).
  { intros g d q E Q. unfold sigma_raw. rewrite E. cbn [r_of option_map rsqrt]. apply rv_lt in Q. rewrite rv_0 in Q. destruct (Rlt_dec (rv q) 0); [lra|]. split; [reflexivity|]. apply sqrt_lt_R0; auto. }
  assert (N : forall g d, av (wls_mse g) 0%nat 0%nat 0%nat d = None -> sigma_raw g 0%nat 0%nat d = None) by (intros g d E; unfold sigma_raw; rewrite E; reflexivity).
  destruct (P (f_reg ex44_fit) 0%nat (Q2Qc (2695 # 558))) as (Eu & Pu); [apply cell_eqb_eq; vm_compute; reflexivity|reflexivity|].
  destruct (P (f_reg ex44_fit) 1%nat (Q2Qc (25 # 99))) as (Ev & Pv); [apply cell_eqb_eq; vm_compute; reflexivity|reflexivity|].
  exists (sqrt (rv (Q2Qc (2695 # 558)))), (sqrt (rv (Q2Qc (25 # 99)))). do 4 (split; [assumption|]).
  split; [|apply N; apply cell_eqb_eq; vm_compute; reflexivity].
  assert (L : (Q2Qc (25 # 99) < Q2Qc (2695 # 558))%Qc) by reflexivity. apply rv_lt in L. apply Rgt_not_eq. apply sqrt_lt_1; try lra; rewrite <- rv_0; apply rv_le; discriminate.
Qed.
Example C49_hyps : dev_fit default_params ex44 = Ok ex44_fit /\ p_n_periods default_params <> One 1%Z /\
  let n := (ax3 (values ex44) - 1)%nat in let known := sigma_raw (f_reg ex44_fit) 0%nat 0%nat in
  two_points n (is_known known) period_no /\ (forall d v, (d < n)%nat -> known d = Some v -> 0 < v) /\ known 2%nat = None.
Proof.
  destruct ex44_known as (u & v & E0 & E1 & Pu & Pv & UV & E2).
  split; [unfold ex44_fit; destruct (dev_fit default_params ex44) eqn:E; [reflexivity|]; exfalso; assert (F : match dev_fit default_params ex44 with Ok _ => true | Err _ => false end = true) by (vm_compute; reflexivity); rewrite E in F; discriminate F|].
  split; [discriminate|]. cbv zeta. change (ax3 (values ex44) - 1)%nat with 3%nat. split; [|split; [|exact E2]].
  - exists 0%nat, 1%nat. repeat split; try lia; try (unfold is_known; rewrite ?E0, ?E1; reflexivity). intros E. apply period_no_inj in E. lia.
  - intros d w Hd K. do 3 (destruct d as [|d]; [congruence|]). lia.
Qed.
(** If the known deviations lie on a curve exp(s x + b) with s not 0, so do all of them after interpolation. *)
Theorem C49_on_curve : forall p t f i c s b, p_n_periods p <> One 1%Z ->
  let n := (ax3 (values t) - 1)%nat in let known := sigma_raw (f_reg f) i c in
  two_points n (is_known known) period_no -> s <> 0 -> (forall d v, (d < n)%nat -> known d = Some v -> v = exp (s * period_no d + b)) ->
  forall d, (d < n)%nat -> dev_sigma p LogLinear t f i c d = Some (exp (s * period_no d + b)).
Proof.
  intros p t f i c s b NP n known TP S H d Hd. assert (E : dev_sigma p LogLinear t f i c d = loglinear n known d).
  { exact (dev_sigma_fill p _ t f i c d NP). }
  rewrite E. apply (sigma_on_curve n known s b TP S H d Hd).
Qed.
Print Assumptions C49_on_curve.
(** Two deviations always lie on such a curve. *)
Lemma two_on_curve (known : nat -> option R) u v : known 0%nat = Some u -> known 1%nat = Some v -> 0 < u -> 0 < v -> u <> v -> known 2%nat = None ->
  exists s b, s <> 0 /\ forall d w, (d < 3)%nat -> known d = Some w -> w = exp (s * period_no d + b).
Proof.
  intros E0 E1 Pu Pv UV E2. exists (ln v - ln u), (2 * ln u - ln v). split.
  - intros E. assert (L : ln v = ln u) by lra. apply ln_inv in L; auto.
  - intros d w Hd K. destruct d as [|d]; [|destruct d as [|d]; [|destruct d as [|d]; [|lia]]].
    + assert (w = u) as -> by congruence. rewrite <- (exp_ln u Pu) at 1. f_equal. unfold period_no. cbn [INR]. ring.
    + assert (w = v) as -> by congruence. rewrite <- (exp_ln v Pv) at 1. f_equal. unfold period_no. cbn [INR]. ring.
    + congruence.
Qed.
Example C49_on_curve_hyps : exists s b, s <> 0 /\ forall d v, (d < 3)%nat -> sigma_raw (f_reg ex44_fit) 0%nat 0%nat d = Some v -> v = exp (s * period_no d + b).
Proof. destruct ex44_known as (u & v & E0 & E1 & Pu & Pv & UV & E2). exact (two_on_curve _ u v E0 E1 Pu Pv UV E2). Qed.
(** With Mack's interpolation a missing deviation after two known ones a, b has the square min(b^4/a^2, a^2, b^2); so it is no
    larger than either, and continues their ratio when they fall. *)
Theorem C49_mack : forall p t f i c d a b, p_n_periods p <> One 1%Z -> let known := sigma_raw (f_reg f) i c in
  (2 <= d)%nat -> known d = None -> known (d - 2)%nat = Some a -> known (d - 1)%nat = Some b -> 0 < a -> 0 < b ->
  exists v, dev_sigma p MackFill t f i c d = Some v /\ 0 < v /\ v ^ 2 = Rmin (b ^ 4 / a ^ 2) (Rmin (a ^ 2) (b ^ 2)) /\ v <= a /\ v <= b /\ (b <= a -> v = b * (b / a)).
Proof.
  intros p t f i c d a b NP known H2 K A B Pa Pb. assert (E : dev_sigma p MackFill t f i c d = mack_fill known d).
  { exact (dev_sigma_fill p _ t f i c d NP). }
  destruct (mack_fill_missing known d a b K H2 A B Pa Pb) as (v & V & P & Q). exists v. rewrite E. do 3 (split; [assumption|]). exact (mack_fill_le known d a b v K H2 A B Pa Pb V).
Qed.
Print Assumptions C49_mack.
Theorem C49_mack_kept : forall p t f i c d v, p_n_periods p <> One 1%Z -> sigma_raw (f_reg f) i c d = Some v -> v <> 0 -> nzr (dev_sigma p MackFill t f i c d) = v.
Proof.
  intros p t f i c d v NP K V. assert (E : dev_sigma p MackFill t f i c d = mack_fill (sigma_raw (f_reg f) i c) d).
  { exact (dev_sigma_fill p _ t f i c d NP). }
  rewrite E. apply mack_fill_known; auto.
Qed.
Print Assumptions C49_mack_kept.
Example C49_mack_hyps : exists a b, let known := sigma_raw (f_reg ex44_fit) 0%nat 0%nat in known 2%nat = None /\ known (2 - 2)%nat = Some a /\ known (2 - 1)%nat = Some b /\ 0 < a /\ 0 < b.
Proof. destruct ex44_known as (u & v & E0 & E1 & Pu & Pv & UV & E2). exists u, v. cbv zeta. repeat split; auto. Qed.
(** Equal known deviations: the missing one stays missing. *)
Theorem C49_flat_refuted : exists y : nat -> option R, (forall k v, (k < 3)%nat -> y k = Some v -> v = 2) /\ two_points 3 (is_known y) period_no /\ y 2%nat = None /\ loglinear 3 y 2 = None.
Proof.
  set (y := fun k => if (k <? 2)%nat then Some 2 else None). assert (TP : two_points 3 (is_known y) period_no).
  { exists 0%nat, 1%nat. repeat split; try lia. intros E. apply period_no_inj in E. lia. }
  assert (H : forall k v, (k < 3)%nat -> y k = Some v -> v = 2) by (intros k v _; unfold y; destruct (k <? 2)%nat; congruence).
  exists y. split; [exact H|]. split; [exact TP|]. split; [reflexivity|]. apply (sigma_flat 3 y 2 TP); [lra|exact H|reflexivity].
Qed.
Print Assumptions C49_flat_refuted.
(** Mack's interpolation fills the first of two missing deviations and not the second. *)
Theorem C49_second_missing_refuted : exists (y : nat -> option R) v, y 0%nat = Some 2 /\ y 1%nat = Some 1 /\ y 2%nat = None /\ y 3%nat = None /\ mack_fill y 2 = Some v /\ mack_fill y 3 = None.
Proof.
  set (y := fun k => match k with O => Some 2 | 1%nat => Some 1 | _ => None end).
  destruct (mack_fill_missing y 2 2 1) as (v & V & _); try reflexivity; try lra; try lia.
  exists y, v. do 4 (split; [reflexivity|]). split; [exact V|]. apply mack_fill_gap; [reflexivity|lia|left; reflexivity].
Qed.
Print Assumptions C49_second_missing_refuted.

(** C50. TailCurve keeps the factors before the attachment age.  From there on every factor is 1 plus the curve exp(s x + b) (or
    exp(b) x^s) whose logarithm is the least-squares line through the logarithms of the fitted factors less 1; the last factor
    collects the ages up to extrap_periods after the last age of the triangle. *)
Theorem C50_fitted : forall p t l k, factors_for t l -> period_ok t (cp_fit p) -> starts_at (cp_attach p) t k -> none_below_one p t l ->
  let m := (ax3 (values l) + periods_per_year (dgrain t) * cp_years p)%nat in let total := (cp_extrap p + (ax3 (values t) - 1))%nat in (m <= total)%nat ->
  exists r, tail_curve p t l = Ok r /\
  kdims (rt_frame r) = kdims l /\ key_labels (rt_frame r) = key_labels l /\ vdims (rt_frame r) = vdims l /\ odims (rt_frame r) = odims l /\ vdate (rt_frame r) = vdate l /\ same_flags l (rt_frame r) /\
  ddims (rt_frame r) = Ages (dlist (ddims l) ++ map (fun j => last (dlist (ddims l)) 0 + grain_months (dgrain t) * (Z.of_nat j + 1))%Z (seq 0 (S (periods_per_year (dgrain t) * cp_years p)))) /\
  ax0 (values (rt_frame r)) = ax0 (values l) /\ ax1 (values (rt_frame r)) = ax1 (values l) /\ ax2 (values (rt_frame r)) = 1%nat /\ ax3 (values (rt_frame r)) = S m /\
  (forall i c d, (d < k)%nat -> rt_cell r i c 0%nat d = r_of (cel l i c 0 d)) /\
  (forall i c, curve_input p t l i c -> exists s b,
     best_line (ax3 (values t) - 1) (takes_part p t l i c) (curve_x (cp_curve p)) (fun d => ln (excess l i c d)) s b /\
     (s <> 0 -> (forall d, (k <= d < m)%nat -> rt_cell r i c 0%nat d = Some (1 + curve_value (cp_curve p) s b d)) /\
                rt_cell r i c 0%nat m = Some (rprod_from m total (fun d => 1 + curve_value (cp_curve p) s b d))) /\
     (s = 0 -> forall d, (k <= d < m)%nat -> rt_cell r i c 0%nat d = None)).
Proof. exact tail_fits. Qed.
Print Assumptions C50_fitted.
(** Factors 3/2, 5/4, 9/8 at 12, 24 and 36 months for [ex44]. *)
Definition exhalf : tri := Tri (kdims ex44) (key_labels ex44) (vdims ex44) [y 2001] (Ages [12; 24; 36]%Z)
  (Arr 1 1 1 3 (fun _ _ _ d => match d with O => Some (qc 3 / qc 2)%Qc | 1%nat => Some (qc 5 / qc 4)%Qc | _ => Some (qc 9 / qc 8)%Qc end)) ULT_VAL (Some false) true (ograin ex44) (dgrain ex44).
Definition excurve (c : curve) (f : fit_period) (extrap : nat) (raise : bool) : curve_params := CurveParams c f extrap raise None (Some 1%Qc) None 1.
Lemma exhalf_for : factors_for ex44 exhalf.
Proof. constructor; [reflexivity|exists [12; 24; 36]%Z; auto|]. cbn. lia. Qed.
Lemma exhalf_excess d : (d < 3)%nat -> excess exhalf 0 0 d = exp (- ln 2 * period_no d + 0).
Proof.
  intros Hd. assert (E : exp (- ln 2 * period_no d + 0) = (/ 2) ^ S d).
  { rewrite <- (exp_ln ((/ 2) ^ S d)) by (apply pow_lt; lra). f_equal. rewrite ln_half_pow. unfold period_no. ring. }
  rewrite E. unfold excess. assert (V : forall a b : positive, rv (Q2Qc (Zpos a # b)) = IZR (Zpos a) / IZR (Zpos b)) by (intros; unfold rv; cbn [this Q2Qc]; rewrite (Qeq_eqR _ _ (Qred_correct (Zpos a # b))); reflexivity).
  destruct d as [|d]; [|destruct d as [|d]; [|destruct d as [|d]; [|lia]]]; cbn [cel exhalf values av nz].
  - replace (qc 3 / qc 2)%Qc with (Q2Qc (3 # 2)) by (apply Qc_is_canon; reflexivity). rewrite V. field.
  - replace (qc 5 / qc 4)%Qc with (Q2Qc (5 # 4)) by (apply Qc_is_canon; reflexivity). rewrite V. field.
  - replace (qc 9 / qc 8)%Qc with (Q2Qc (9 # 8)) by (apply Qc_is_canon; reflexivity). rewrite V. field.
Qed.
Lemma curve_x_ne c j k : j <> k -> curve_x c j <> curve_x c k.
Proof. intros N E. apply N. apply period_no_inj. destruct c; [exact E|]. apply ln_inv; auto; apply period_no_pos. Qed.
Lemma exhalf_input c f raise : period_ok ex44 f -> marked ex44 f 1 = true -> marked ex44 f 2 = true -> curve_input (excurve c f 100 raise) ex44 exhalf 0 0.
Proof.
  intros PO M1 M2. assert (K : forall d, (d < 3)%nat -> exists q, cel exhalf 0 0 0 d = Some q /\ (1 < q)%Qc).
  { intros d Hd. destruct d as [|d]; [|destruct d as [|d]; [|destruct d as [|d]; [|lia]]]; (eexists; split; [reflexivity|reflexivity]). }
  constructor; cbn [excurve cp_curve cp_fit cp_raise].
  - intros d Hd _. destruct (K d Hd) as (q & E & _). rewrite E. discriminate.
  - intros _ d Hd _. destruct (K d Hd) as (q & E & Q). rewrite E. exact Q.
  - exists 1%nat, 2%nat. split; [cbn; lia|]. split; [cbn; lia|]. unfold takes_part. cbn [excurve cp_fit cp_raise]. rewrite M1, M2. split; [destruct raise; reflexivity|]. split; [destruct raise; reflexivity|]. apply curve_x_ne. lia.
Qed.
Definition exspan : fit_period := FSpan (Some 24%Z) None.
Lemma exspan_ok : period_ok ex44 exspan.
Proof. split; [exists 1%nat; reflexivity|]. split; [exact I|]. intros d Hd. cbn in Hd. do 3 (destruct d as [|d]; [reflexivity|]). lia. Qed.
Lemma ex44_start : starts_at None ex44 3. Proof. reflexivity. Qed.
Lemma exhalf_above c f raise : none_below_one (excurve c f 100 raise) ex44 exhalf.
Proof. intros _ i c' d q _ _ Hd E. cbn in Hd. destruct d as [|d]; [|destruct d as [|d]; [|destruct d as [|d]; [|lia]]]; injection E as <-; discriminate. Qed.
Example C50_hyps : forall c raise, let p := excurve c exspan 100 raise in factors_for ex44 exhalf /\ period_ok ex44 (cp_fit p) /\ starts_at (cp_attach p) ex44 3 /\ none_below_one p ex44 exhalf /\
  (ax3 (values exhalf) + periods_per_year (dgrain ex44) * cp_years p <= cp_extrap p + (ax3 (values ex44) - 1))%nat /\ curve_input p ex44 exhalf 0 0.
Proof.
  intros c raise p. split; [apply exhalf_for|]. split; [apply exspan_ok|]. split; [apply ex44_start|]. split; [apply exhalf_above|]. split; [vm_compute; lia|].
  apply exhalf_input; [apply exspan_ok|reflexivity|reflexivity].
Qed.
(** Fitted factors exceed 1, and fall with age if the slope is negative. *)
Theorem C50_decay : forall c s b d, 0 < curve_value c s b d /\ (s < 0 -> forall e, (d < e)%nat -> curve_value c s b e < curve_value c s b d).
Proof. intros c s b d. split; [apply curve_value_pos|]. intros S e L. apply curve_value_decreasing; auto. Qed.
Print Assumptions C50_decay.
(** The whole tail is the product over the extrapolated ages. *)
Theorem C50_tail_product : forall p t l k r i c, factors_for t l -> period_ok t (cp_fit p) -> starts_at (cp_attach p) t k -> none_below_one p t l ->
  (ax3 (values l) + periods_per_year (dgrain t) * cp_years p <= cp_extrap p + (ax3 (values t) - 1))%nat -> tail_curve p t l = Ok r -> curve_input p t l i c ->
  exists s b, best_line (ax3 (values t) - 1) (takes_part p t l i c) (curve_x (cp_curve p)) (fun d => ln (excess l i c d)) s b /\
   (s <> 0 -> whole_tail t r i c = rprod_from (ax3 (values t) - 1) (ax3 (values t) - 1 + cp_extrap p) (fun d => 1 + curve_value (cp_curve p) s b d)).
Proof. exact tail_product. Qed.
Print Assumptions C50_tail_product.
(** The projection period shares the tail out over more or fewer factors, and does not change it. *)
Theorem C50_projection_period : forall p t l k y r r' i c, factors_for t l -> period_ok t (cp_fit p) -> starts_at (cp_attach p) t k -> none_below_one p t l ->
  (ax3 (values l) + periods_per_year (dgrain t) * cp_years p <= cp_extrap p + (ax3 (values t) - 1))%nat -> (ax3 (values l) + periods_per_year (dgrain t) * y <= cp_extrap p + (ax3 (values t) - 1))%nat ->
  tail_curve p t l = Ok r -> tail_curve (with_years p y) t l = Ok r' -> curve_input p t l i c ->
  (exists s b, best_line (ax3 (values t) - 1) (takes_part p t l i c) (curve_x (cp_curve p)) (fun d => ln (excess l i c d)) s b /\ s <> 0) -> whole_tail t r i c = whole_tail t r' i c.
Proof. exact projection_free. Qed.
Print Assumptions C50_projection_period.
(** If the factors fitted lie on a curve, the tail continues that curve. *)
Theorem C50_on_curve : forall p t l k s b r i c, factors_for t l -> period_ok t (cp_fit p) -> starts_at (cp_attach p) t k -> none_below_one p t l ->
  (ax3 (values l) + periods_per_year (dgrain t) * cp_years p <= cp_extrap p + (ax3 (values t) - 1))%nat -> tail_curve p t l = Ok r -> curve_input p t l i c -> s <> 0 ->
  (forall d, (d < ax3 (values t) - 1)%nat -> takes_part p t l i c d = true -> excess l i c d = curve_value (cp_curve p) s b d) ->
  (forall d, (k <= d < ax3 (values l) + periods_per_year (dgrain t) * cp_years p)%nat -> rt_cell r i c 0%nat d = Some (1 + curve_value (cp_curve p) s b d)) /\
  whole_tail t r i c = rprod_from (ax3 (values t) - 1) (ax3 (values t) - 1 + cp_extrap p) (fun d => 1 + curve_value (cp_curve p) s b d).
Proof. exact curve_reproduced. Qed.
Print Assumptions C50_on_curve.
Example C50_on_curve_hyps : - ln 2 <> 0 /\ forall d, (d < 3)%nat -> excess exhalf 0 0 d = curve_value Exponential (- ln 2) 0 d.
Proof. split; [assert (0 < ln 2) by (rewrite <- ln_1; apply ln_increasing; lra); lra|]. intros d Hd. apply exhalf_excess, Hd. Qed.
(** With errors = 'raise' a factor below 1 is refused. *)
Theorem C50_raise : forall p t l i c d q, factors_for t l -> period_ok t (cp_fit p) -> cp_raise p = true ->
  (i < ax0 (values l))%nat -> (c < ax1 (values l))%nat -> (d < ax3 (values t) - 1)%nat -> cel l i c 0 d = Some q -> (q < 1)%Qc -> tail_curve p t l = Err OtherError.
Proof. exact tail_refuses. Qed.
Print Assumptions C50_raise.
Definition exrow (a b c : Qc) : tri := Tri (kdims ex44) (key_labels ex44) (vdims ex44) [y 2001] (Ages [12; 24; 36]%Z)
  (Arr 1 1 1 3 (fun _ _ _ d => match d with O => Some a | 1%nat => Some b | _ => Some c end)) ULT_VAL (Some false) true (ograin ex44) (dgrain ex44).
Lemma exrow_for a b c : factors_for ex44 (exrow a b c).
Proof. constructor; [reflexivity|exists [12; 24; 36]%Z; auto|]. cbn. lia. Qed.
Example C50_raise_hyps : factors_for ex44 (exrow (qc 2) (qc 1 / qc 2) (qc 3))%Qc /\ period_ok ex44 exspan /\ cel (exrow (qc 2) (qc 1 / qc 2) (qc 3))%Qc 0 0 0 1%nat = Some (qc 1 / qc 2)%Qc /\ (qc 1 / qc 2 < 1)%Qc.
Proof. split; [apply exrow_for|]. split; [apply exspan_ok|]. split; reflexivity. Qed.
(** A factor of exactly 1 passes errors = 'raise' and makes every fitted factor missing. *)
Theorem C50_one_refuted : exists p t l r, factors_for t l /\ cp_raise p = true /\ tail_curve p t l = Ok r /\ cel l 0 0 0 1%nat = Some 1%Qc /\ (forall d, (3 <= d < 4)%nat -> rt_cell r 0 0 0 d = None)%nat.
Proof.
  set (l := exrow (qc 2) 1%Qc (qc 3)). set (p := excurve Exponential exspan 100 true).
  assert (NB : none_below_one p ex44 l). { intros _ i c' d q _ _ Hd E. cbn in Hd. destruct d as [|d]; [|destruct d as [|d]; [|destruct d as [|d]; [|lia]]]; injection E as <-; discriminate. }
  destruct (C50_fitted p ex44 l 3 (exrow_for _ _ _) exspan_ok ex44_start NB) as (r & E & _); [vm_compute; lia|].
  exists p, ex44, l, r. split; [apply exrow_for|]. split; [reflexivity|]. split; [exact E|]. split; [reflexivity|].
  intros d Hd. apply (tail_with_one p ex44 l 3 r 0 0 1 (exrow_for _ _ _) exspan_ok ex44_start NB); try reflexivity; [vm_compute; lia|exact E|cbn; lia|exact Hd].
Qed.
Print Assumptions C50_one_refuted.
(** Equal factors, all above 1: every fitted factor is missing. *)
Theorem C50_flat_refuted : exists p t l r, factors_for t l /\ tail_curve p t l = Ok r /\ (forall d, (d < 3)%nat -> cel l 0 0 0 d = Some (qc 2)) /\ (forall d, (3 <= d < 4)%nat -> rt_cell r 0 0 0 d = None)%nat.
Proof.
  set (l := exrow (qc 2) (qc 2) (qc 2)). set (p := excurve Exponential exspan 100 false).
  assert (NB : none_below_one p ex44 l) by (intros R; discriminate R).
  assert (Q : forall d, (d < 3)%nat -> cel l 0 0 0 d = Some (qc 2)) by (intros d Hd; do 3 (destruct d as [|d]; [reflexivity|]); lia).
  destruct (C50_fitted p ex44 l 3 (exrow_for _ _ _) exspan_ok ex44_start NB) as (r & E & _); [vm_compute; lia|].
  exists p, ex44, l, r. split; [apply exrow_for|]. split; [exact E|]. split; [exact Q|].
  intros d Hd. apply (tail_flat p ex44 l 3 r 0 0 (rv (qc 2) - 1) (exrow_for _ _ _) exspan_ok ex44_start NB); [vm_compute; lia|exact E| | |exact Hd].
  - constructor; [intros e He _; rewrite (Q e He); discriminate|intros R; discriminate R|].
    exists 1%nat, 2%nat. split; [cbn; lia|]. split; [cbn; lia|]. split; [reflexivity|]. split; [reflexivity|]. apply curve_x_ne. lia.
  - intros e He _. unfold excess. rewrite (Q e He). reflexivity.
Qed.
Print Assumptions C50_flat_refuted.
(** extrap_periods shorter than the projection period: fewer factors than ages. *)
Theorem C50_short_refuted : exists p t l r, factors_for t l /\ tail_curve p t l = Ok r /\ (ax3 (values (rt_frame r)) < List.length (dlist (ddims (rt_frame r))))%nat.
Proof.
  set (p := CurveParams Exponential exspan 0 false None None None 3).
  assert (NB : none_below_one p ex44 exhalf) by (intros R; discriminate R).
  destruct (tail_curve_eq p ex44 exhalf 3 exhalf_for exspan_ok ex44_start NB) as (r & _ & E & _).
  exists p, ex44, exhalf, r. split; [apply exhalf_for|]. split; [exact E|].
  apply (tail_short p ex44 exhalf 3 r exhalf_for exspan_ok ex44_start NB); [vm_compute; lia|exact E].
Qed.
Print Assumptions C50_short_refuted.
(** A fit period is read by position: in a triangle that begins at 24 months, a fit period from 24 months on leaves out the factor
    at 24 months; a fit period from age 0 keeps only the last factor. *)
Definition exlate : tri := set_ddims ex44 (Ages [24; 36; 48; 60]%Z).
Theorem C50_fit_period_refuted :
  (exists use, fit_positions (dgrain exlate) exspan (ax3 (values exlate) - 1) = Ok use /\ marked exlate exspan 0 = true /\ use 0%nat = false) /\
  (exists use, fit_positions (dgrain ex44) (FSpan (Some 0%Z) None) (ax3 (values ex44) - 1) = Ok use /\ (forall d, (d < 3)%nat -> marked ex44 (FSpan (Some 0%Z) None) d = true) /\ use 0%nat = false /\ use 1%nat = false).
Proof.
  split; eexists; (split; [reflexivity|]).
  - split; reflexivity.
  - split; [|split; reflexivity]. intros d Hd. do 3 (destruct d as [|d]; [reflexivity|]). lia.
Qed.
Print Assumptions C50_fit_period_refuted.

(** C51. Every tail estimator appends one sigma and one standard error.  With T the time at which the least-squares curve through
    the factors less 1 reaches the tail less 1, it is the least-squares curve through the deviations at time T. *)
Theorem C51_tail_deviation : forall sg t l0 l years s i c, let n := (ax3 (values t) - 1)%nat in let k := (periods_per_year (dgrain t) * years + 1)%nat in
  deviations n s i c -> above_one l0 i c -> (i < ax0 (values l))%nat -> (c < ax1 (values l))%nat -> tail_known l k -> none_under_one l k -> (1 < tail_product_of l k i c)%Qc ->
  exists s1 b1 s2 b2, best_line (ax3 (values l0)) always period_no (fun d => ln (excess l0 i c d)) s1 b1 /\ best_line n always period_no (fun d => ln (nzr (s i c d))) s2 b2 /\
    (s1 <> 0 -> s2 <> 0 -> exists T, exp (s1 * T + b1) = rv (tail_product_of l k i c) - 1 /\ tail_deviation sg t l0 l years s i c n = Some (exp (s2 * T + b2))) /\
    (s1 = 0 \/ s2 = 0 -> tail_deviation sg t l0 l years s i c n = None).
Proof. exact tail_deviation_ok. Qed.
Print Assumptions C51_tail_deviation.
(** On log-linear data it is exact. *)
Theorem C51_on_curve : forall sg t l0 l years s i c s1 b1 s2 b2 T, let n := (ax3 (values t) - 1)%nat in let k := (periods_per_year (dgrain t) * years + 1)%nat in
  (2 <= n)%nat -> above_one l0 i c -> (i < ax0 (values l))%nat -> (c < ax1 (values l))%nat -> tail_known l k -> none_under_one l k -> s1 <> 0 -> s2 <> 0 ->
  (forall d, (d < ax3 (values l0))%nat -> excess l0 i c d = exp (s1 * period_no d + b1)) -> (forall d, (d < n)%nat -> s i c d = Some (exp (s2 * period_no d + b2))) ->
  rv (tail_product_of l k i c) - 1 = exp (s1 * T + b1) -> tail_deviation sg t l0 l years s i c n = Some (exp (s2 * T + b2)).
Proof. exact tail_deviation_exact. Qed.
Print Assumptions C51_on_curve.
(** The deviations before the tail are kept. *)
Theorem C51_kept : forall sg t l0 l years s i c d, (d < ax3 (values t) - 1)%nat -> tail_deviation sg t l0 l years s i c d = s i c d.
Proof. exact tail_deviation_kept. Qed.
Print Assumptions C51_kept.
(** Without a tail (every tail factor is 1) the deviation is 0. *)
Theorem C51_no_tail : forall sg t l0 l years s i c, let n := (ax3 (values t) - 1)%nat in let k := (periods_per_year (dgrain t) * years + 1)%nat in
  deviations n s i c -> above_one l0 i c -> tail_known l k -> all_one l k -> (i < ax0 (values l))%nat -> (c < ax1 (values l))%nat ->
  (exists s1 b1, best_line (ax3 (values l0)) always period_no (fun d => ln (excess l0 i c d)) s1 b1 /\ s1 <> 0) -> (exists s2 b2, best_line n always period_no (fun d => ln (nzr (s i c d))) s2 b2 /\ s2 <> 0) ->
  tail_deviation sg t l0 l years s i c n = Some 0.
Proof.
  intros sg t l0 l years s i c n k DV AO TK A1 Hi Hc (s1 & b1 & B1 & S1) (s2 & b2 & B2 & S2). apply tail_deviation_zero; auto.
  - unfold time_slope. destruct (best_line_unique _ _ _ _ _ _ _ _ B1 (line_best _ _ _ _ (always_two _ (ao_two _ _ _ AO)))) as [<- _]. exact S1.
  - intros Z. apply S2. rewrite (proj1 (best_line_unique _ _ _ _ _ _ _ _ B2 (line_best _ _ _ _ (always_two _ (dv_two _ _ _ _ DV))))). exact Z.
Qed.
Print Assumptions C51_no_tail.
(** The factors 3/2, 5/4, 9/8 with a tail of 33/32 in two parts. *)
Definition exlong (q : Qc) : tri := Tri (kdims ex44) (key_labels ex44) (vdims ex44) [y 2001] (Ages [12; 24; 36; 48; 60]%Z)
  (Arr 1 1 1 5 (fun _ _ _ d => match d with O => Some (qc 3 / qc 2)%Qc | 1%nat => Some (qc 5 / qc 4)%Qc | 2%nat => Some (qc 9 / qc 8)%Qc | 3%nat => Some q | _ => Some 1%Qc end)) ULT_VAL (Some false) true (ograin ex44) (dgrain ex44).
Definition exdev : rrow := fun _ _ d => Some ((/ 2) ^ S d).
Lemma exlong_known q : tail_known (exlong q) (periods_per_year (dgrain ex44) * 1 + 1).
Proof. intros i c j _ _ Hj. change (periods_per_year (dgrain ex44) * 1 + 1)%nat with 2%nat in *. do 2 (destruct j as [|j]; [discriminate|]). lia. Qed.
Lemma exlong_product q : tail_product_of (exlong q) (periods_per_year (dgrain ex44) * 1 + 1) 0 0 = q.
Proof. change (periods_per_year (dgrain ex44) * 1 + 1)%nat with 2%nat. unfold tail_product_of. cbn [prodn exlong cel values ax3 av Nat.sub Nat.add nz]. ring. Qed.
Lemma exlong_least q : (1 <= q)%Qc -> none_under_one (exlong q) (periods_per_year (dgrain ex44) * 1 + 1).
Proof. intros Q i c Hi Hc. cbn in Hi, Hc. assert (i = 0%nat) as -> by lia. assert (c = 0%nat) as -> by lia. rewrite exlong_product. exact Q. Qed.
Lemma exhalf_above_one : above_one exhalf 0 0.
Proof. constructor; [cbn; lia|]. intros d Hd. cbn in Hd. destruct d as [|d]; [|destruct d as [|d]; [|destruct d as [|d]; [|lia]]]; (eexists; split; [reflexivity|reflexivity]). Qed.
Example C51_hyps : let k := (periods_per_year (dgrain ex44) * 1 + 1)%nat in let q := (qc 33 / qc 32)%Qc in
  deviations (ax3 (values ex44) - 1) exdev 0 0 /\ above_one exhalf 0 0 /\ tail_known (exlong q) k /\ none_under_one (exlong q) k /\ (1 < tail_product_of (exlong q) k 0 0)%Qc /\ all_one (exlong 1%Qc) k.
Proof.
  cbv zeta. split; [constructor; [cbn; lia|]; intros d Hd; eexists; split; [reflexivity|apply pow_lt; lra]|]. split; [apply exhalf_above_one|]. split; [apply exlong_known|]. split; [apply exlong_least; discriminate|].
  split; [rewrite exlong_product; reflexivity|]. intros i c Hi Hc. cbn in Hi, Hc. assert (i = 0%nat) as -> by lia. assert (c = 0%nat) as -> by lia. apply exlong_product.
Qed.
(** A factor of 1 or less between two others: the ages of the points are mixed up, and the tail's deviation comes out as 2 where
    the others are 1/2, 1/4, 1/8 and the tail is further out than all of them. *)
Theorem C51_gap_refuted : exists t l0 l s, (forall d, (d < 3)%nat -> s 0%nat 0%nat d = Some ((/ 2) ^ S d)) /\ cel l0 0 0 0 0%nat = Some (qc 3 / qc 2)%Qc /\ cel l0 0 0 0 1%nat = Some 1%Qc /\ cel l0 0 0 0 2%nat = Some (qc 9 / qc 8)%Qc /\
  tail_product_of l 2 0 0 = (qc 33 / qc 32)%Qc /\ tail_deviation true t l0 l 1 s 0%nat 0%nat 3%nat = Some 2.
Proof.
  exists ex44, (exrow (qc 3 / qc 2) 1 (qc 9 / qc 8))%Qc, (exlong (qc 33 / qc 32)%Qc), exdev. split; [reflexivity|]. do 3 (split; [reflexivity|]). split; [exact (exlong_product _)|].
  apply tail_gap; try reflexivity; try (cbn; lia).
  - exists 1%Qc. split; [reflexivity|]. discriminate.
  - apply exlong_known.
  - apply exlong_least. discriminate.
Qed.
Print Assumptions C51_gap_refuted.
