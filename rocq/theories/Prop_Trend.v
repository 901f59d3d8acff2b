(** Properties of trending. *)
From Coq Require Import Lia Lra Permutation.
From Verif Require Import P_Trend Ex.
Local Open Scope R_scope.

(** C41. Each known cell is multiplied by the growth from its date, moved into the trend period, to the start date. *)
Theorem C41_factor : forall x r ax s e, wf (rt_frame x) -> real_axis ax -> -1 < r ->
  exists y, trend x r ax s e None = Ok y /\ rt_frame y = rt_frame x /\
  forall i c o d, inside (rt_frame x) o d ->
    (~ open_cell (rt_frame x) o d -> rt_cell y i c o d = None) /\
    (open_cell (rt_frame x) o d -> exists z f,
       nearest (given s (vdate (rt_frame x))) (given e (nth 0 (odims (rt_frame x)) 0%Z)) (date_on (rt_frame x) ax o d) z /\
       grows r (given s (vdate (rt_frame x)) - z) f /\ rt_cell y i c o d = option_map (fun v => v * f) (rt_cell x i c o d)).
Proof. exact trend_value. Qed.
Print Assumptions C41_factor.
(** The date and the growth in [C41_factor] are unique. *)
Theorem C41_factor_unique : forall r a b x n z w f g, -1 < r ->
  (nearest a b x z -> nearest a b x w -> z = w) /\ (grows r n f -> grows r n g -> f = g).
Proof. intros r a b x n z w f g H. split; [apply nearest_unique|apply grows_unique; exact H]. Qed.
Print Assumptions C41_factor_unique.
(** A rate of 0 changes nothing. *)
Theorem C41_zero : forall x ax s e lag, wf (rt_frame x) -> real_axis ax -> blank_future_r x ->
  exists y, trend x 0 ax s e lag = Ok y /\ same_cells x y.
Proof. exact trend_zero. Qed.
Print Assumptions C41_zero.
(** Trending by [r] and then by 1/(1+r)-1 restores the triangle. *)
Theorem C41_inverse : forall x r ax s e lag, wf (rt_frame x) -> real_axis ax -> blank_future_r x -> -1 < r ->
  exists y z, trend x r ax s e lag = Ok y /\ trend y (1 / (1 + r) - 1) ax s e lag = Ok z /\ same_cells x z.
Proof. exact trend_inverse. Qed.
Print Assumptions C41_inverse.
(** Two rates over the same dates are one compound rate. *)
Theorem C41_compound : forall x r r' ax s e lag, wf (rt_frame x) -> real_axis ax -> -1 < r -> -1 < r' ->
  exists y z w, trend x r ax s e lag = Ok y /\ trend y r' ax s e lag = Ok z /\ trend x ((1 + r) * (1 + r') - 1) ax s e lag = Ok w /\ same_cells z w.
Proof. exact trend_rates. Qed.
Print Assumptions C41_compound.
(** The same rate over two adjacent periods is that rate over both. *)
Theorem C41_adjacent : forall x r ax a b c, wf (rt_frame x) -> real_axis ax -> -1 < r -> (a <= b <= c \/ c <= b <= a)%Z ->
  exists y z w, trend x r ax (Some a) (Some b) None = Ok y /\ trend y r ax (Some b) (Some c) None = Ok z /\ trend x r ax (Some a) (Some c) None = Ok w /\ same_cells z w.
Proof. exact trend_adjacent. Qed.
Print Assumptions C41_adjacent.
(** With a rate of at least 0 an earlier date gets at least the factor of a later one. *)
Theorem C41_older_more : forall x r ax s e, wf (rt_frame x) -> real_axis ax -> 0 <= r ->
  exists y, trend x r ax s e None = Ok y /\ forall i c o d o' d' v w v' w', inside (rt_frame x) o d -> inside (rt_frame x) o' d' ->
    (date_on (rt_frame x) ax o d <= date_on (rt_frame x) ax o' d')%Z -> 0 < v -> 0 < v' ->
    rt_cell x i c o d = Some v -> rt_cell x i c o' d' = Some v' -> rt_cell y i c o d = Some w -> rt_cell y i c o' d' = Some w' -> w' / v' <= w / v.
Proof. exact trend_older. Qed.
Print Assumptions C41_older_more.
(** The estimator's factors are the products over all rates and dates, whatever the amounts ... *)
Theorem C41_estimator : forall ax rates dates x, real_axis ax -> wf (rt_frame x) -> List.length dates = List.length rates -> Forall (fun r => -1 < r) rates ->
  exists y, trend_fit x ax rates dates = Ok y /\ rt_frame y = rt_frame x /\
  forall i c o d v, inside (rt_frame x) o d -> open_cell (rt_frame x) o d -> rt_cell x i c o d = Some v -> v <> 0 ->
    exists fs, rt_cell y i c o d = Some (rprod fs) /\
      Forall2 (fun f p => exists z, nearest (given (fst (snd p)) (vdate (rt_frame x))) (given (snd (snd p)) (nth 0 (odims (rt_frame x)) 0%Z)) (date_on (rt_frame x) ax o d) z /\
                             grows (fst p) (given (fst (snd p)) (vdate (rt_frame x)) - z) f) fs (combine rates dates).
Proof. exact trend_fit_product. Qed.
Print Assumptions C41_estimator.
(** ... and do not depend on the order in which rates and dates are listed. *)
Theorem C41_estimator_order : forall ax rates dates rates' dates' x, real_axis ax -> wf (rt_frame x) -> List.length dates = List.length rates -> List.length dates' = List.length rates' ->
  Permutation (combine rates dates) (combine rates' dates') ->
  exists y y', trend_fit x ax rates dates = Ok y /\ trend_fit x ax rates' dates' = Ok y' /\
  forall i c o d v, inside (rt_frame x) o d -> open_cell (rt_frame x) o d -> rt_cell x i c o d = Some v -> v <> 0 -> rt_cell y' i c o d = rt_cell y i c o d.
Proof. exact trend_fit_order. Qed.
Print Assumptions C41_estimator_order.
(** Fewer pairs of dates than rates, and unknown axes, raise an error. *)
Theorem C41_errors : forall ax rates dates x, (List.length dates < List.length rates)%nat ->
  (real_axis ax -> trend_all x ax rates dates = Err IndexError) /\ (forall r s e lag, trend x r TOther s e lag = Err ValueError).
Proof. intros ax rates dates x L. split; [intros A; apply trend_all_short; auto|reflexivity]. Qed.
Print Assumptions C41_errors.

Definition rex3 : rtri := RTri ex3 (fun i c o d => option_map (fun q => Q2R (this q)) (cel ex3 i c o d)).
Lemma rex3_blank : blank_future_r rex3.
Proof.
  intros i c o d [Ho Hd] N. cbn in *. assert (F : future ex3 o d) by (destruct (open_dec ex3 o d) as [|_]; [contradiction|]; unfold open_cell in N; destruct (Z.lt_ge_cases (vdate ex3) (month_of ex3 o d)); [auto|destruct N; right; unfold future; lia]).
  destruct o as [|[|[|]]]; [..|lia]; destruct d as [|[|[|]]]; try lia; try reflexivity; vm_compute in F; discriminate.
Qed.
(** The amount 100 of 2001 at 12 months doubles each year: 400 at the end of 2003 (origin trend of 100%). *)
Example C41_hyps : wf (rt_frame rex3) /\ real_axis TOrigin /\ blank_future_r rex3 /\ -1 < 1 /\ inside ex3 0 0 /\ open_cell ex3 0 0 /\
  rt_cell rex3 0 0 0 0 = Some 100 /\ nearest (dec 2003) (y 2001) (date_on ex3 TOrigin 0 0) (dec 2001) /\ grows 1 (dec 2003 - dec 2001) 4.
Proof.
  split; [apply ex3_wf|]. split; [discriminate|]. split; [apply rex3_blank|]. split; [lra|]. split; [split; cbn; lia|]. split; [right; vm_compute; discriminate|].
  split; [cbn; f_equal; unfold Q2R; cbn; lra|]. split; [|split; [lra|]].
  - change (date_on ex3 TOrigin 0 0) with (dec 2001). unfold nearest, y, dec. split; intros; lia.
  - change (dec 2003 - dec 2001)%Z with 24%Z. cbn [powerRZ]. change (Pos.to_nat 24) with 24%nat. ring.
Qed.

(** The lag of the ultimate is counted the wrong way: with a lag of 12 months the ultimate of 2001, last valued at the end of
    2001, should be trended from the end of 2002 to the end of 2003, so doubled; it is multiplied by 8. *)
Definition rult : rtri := RTri (tri_of [[Some (100%Z); Some (100%Z)]; [Some (100%Z); Some (100%Z)]] [y 2001; y 2002] (Ages [12; 9999]%Z) ULT_VAL (Some true) false)
  (fun _ _ _ _ => Some 100).
Theorem C41_ultimate_lag_refuted : exists x r s e lag y v f, wf (rt_frame x) /\ dlist (ddims (rt_frame x)) = [12; 9999]%Z /\ inside (rt_frame x) 0 1 /\ open_cell (rt_frame x) 0 1 /\
  trend x r TValuation (Some s) (Some e) (Some lag) = Ok y /\ (e <= month_of (rt_frame x) 0 0 + lag <= s)%Z /\
  grows r (s - (month_of (rt_frame x) 0 0 + lag)) f /\ rt_cell x 0 0 0 1 = Some v /\ v <> 0 /\ rt_cell y 0 0 0 1 = Some (v * f * 4).
Proof.
  exists rult, 1, (dec 2003), (y 2001), 12%Z. eexists. exists 100, 2. split; [apply wfb_ok; vm_compute; reflexivity|]. split; [reflexivity|].
  split; [split; cbn; lia|]. split; [right; vm_compute; discriminate|]. split; [reflexivity|]. split; [vm_compute; split; discriminate|].
  split; [split; [lra|]|].
  - change (dec 2003 - (month_of (rt_frame rult) 0 0 + 12))%Z with 12%Z. cbn [powerRZ]. change (Pos.to_nat 12) with 12%nat. ring.
  - split; [reflexivity|]. split; [lra|]. cbn [rt_cell rt_frame rult].
    change (lagged_months _ _ _ _ _ _ _) with 36%Z. change (nan_r _ 0 1) with (Some 1). cbn [rmul]. f_equal. rewrite Rmult_1_r.
    assert (G : trend_factor 1 36 = 8).
    { apply (grows_unique 1 36); [lra|apply tf_grows; lra|]. split; [lra|]. cbn [powerRZ]. change (Pos.to_nat 36) with 36%nat. ring. }
    rewrite G. ring.
Qed.
Print Assumptions C41_ultimate_lag_refuted.
