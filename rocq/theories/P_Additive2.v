(** Proofs about the incremental additive method: the completed triangle. *)
From Coq Require Import Lia.
From Verif Require Import Spec TriFacts ArrFacts ConvFacts SliceFacts BcastFacts DevFacts P_Core P_Filter P_Arith P_Methods P_Agg P_Corr5 P_Additive NumFacts SpecAdditive.
Local Open Scope nat_scope.

Lemma increments_ok t n o0 a0 h : wf t -> blank_future t -> is_pattern t = false -> is_cumulative t = Some true -> square t n o0 a0 h -> 3 <= n -> all_increments t ->
  exists u, cum_to_incr t = Ok u /\ same_frame t u /\ is_cumulative u = Some false /\ is_pattern u = false /\
    forall i c o d, in_range t i c o d -> cel u i c o d = if o + d <? n then Some (increment t i c o d) else None.
Proof.
  intros W B Hp Hc Q Hn Inc. pose proof Q as (R & E2 & E3).
  destruct (cum_to_incr_cell t W Hp) as (u & Eu & F & C1 & C2 & Cell); [congruence|lia|]. exists u. split; [auto|]. split; [auto|]. split; [auto|]. split; [auto|].
  intros i c o d Rg. rewrite Cell by auto. pose proof Rg as (Ri & Rc & Ro & Rd). rewrite E2 in Ro. rewrite E3 in Rd.
  assert (Fu : future t o d <-> n - 1 < o + d) by exact (square_future _ _ _ _ _ _ _ Q Ro Rd).
  destruct d as [|d].
  - rewrite Nat.add_0_r. destruct (Nat.ltb_spec o n); [|lia]. assert (I : increment t i c o 0 <> 0%Qc) by (apply Inc; auto; rewrite Fu; lia).
    cbn [increment] in *. unfold amount in *. destruct (cel t i c o 0); auto. exfalso. apply I. reflexivity.
  - assert (K : diff_kept t o (S d) = negb (vdate t <? month_of t o (S d))%Z) by (unfold diff_kept; rewrite E2, E3; destruct (Nat.eqb_spec (Nat.min n (n - 1)) 1); [lia|reflexivity]).
    rewrite K. destruct (Nat.ltb_spec (o + S d) n) as [L|L].
    + assert (~ future t o (S d)) by (rewrite Fu; lia). unfold future in *. destruct (Z.ltb_spec (vdate t) (month_of t o (S d))); [lia|]. cbn [negb].
      apply n2n_Some. apply (Inc i c o (S d)); auto.
    + assert (future t o (S d)) by (rewrite Fu; lia). unfold future in *. destruct (Z.ltb_spec (vdate t) (month_of t o (S d))); [|lia]. reflexivity.
Qed.

Lemma avg_list t n avg : wf t -> ax3 (values t) = n -> 1 <= n -> (forall d, d < n -> param_at t avg d <> None) -> fits_ages t avg ->
  List.length (validate_assumption t avg) = n /\ forall d, d < n -> param_at t avg d = Some (nth d (validate_assumption t avg) Regression).
Proof.
  intros W E3 Hn Ha Hf. destruct avg as [a|l|f]; cbn [validate_assumption param_at fits_ages] in *.
  - rewrite repeat_length. split; [auto|]. intros d Hd. rewrite (nth_indep _ Regression a) by (rewrite repeat_length; lia). rewrite nth_repeat. reflexivity.
  - assert (L : n - 1 < List.length l) by (apply nth_error_Some; apply (Ha (n - 1)); lia). split; [lia|]. intros d Hd. apply nth_error_nth'. lia.
  - rewrite map_length, <- (wf_d _ W). split; [auto|]. intros d Hd. rewrite (nth_indep _ Regression (f 0%Z)) by (rewrite map_length, <- (wf_d _ W); lia). rewrite map_nth. reflexivity.
Qed.

(** The latest diagonal spans all origins and ages. *)
Lemma latest_diag_shape t n o0 a0 h : wf t -> square t n o0 a0 h -> 2 <= n ->
  exists u, getitem_valuation t (fun o d => (valuation t o d =? vdate t)%Z) = Ok u /\
    dims (values u) (ax0 (values t)) (ax1 (values t)) n n /\
    forall i c o d, i < ax0 (values t) -> c < ax1 (values t) -> o < n -> d < n -> o + d <> n - 1 -> av (values u) i c o d = None.
Proof.
  intros W Q Hn. pose proof Q as (R & E2 & E3). set (key := fun o d => (valuation t o d =? vdate t)%Z).
  assert (H1 : 1 <= h) by apply R.
  assert (K : forall o d, o < n -> d < n -> (key o d = true <-> o + d = n - 1)).
  { intros o d Ho Hd. unfold key. rewrite valuation_month by (auto; lia). rewrite (square_month _ _ _ _ _ _ _ Q Ho Hd), (square_vdate _ _ _ _ _ Q), Z.eqb_eq. nia. }
  assert (Rw : kept_rows t key = seq 0 n).
  { unfold kept_rows. rewrite E2. apply filter_all. intros o Ho. apply in_seq in Ho. apply existsb_exists. exists (n - 1 - o). split; [apply in_seq; lia|]. apply K; lia. }
  assert (Cl : kept_cols t key = seq 0 n).
  { unfold kept_cols. rewrite E3. apply filter_all. intros o Ho. apply in_seq in Ho. apply existsb_exists. exists (n - 1 - o). split; [apply in_seq; lia|]. apply K; lia. }
  destruct (getitem_valuation_ok t key W ltac:(lia)) as (u & Eu & Su).
  - exists 0, (n - 1). split; [lia|]. split; [lia|]. apply K; lia.
  - apply (evenly_interval _ _ 0 n). intros o Ho. split; [lia|]. intros L. exists (n - 1 - o). split; [lia|]. apply K; lia.
  - apply (evenly_interval _ _ 0 n). intros d Hd. split; [lia|]. intros L. exists (n - 1 - d). split; [lia|]. apply K; lia.
  - exists u. split; [exact Eu|]. split; [unfold dims; rewrite (sl_0 _ _ _ Su), (sl_1 _ _ _ Su), (sl_2 _ _ _ Su), (sl_3 _ _ _ Su), Rw, Cl, seq_length; auto|].
    intros i c o d Hi Hc Ho Hd Ne. change (cel u i c o d = None). rewrite (sl_cell _ _ _ Su) by (rewrite ?Rw, ?Cl, ?seq_length; auto). rewrite Rw, Cl, !seq_nth by auto. cbn [Nat.add].
    destruct (key o d) eqn:E; auto. apply K in E; auto. lia.
Qed.

(** The date of the last cell. *)
Lemma last_date t n o0 a0 h v : square t n o0 a0 h -> wf t -> 1 <= n -> zmaxl (valuations (set_values t v)) (vdate t) = (o0 + a0 - 1 + Z.of_nat h * Z.of_nat (2 * (n - 1)))%Z.
Proof.
  intros Q W Hn. pose proof Q as (R & E2 & E3). pose proof (square_vdate _ _ _ _ _ Q) as V.
  assert (In1 : forall x, In x (valuations (set_values t v)) <-> exists o d, o < n /\ d < n /\ x = month_of t o d).
  { intros x. unfold valuations. cbn [set_values odims ddims]. rewrite <- (wf_o _ W), <- (wf_d _ W), E2, E3, in_flat_map. split.
    - intros (o & Ho & Hx). apply in_map_iff in Hx. destruct Hx as (d & <- & Hd). apply in_seq in Ho, Hd. exists o, d. split; [lia|]. split; [lia|]. symmetry.
      rewrite <- valuation_month by (auto; lia). reflexivity.
    - intros (o & d & Ho & Hd & ->). exists o. split; [apply in_seq; lia|]. apply in_map_iff. exists d. split; [|apply in_seq; lia].
      rewrite <- valuation_month by (auto; lia). reflexivity. }
  apply Z.le_antisymm.
  - destruct (zmaxl_in (valuations (set_values t v)) (vdate t)) as [<-|H]; [rewrite V; nia|]. apply In1 in H. destruct H as (o & d & Ho & Hd & ->).
    rewrite (square_month _ _ _ _ _ _ _ Q Ho Hd). nia.
  - apply zmaxl_ge. right. apply In1. exists (n - 1), (n - 1). split; [lia|]. split; [lia|]. rewrite (square_month _ _ _ _ _ _ _ Q) by lia. do 3 f_equal. lia.
Qed.
Lemma last_date_lt t n o0 a0 h : square t n o0 a0 h -> wf t -> 1 <= n -> (o0 + a0 - 1 + Z.of_nat h * Z.of_nat (2 * (n - 1)) < ULT_VAL)%Z.
Proof.
  intros Q W Hn. pose proof Q as (R & E2 & E3). pose proof (wf_dev _ W) as D. destruct R as (H1 & _ & Ro & Rd & R9 & _). rewrite Rd in D. destruct D as (_ & _ & D).
  specialize (D (o0 + Z.of_nat (h * 1 * (n - 1)))%Z (a0 + Z.of_nat (h * (n - 1)))%Z). rewrite Ro in D.
  assert (P1 : In (o0 + Z.of_nat (h * 1 * (n - 1)))%Z (map (fun k => (o0 + Z.of_nat (h * 1 * k))%Z) (seq 0 (ax2 (values t))))) by (apply in_map_iff; exists (n - 1); split; auto; apply in_seq; lia).
  assert (P2 : In (a0 + Z.of_nat (h * (n - 1)))%Z (map (fun k => (a0 + Z.of_nat (h * k))%Z) (seq 0 (ax3 (values t))))) by (apply in_map_iff; exists (n - 1); split; auto; apply in_seq; lia).
  specialize (D P1 P2 ltac:(apply R9; lia)). nia.
Qed.

(** ** The months of trend *)
Lemma level_months t u n o0 a0 h o d : wf t -> square t n o0 a0 h -> same_frame t u -> o < n -> d < n -> o + d < n ->
  Trend.trend_months u Trend.TValuation None None o d = (vdate t - month_of t o d)%Z.
Proof.
  intros W Q F Ho Hd L. pose proof Q as (R & E2 & E3). unfold Trend.trend_months, Trend.cell_date.
  assert (Wu : wf u) by exact (wf_same_frame _ _ W F).
  rewrite valuation_month by (auto; rewrite ?(sf_2 _ _ F), ?(sf_3 _ _ F); lia).
  assert (M : month_of u o d = month_of t o d) by (unfold month_of; rewrite (sf_o _ _ F), (sf_d _ _ F); reflexivity). rewrite M, (sf_vd _ _ F), (sf_o _ _ F).
  rewrite (square_month _ _ _ _ _ _ _ Q Ho Hd), (square_vdate _ _ _ _ _ Q).
  assert (O0 : nth 0 (odims t) 0%Z = o0). { destruct R as (_ & _ & Ro & _). rewrite Ro, nth_map_seq by lia. nia. }
  assert (A1 : (1 <= a0)%Z). { destruct R as (_ & _ & _ & Rd & _). pose proof (wf_dev _ W) as D. rewrite Rd in D. destruct D as (D & _). apply (D a0). apply in_map_iff. exists 0. split; [nia|]. apply in_seq. lia. }
  rewrite O0. destruct (Z.ltb_spec (o0 + a0 - 1 + Z.of_nat h * Z.of_nat (n - 1)) o0); nia.
Qed.
Lemma future_months (u : tri) s o d : wf u -> o < ax2 (values u) -> d < ax3 (values u) -> (month_of u o d <= vdate u)%Z -> (s <= vdate u)%Z ->
  Trend.trend_months u Trend.TValuation (Some s) (Some (vdate u)) o d = (- Z.max 0 (month_of u o d - s))%Z.
Proof.
  intros W Ho Hd Le Ls. unfold Trend.trend_months, Trend.cell_date. rewrite valuation_month by auto.
  destruct (Z.ltb_spec s (vdate u)); lia.
Qed.

Record additive_facts (pw : Qc -> Z -> Qc) (rate : Qc) (future : option Qc) (t : tri) (n : nat) (e : arr) (E : nat -> nat -> nat -> Qc) (avg : per_age average) (r : additive) (obj : tri) : Prop := {
  af_zeta : dims (ad_zeta r) (ax0 (values t)) (ax1 (values t)) 1 n;
  af_z : forall i c d a, i < ax0 (values t) -> c < ax1 (values t) -> d < n -> param_at t avg d = Some a ->
    stores (av (ad_zeta r) i c 0 d) (loss_rate pw rate a t n E i c d);
  af_ow : wf obj; af_of : forall o d, o < n -> d < n -> (month_of obj o d <= vdate obj)%Z;
  af_om : forall o d, month_of obj o d = month_of t o d;
  af_op : is_pattern obj = false; af_oc : is_cumulative obj = Some false;
  af_od : dims (values obj) (ax0 (values t)) (ax1 (values t)) n n;
  af_o : forall i c o d a, i < ax0 (values t) -> c < ax1 (values t) -> o < n -> d < n -> param_at t avg d = Some a -> loss_rate pw rate a t n E i c d <> 0%Qc ->
    cel obj i c o d = Some (if o + d <? n then increment t i c o d / E i c o else loss_rate pw rate a t n E i c d)%Qc;
  af_missing : forall i c o d a, i < ax0 (values t) -> c < ax1 (values t) -> o < n -> d < n -> param_at t avg d = Some a -> loss_rate pw rate a t n E i c d = 0%Qc ->
    cel obj i c o d = None;
  af_frame : kdims (ad_incremental r) = kdims t /\ vdims (ad_incremental r) = vdims t /\ odims (ad_incremental r) = odims t /\ ddims (ad_incremental r) = ddims t /\
    dims (values (ad_incremental r)) (ax0 (values t)) (ax1 (values t)) n n;
  af_vdate : vdate (ad_incremental r) = month_of t (n - 1) (n - 1);
  af_inc : forall i c o d, i < ax0 (values t) -> c < ax1 (values t) -> o < n -> d < n ->
    cel (ad_incremental r) i c o d = cmul (cel obj i c o d) (Some (E i c o * pw (1 / (1 + future_rate rate future)) (- Z.max 0 (month_of t o d - vdate t))%Z)%Qc);
  af_ldf : link_ratio (incr_to_cum obj) = Ok (ad_ldf r) }.

Lemma rate_shift f : (1 + (1 / (1 + f) - 1) = 1 / (1 + f))%Qc.
Proof. unfold Qcdiv. ring. Qed.

Lemma additive_ok pw rate fut t n e E avg : additive_input t n e E avg -> 
  (forall obj, wf obj -> (forall o d, o < n -> d < n -> (month_of obj o d <= vdate obj)%Z) -> is_pattern obj = false -> is_cumulative obj = Some false -> ax2 (values obj) = n -> ax3 (values obj) = n ->
     exists l, link_ratio (incr_to_cum obj) = Ok l) ->
  exists r obj, additive_fit pw rate fut avg t (Some e) = Ok r /\ additive_facts pw rate fut t n e E avg r obj.
Proof.
  intros [W B Hp Hc (o0 & a0 & h & Q) Hn P0 P1 Inc (X0 & X1 & X2 & X3 & Xv) Ha Hf] Lk. pose proof Q as (R & E2 & E3). set (n0 := ax0 (values t)) in *. set (n1 := ax1 (values t)) in *.
  destruct (avg_list t n avg W E3 ltac:(lia) Ha Hf) as (La & Na).
  destruct (increments_ok t n o0 a0 h W B Hp Hc Q Hn Inc) as (xi & Exi & F & Cu & Pu & Cell).
  assert (Wx : wf xi) by exact (wf_same_frame _ _ W F).
  assert (De : dims e n0 n1 n 1) by (unfold dims; repeat split; auto; congruence).
  assert (Dxi : dims (values xi) n0 n1 n n) by (unfold dims; rewrite (sf_0 _ _ F), (sf_1 _ _ F), (sf_2 _ _ F), (sf_3 _ _ F); auto).
  assert (Mx : forall o d, month_of xi o d = month_of t o d) by (intros; unfold month_of; rewrite (sf_o _ _ F), (sf_d _ _ F); reflexivity).
  unfold additive_fit. assert (Ed : exists l, ddims t = Ages l) by (destruct R as (_ & _ & _ & Rd & _); eauto). destruct Ed as (l & ->). rewrite Exi. cbn [rbind].
  set (xt := trend_q pw xi rate None None).
  assert (Dxt : dims (values xt) n0 n1 n n) by exact Dxi.
  assert (Nt : forall o d, o < n -> d < n -> nan_triangle xi o d = if o + d <? n then Some 1%Qc else None).
  { intros o d Ho Hd. rewrite nan_triangle_cases by (auto; rewrite ?(sf_2 _ _ F), ?(sf_3 _ _ F); lia). rewrite (sf_2 _ _ F), (sf_3 _ _ F), E2, E3, (sf_vd _ _ F), Mx.
    destruct (Nat.eqb_spec (Nat.min n n) 1); [lia|]. pose proof (square_future _ _ _ _ _ _ _ Q Ho Hd) as Fu. unfold future in Fu.
    destruct (Nat.ltb_spec (o + d) n); destruct (Z.ltb_spec (vdate t) (month_of t o d)); auto; exfalso; [assert (n - 1 < o + d) by (apply Fu; lia); lia|assert (vdate t < month_of t o d)%Z by (apply Fu; lia); lia]. }
  assert (Cxt : forall i c o d, i < n0 -> c < n1 -> o < n -> d < n -> av (values xt) i c o d = if o + d <? n then Some (at_level pw rate t i c o d) else None).
  { intros i c o d Hi Hc' Ho Hd. unfold xt, trend_q. cbn [set_values values av]. change (av (values xi) i c o d) with (cel xi i c o d). rewrite Cell by (repeat split; auto; lia). rewrite Nt by auto.
    destruct (Nat.ltb_spec (o + d) n) as [L|L]; [|reflexivity]. rewrite (level_months t xi n o0 a0 h) by auto. cbn [cmul]. rewrite Qcmult_1_r. reflexivity. }
  unfold div_arr. destruct (bm cdiv (values xt) e n0 n1 n n) as (xv & -> & Dx & Vx); [fit..|]. cbn [rbind]. set (x := set_values xt xv).
  assert (Ex : forall i c o, i < n0 -> c < n1 -> o < n -> av e i c o 0 = Some (E i c o) /\ (0 < E i c o)%Qc) by (intros; apply Xv; auto; lia).
  assert (Cx : forall i c o d, i < n0 -> c < n1 -> o < n -> d < n -> av xv i c o d = if o + d <? n then Some (at_level pw rate t i c o d / E i c o)%Qc else None).
  { intros i c o d Hi Hc' Ho Hd. rewrite Vx, (bav_full _ n0 n1 n n), (bav_col _ n0 n1 n) by auto. rewrite Cxt by auto. destruct (Ex i c o Hi Hc' Ho) as (-> & Pe). apply qpos_nz in Pe.
    destruct (Nat.ltb_spec (o + d) n); [|reflexivity]. cbn [cdiv]. destruct (Qc_eqb_spec (E i c o) 0%Qc); [contradiction|reflexivity]. }
  destruct (base_fit_ok (validate_assumption xt avg) e (values xt) (map_arr n2n (map_arr (fun c => Some (if is_nan c then 0%Qc else 1%Qc)) (values x))) n0 n1 n n E (fun d => n - d) (at_level pw rate t))
    as (reg & -> & Dz & Vz); auto; try lia.
  { unfold validate_assumption in *. cbn [xt trend_q set_values ddims values ax3]. rewrite (sf_d _ _ F), (sf_3 _ _ F). exact La. }
  { intros i c o d Hi Hc' Ho Hd. rewrite Cxt by auto. destruct (Nat.ltb_spec (o + d) n), (Nat.ltb_spec o (n - d)); auto; lia. }
  { intros i c o d Hi Hc' Ho Hd. cbn [map_arr av x set_values values]. rewrite Cx by auto. destruct (Nat.ltb_spec (o + d) n), (Nat.ltb_spec o (n - d)); auto; lia. }
  cbn [rbind]. set (z := wls_slope reg) in *.
  assert (Av : forall d, nth d (validate_assumption xt avg) Regression = nth d (validate_assumption t avg) Regression).
  { intros d. unfold validate_assumption. cbn [xt trend_q set_values ddims values ax3]. rewrite (sf_d _ _ F), (sf_3 _ _ F). reflexivity. }
  assert (Sz : forall i c d a, i < n0 -> c < n1 -> d < n -> param_at t avg d = Some a -> stores (av z i c 0 d) (loss_rate pw rate a t n E i c d)).
  { intros i c d a Hi Hc' Hd Pa. specialize (Vz i c d Hi Hc' Hd). rewrite Av in Vz. rewrite (Na d Hd) in Pa. injection Pa as <-. exact Vz. }
  change (ax2 (values x)) with (ax2 xv). replace (ax2 xv) with n by (symmetry; apply Dx).
  assert (Wxx : wf x). { apply wf_set_values; [apply wf_set_values; [exact Wx|reflexivity..]|..]; cbn; destruct Dxi as (D0 & D1 & D2 & D3); destruct Dx as (Dx0 & Dx1 & Dx2 & Dx3); congruence. }
  assert (Qx : square x n o0 a0 h).
  { unfold square, regular in *. change (odims x) with (odims xi). change (ddims x) with (ddims xi). change (vdate x) with (vdate xi). rewrite (sf_o _ _ F), (sf_d _ _ F), (sf_vd _ _ F).
    replace (ax2 (values x)) with (ax2 (values t)) by (destruct Dx as (? & ? & ? & ?); cbn; congruence). replace (ax3 (values x)) with (ax3 (values t)) by (destruct Dx as (? & ? & ? & ?); cbn; congruence). exact Q. }
  destruct (latest_diag_shape x n o0 a0 h Wxx Qx ltac:(lia)) as (ld & Eld & Dld & Cld). rewrite Eld. cbn [rbind]. change (ax0 (values x)) with (ax0 xv) in *. change (ax1 (values x)) with (ax1 xv) in *.
  set (na := map_arr (fun c => Some (1 - nz c)%Qc) (nan_arr x)).
  assert (Dna : dims na 1 1 n n). { unfold dims, na, nan_arr. cbn [map_arr ax0 ax1 ax2 ax3]. destruct Dx as (? & ? & ? & ?). auto. }
  assert (Cna : forall o d, o < n -> d < n -> av na 0 0 o d = Some (if o + d <? n then 0%Qc else 1%Qc)).
  { intros o d Ho Hd. unfold na, nan_arr. cbn [map_arr av]. assert (Nx : nan_triangle x o d = nan_triangle xi o d) by (apply nan_triangle_ext; auto; cbn; destruct Dx as (? & ? & ? & ?); destruct Dxi as (? & ? & ? & ?); congruence).
    rewrite Nx, Nt by auto. destruct (o + d <? n); cbn [nz]; f_equal; ring. }
  set (kl := Arr 1 1 (ax2 (values ld)) (ax3 (values ld)) (fun _ _ o d => Some (nz (known (av (values ld) 0 0 o d))))).
  assert (Dkl : dims kl 1 1 n n) by (unfold dims, kl; cbn; destruct Dld as (? & ? & ? & ?); auto).
  destruct (bm cadd na kl 1 1 n n) as (kp & -> & Dkp & Vkp); [fit..|]. cbn [rbind].
  assert (Ckp : forall o d, o < n -> d < n -> exists q, av kp 0 0 o d = Some q /\ (n <= o + d -> q = 1%Qc)).
  { intros o d Ho Hd. rewrite Vkp, !(bav_11 _ n n) by auto. rewrite Cna by auto. unfold kl. cbn [av cadd]. eexists. split; [reflexivity|]. intros L.
    rewrite Cld by (auto; try lia; destruct Dx as (? & ? & ? & ?); lia). destruct (Nat.ltb_spec (o + d) n); [lia|]. cbn [known nz]. reflexivity. }
  set (y_ := Arr (ax0 z) (ax1 z) n (ax3 z) (fun i c _ d => av z i c 0 d)).
  assert (Dy : dims y_ n0 n1 n n) by (unfold dims, y_; cbn; destruct Dz as (? & ? & ? & ?); auto).
  destruct (bm cmul y_ kp n0 n1 n n) as (v1 & -> & D1 & V1); [fit..|]. cbn [rbind].
  destruct (bm cmul v1 na n0 n1 n n) as (v2 & -> & D2 & V2); [fit..|]. cbn [rbind].
  destruct (bm cdiv (values xi) e n0 n1 n n) as (ob & -> & D3 & V3); [fit..|]. cbn [rbind].
  destruct (bm cadd v2 (map_arr (fun c => Some (nz c)) ob) n0 n1 n n) as (v3 & -> & D4 & V4); [fit..|]. cbn [rbind].
  set (obj0 := set_values x (map_arr n2n v3)). set (obj := set_vdate obj0 (zmaxl (valuations obj0) (vdate x))).
  assert (Vd : vdate obj = (o0 + a0 - 1 + Z.of_nat h * Z.of_nat (2 * (n - 1)))%Z) by (cbn [obj set_vdate vdate]; apply (last_date x n); auto; lia).
  assert (Dob : dims (values obj) n0 n1 n n) by exact D4.
  assert (Mo : forall o d, month_of obj o d = month_of t o d) by exact Mx.
  assert (Wo : wf obj).
  { pose proof Dob as (Do0 & Do1 & Do2 & Do3). pose proof (last_date_lt _ _ _ _ _ Q W ltac:(lia)). constructor.
    - change (kdims obj) with (kdims xi). rewrite (sf_k _ _ F), <- (wf_k _ W). exact Do0.
    - change (vdims obj) with (vdims xi). rewrite (sf_v _ _ F), <- (wf_v _ W). exact Do1.
    - change (odims obj) with (odims xi). rewrite (sf_o _ _ F), <- (wf_o _ W). congruence.
    - change (ddims obj) with (ddims xi). rewrite (sf_d _ _ F), <- (wf_d _ W). congruence.
    - lia.
    - lia.
    - apply Wx.
    - apply Wx.
    - rewrite Vd. lia.
    - pose proof (wf_dev _ Wx) as Wd. change (odims obj) with (odims xi). change (ddims obj) with (ddims xi). destruct (ddims xi); auto. destruct Wd as (A1 & A2 & A3). split; [auto|]. split; [|auto].
      intros o Ho. specialize (A2 o Ho). rewrite (sf_vd _ _ F), (square_vdate _ _ _ _ _ Q) in A2. rewrite Vd. nia. }
  assert (Fo : forall o d, o < n -> d < n -> (month_of obj o d <= vdate obj)%Z).
  { intros o d Ho Hd. rewrite Mo, (square_month _ _ _ _ _ _ _ Q Ho Hd), Vd. nia. }
  assert (Co : forall i c o d, i < n0 -> c < n1 -> o < n -> d < n -> cel obj i c o d =
     match av z i c 0 d with Some q => n2n (Some (if o + d <? n then increment t i c o d / E i c o else q)%Qc) | None => None end).
  { intros i c o d Hi Hc' Ho Hd. unfold cel. cbn [obj obj0 set_vdate set_values values map_arr av]. rewrite V4, (bav_full v2 n0 n1 n n), (bav_full _ n0 n1 n n) by auto. cbn [map_arr av].
    rewrite V2, (bav_full v1 n0 n1 n n), (bav_11 na n n) by auto. rewrite V1, (bav_full y_ n0 n1 n n), (bav_11 kp n n) by auto. rewrite V3, (bav_full (values xi) n0 n1 n n), (bav_col e n0 n1 n) by auto.
    destruct (Ckp o d Ho Hd) as (q1 & -> & Q1). rewrite Cna by auto. change (av (values xi) i c o d) with (cel xi i c o d). rewrite Cell by (repeat split; auto; lia). unfold y_. cbn [av].
    destruct (av z i c 0 d) as [zq|]; [|reflexivity]. destruct (Ex i c o Hi Hc' Ho) as (-> & Pe). apply qpos_nz in Pe. destruct (Nat.ltb_spec (o + d) n) as [L|L].
    - cbn [cdiv cmul]. destruct (Qc_eqb_spec (E i c o) 0%Qc); [contradiction|]. cbn [nz cadd]. do 2 f_equal. ring.
    - rewrite (Q1 L). cbn [cdiv cmul nz cadd]. do 2 f_equal. ring. }
  destruct (Lk obj Wo Fo Pu Cu (proj1 (proj2 (proj2 Dob))) (proj2 (proj2 (proj2 Dob)))) as (lf & Elf).
  unfold mul_arr. destruct (bm cmul (values obj) e n0 n1 n n) as (iv & -> & Di & Vi); [fit..|]. cbn [rbind]. rewrite Elf. cbn [rbind].
  eexists. exists obj. split; [reflexivity|].
  constructor; cbn [ad_zeta ad_incremental ad_ldf].
  - exact Dz.
  - exact Sz.
  - exact Wo.
  - exact Fo.
  - exact Mo.
  - exact Pu.
  - exact Cu.
  - exact Dob.
  - intros i c o d a Hi Hc' Ho Hd Pa Nz. rewrite Co by auto. destruct (Sz i c d a Hi Hc' Hd Pa) as (_ & S2). rewrite (S2 Nz). apply n2n_Some.
    destruct (Nat.ltb_spec (o + d) n) as [L|L]; auto. destruct (Ex i c o Hi Hc' Ho) as (_ & Pe). apply qpos_nz in Pe.
    assert (I : increment t i c o d <> 0%Qc). { apply Inc; [repeat split; auto; lia|]. rewrite (square_future _ _ _ _ _ _ _ Q) by auto. lia. }
    intros Z. apply I. replace (increment t i c o d) with (increment t i c o d / E i c o * E i c o)%Qc by (field; auto). rewrite Z. ring.
  - intros i c o d a Hi Hc' Ho Hd Pa Z. rewrite Co by auto. destruct (Sz i c d a Hi Hc' Hd Pa) as (S1 & _). rewrite (S1 Z). reflexivity.
  - cbn [trend_q set_values kdims vdims odims ddims values]. split; [apply F|]. split; [apply F|]. split; [apply F|]. split; [apply F|]. exact Di.
  - change (vdate obj = month_of t (n - 1) (n - 1)). rewrite Vd, (square_month _ _ _ _ _ _ _ Q) by lia. do 3 f_equal. lia.
  - intros i c o d Hi Hc' Ho Hd. unfold cel. set (inc := set_values obj iv).
    assert (Wi : wf inc). { apply wf_set_values; auto; destruct Di as (? & ? & ? & ?); destruct Dob as (? & ? & ? & ?); congruence. }
    cbn [trend_q set_values values av]. change (av iv i c o d) with (av (values inc) i c o d).
    assert (Ni : nan_triangle inc o d = Some 1%Qc).
    { rewrite nan_triangle_cases by (auto; destruct Di as (? & ? & ? & ?); cbn; lia). change (ax2 (values inc)) with (ax2 iv). change (ax3 (values inc)) with (ax3 iv). change (vdate inc) with (vdate obj). change (month_of inc o d) with (month_of obj o d).
      destruct (Nat.eqb_spec (Nat.min (ax2 iv) (ax3 iv)) 1); auto. specialize (Fo o d Ho Hd). destruct (Z.ltb_spec (vdate obj) (month_of obj o d)); [lia|reflexivity]. }
    change (vdate (set_values obj iv)) with (vdate inc). rewrite (future_months inc (vdate t) o d) by (auto; try (destruct Di as (? & ? & ? & ?); cbn; lia); try (apply Fo; auto); change (vdate inc) with (vdate obj); rewrite Vd, (square_vdate _ _ _ _ _ Q); nia).
    fold inc. rewrite Ni. change (month_of inc o d) with (month_of obj o d). rewrite Mo, rate_shift.
    change (av (values inc) i c o d) with (av iv i c o d). rewrite Vi, (bav_full _ n0 n1 n n), (bav_col e n0 n1 n) by auto. destruct (Ex i c o Hi Hc' Ho) as (-> & _).
    destruct (av (values obj) i c o d); [|reflexivity]. cbn [cmul]. f_equal. ring.
  - exact Elf.
Qed.
