(** Development factors are the stated averages (C25) and what follows (C26). *)
From Coq Require Import Lia Field.
From Verif Require Export DevFacts.

Local Open Scope Z_scope.

Lemma firstn_nth {A} (l : list A) n k d : (k < n)%nat -> nth k (firstn n l) d = nth k l d.
Proof. revert n k. induction l as [|x l IH]; intros [|n] [|k] H; auto; try lia. cbn [firstn nth]. apply IH. lia. Qed.

Lemma param_at_spec {A} t (v : per_age A) : wf t -> covers t v -> (2 <= ax3 (values t))%nat ->
  List.length (firstn (ax3 (values t) - 1) (validate_assumption t v)) = (ax3 (values t) - 1)%nat /\
  forall d a, (S d < ax3 (values t))%nat -> param_at t v d = Some (nth d (firstn (ax3 (values t) - 1) (validate_assumption t v)) a).
Proof.
  intros W H Hn. destruct v as [b|l|f]; cbn [validate_assumption param_at] in *.
  - split; [rewrite firstn_length, repeat_length; lia|]. intros d a Hd. rewrite firstn_nth by lia. rewrite (nth_indep _ a b) by (rewrite repeat_length; lia).
    rewrite nth_repeat. reflexivity.
  - assert (L : (ax3 (values t) - 2 < List.length l)%nat) by (apply nth_error_Some; apply (H (ax3 (values t) - 2)%nat); lia).
    split; [rewrite firstn_length; lia|]. intros d a Hd. rewrite firstn_nth by lia. apply nth_error_nth'. lia.
  - split; [rewrite firstn_length, map_length, <- (wf_d _ W); lia|]. intros d a Hd. rewrite firstn_nth by lia.
    rewrite (nth_indep _ a (f 0)) by (rewrite map_length, <- (wf_d _ W); lia). rewrite map_nth. reflexivity.
Qed.

Lemma n2n_cases x : (n2n x = None /\ nz x = 0%Qc) \/ (n2n x = Some (nz x) /\ nz x <> 0%Qc).
Proof. destruct x as [q|]; [|left; auto]. cbn [n2n nz]. destruct (Qc_eqb_spec q 0%Qc); auto. Qed.
Lemma cmul_None_r c : cmul c None = None.
Proof. destruct c; reflexivity. Qed.
Lemma Qc_eqb_00 : Qc_eqb 0%Qc 0%Qc = true.
Proof. reflexivity. Qed.
Lemma Qc_eqb_ne x : x <> 0%Qc -> Qc_eqb x 0%Qc = false.
Proof. destruct (Qc_eqb_spec x 0%Qc); congruence. Qed.

(** One summand of the regression. *)
Definition wcell (a : average) (x y w : cell) : cell :=
  n2n (cdiv w (cpow (n2n x) (let e := nz (cmul (Some (qc (Z.of_nat (exponent a)))) (known (n2n y))) in
    if Qc_eqb e 0%Qc then 0 else if Qc_eqb e 1%Qc then 1 else 2)%nat)).
Definition sel1 (x y w : cell) : bool := pos_weight w && negb (Qc_eqb (nz x) 0%Qc) && negb (Qc_eqb (nz y) 0%Qc).

Lemma wcell_val a x y w : cell01 w -> nz x <> 0%Qc -> nz y <> 0%Qc ->
  wcell a x y w = if pos_weight w then Some (1 / match a with Volume => nz x | Simple => nz x * nz x | Regression => 1 end)%Qc else None.
Proof.
  intros Hw Hx Hy. unfold wcell. destruct (n2n_cases x) as [[_ X]|[-> _]]; [congruence|]. destruct (n2n_cases y) as [[_ Y]|[-> _]]; [congruence|].
  rewrite known_cases. cbn [cmul nz]. rewrite Qcmult_1_r.
  assert (Hd : forall (e : Qc), e <> 0%Qc -> n2n (cdiv w (Some e)) = if pos_weight w then Some (1 / e)%Qc else None).
  { intros e He. destruct Hw as [-> | [-> | ->]]; cbn [pos_weight].
    - reflexivity.
    - rewrite cdiv_Some by auto. replace (0 / e)%Qc with 0%Qc by (field; auto). reflexivity.
    - rewrite cdiv_Some by auto. apply n2n_Some. intros E. apply (f_equal (fun z => (z * e)%Qc)) in E.
      rewrite Qcmult_0_l in E. unfold Qcdiv in E. rewrite <- Qcmult_assoc, (Qcmult_comm (/ e)), Qcmult_inv_r in E by auto. discriminate E. }
  destruct a; cbn [exponent]; cbn [Z.of_nat Pos.of_succ_nat Pos.succ].
  - change (cpow _ _) with (Some 1%Qc). apply Hd. discriminate.
  - change (cpow _ _) with (Some (nz x * 1)%Qc). rewrite Qcmult_1_r. apply Hd. auto.
  - change (cpow _ _) with (Some (nz x * (nz x * 1))%Qc). rewrite Qcmult_1_r. apply Hd. intros E. apply Qcmult_integral in E. tauto.
Qed.

Lemma term_num a x y w : cell01 w ->
  nz (cmul (cmul (wcell a x y w) (n2n x)) (n2n y)) =
  if sel1 x y w then match a with Volume => nz y | Simple => (nz y / nz x)%Qc | Regression => (nz x * nz y)%Qc end else 0%Qc.
Proof.
  intros Hw. unfold sel1. destruct (n2n_cases y) as [[-> ->]|[Ey Hy]].
  { rewrite cmul_None_r, Qc_eqb_00, andb_false_r. reflexivity. }
  destruct (n2n_cases x) as [[-> ->]|[Ex Hx]].
  { rewrite cmul_None_r, Qc_eqb_00, andb_false_r. reflexivity. }
  rewrite (wcell_val a x y w) by auto. rewrite Ex, Ey, !Qc_eqb_ne by auto. cbn [negb]. rewrite !andb_true_r.
  destruct (pos_weight w); [|reflexivity]. cbn [cmul nz]. destruct a; field; auto; try discriminate.
Qed.
Lemma term_den a x y w : cell01 w ->
  nz (cmul (cmul (cmul (wcell a x y w) (n2n x)) (n2n x)) (known (n2n y))) =
  if sel1 x y w then match a with Volume => nz x | Simple => 1%Qc | Regression => (nz x * nz x)%Qc end else 0%Qc.
Proof.
  intros Hw. unfold sel1. destruct (n2n_cases y) as [[-> ->]|[Ey Hy]].
  { rewrite known_cases, cmul_None_r, Qc_eqb_00, andb_false_r. reflexivity. }
  destruct (n2n_cases x) as [[-> ->]|[Ex Hx]].
  { rewrite cmul_None_r, Qc_eqb_00, andb_false_r. reflexivity. }
  rewrite (wcell_val a x y w) by auto. rewrite Ex, Ey, !Qc_eqb_ne by auto. cbn [negb]. rewrite !andb_true_r, known_cases.
  destruct (pos_weight w); [|reflexivity]. cbn [cmul nz]. destruct a; field; auto; try discriminate.
Qed.
Lemma coef_wavg a n sel x y : cdiv (n2n (Some (avg_num a n sel x y))) (n2n (Some (avg_den a n sel x))) = wavg a n sel x y.
Proof.
  unfold wavg. cbn [n2n]. destruct (Qc_eqb_spec (avg_num a n sel x y) 0%Qc); [reflexivity|].
  destruct (Qc_eqb_spec (avg_den a n sel x) 0%Qc) as [|H]; [reflexivity|]. apply cdiv_Some; auto.
Qed.

(** Residuals. *)
Lemma avg_pow_pos a x : (0 < x)%Qc -> (0 < avg_pow a x)%Qc.
Proof. intros H. destruct a; cbn; [reflexivity|auto|qnra]. Qed.

Lemma term_res a x y w f : cell01 w -> (sel1 x y w = true -> 0 < nz x)%Qc ->
  nz (sq_resid (wcell a x y w) (csub (n2n y) (cmul (cmul (Some f) (n2n x)) (known (n2n y))))) =
  if sel1 x y w then ((nz y - f * nz x) * (nz y - f * nz x) / avg_pow a (nz x))%Qc else 0%Qc.
Proof.
  intros Hw Hx. unfold sel1 in *. destruct (n2n_cases y) as [[-> ->]|[Ey Hy]].
  { rewrite Qc_eqb_00, andb_false_r. cbn [csub]. unfold sq_resid. destruct (wcell _ _ _ _); [|reflexivity]. destruct (Qc_ltb _ _); [reflexivity|]. reflexivity. }
  destruct (n2n_cases x) as [[-> ->]|[Ex Hx0]].
  { rewrite Qc_eqb_00, andb_false_r. cbn [cmul]. rewrite Ey. cbn [csub]. unfold sq_resid. destruct (wcell _ _ _ _); [|reflexivity]. destruct (Qc_ltb _ _); reflexivity. }
  rewrite (wcell_val a x y w) by auto. rewrite !Qc_eqb_ne in * by auto. cbn [negb] in *. rewrite !andb_true_r in *.
  destruct (pos_weight w); [|reflexivity]. specialize (Hx eq_refl). rewrite Ex, Ey, known_cases. cbn [cmul csub].
  fold (avg_pow a (nz x)). pose proof (avg_pow_pos a (nz x) Hx) as P.
  assert (NP : avg_pow a (nz x) <> 0%Qc) by (intros E; rewrite E in P; discriminate).
  unfold sq_resid.
  assert (LT : Qc_ltb (1 / avg_pow a (nz x)) 0%Qc = false).
  { destruct (Qc_ltb_spec (1 / avg_pow a (nz x))%Qc 0%Qc) as [L|]; auto. exfalso.
    assert (E : (1 / avg_pow a (nz x) * avg_pow a (nz x) = 1)%Qc) by (field; auto). set (z := (1 / avg_pow a (nz x))%Qc) in *. clearbody z. qnra. }
  rewrite LT. cbn [cmul nz]. rewrite Qcmult_1_r. field. auto.
Qed.
Lemma term_cnt a x y w : cell01 w -> (a = Regression -> nz x = 0%Qc -> nz y = 0%Qc) ->
  nz (cmul (known (n2n y)) (nonzero_flag (wcell a x y w))) = if sel1 x y w then 1%Qc else 0%Qc.
Proof.
  intros Hw Hr. unfold sel1. destruct (n2n_cases y) as [[-> ->]|[Ey Hy]].
  { rewrite Qc_eqb_00, andb_false_r. reflexivity. }
  rewrite Ey, known_cases. destruct (n2n_cases x) as [[E1 E2]|[Ex Hx]].
  { assert (N : a <> Regression) by (intros E; apply Hy; auto). unfold wcell. rewrite E1, E2, Qc_eqb_00, andb_false_r. rewrite Ey, known_cases. cbn [cmul nz]. rewrite Qcmult_1_r.
    destruct a; [congruence| |]; cbn [exponent Z.of_nat Pos.of_succ_nat Pos.succ].
    - change (cpow _ _) with (@None Qc). destruct w; reflexivity.
    - change (cpow _ _) with (@None Qc). destruct w; reflexivity. }
  rewrite (wcell_val a x y w) by auto. rewrite !Qc_eqb_ne by auto. cbn [negb]. rewrite !andb_true_r. destruct (pos_weight w); [|reflexivity].
  unfold nonzero_flag. cbn [nz]. fold (avg_pow a (nz x)). rewrite Qc_eqb_ne; [reflexivity|].
  intros E. assert (NP : avg_pow a (nz x) <> 0%Qc) by (destruct a; cbn; [discriminate|auto|intros G; apply Qcmult_integral in G; tauto]).
  assert (G : (1 / avg_pow a (nz x) * avg_pow a (nz x) = 1)%Qc) by (field; auto). rewrite E, Qcmult_0_l in G. discriminate.
Qed.

(** What the fit computes. *)
Record fit_facts (p : dev_params) (t : tri) (r : dev_fitted) (lr w1 w2 : arr) : Prop := {
  ff_lr : bmap2 cdiv (tail3 (map_arr n2n (values t))) (init3 (map_arr n2n (values t))) = Ok lr;
  ff_w1 : n_periods_weight t (firstn (ax3 (values t) - 1) (validate_assumption t (p_n_periods p))) = Ok w1;
  ff_w2 : drop_adjustment p t lr = Ok w2;
  ff_w : bmap2 cmul w1 w2 = Ok (f_w r);
  ff_d : dims (f_w r) (ax0 (values t)) (ax1 (values t)) (ax2 (values t)) (ax3 (values t) - 1);
  ff_01 : forall i c o d, in_range t i c o d -> (S d < ax3 (values t))%nat -> cell01 (av (f_w r) i c o d);
  ff_wv : forall i c o d, in_range t i c o d -> (S d < ax3 (values t))%nat ->
     av (f_w r) i c o d = cmul (av w1 i c o d) (av w2 (bidx (ax0 w2) i) (bidx (ax1 w2) c) o d);
  ff_sh : wshape t w2;
  ff_lrd : dims lr (ax0 (values t)) (ax1 (values t)) (ax2 (values t)) (ax3 (values t) - 1);
  ff_lrv : forall i c o d, in_range t i c o d -> (S d < ax3 (values t))%nat ->
     av lr i c o d = cdiv (n2n (cel t i c o (S d))) (n2n (cel t i c o d));
  ff_slope : dims (wls_slope (f_reg r)) (ax0 (values t)) (ax1 (values t)) 1 (ax3 (values t) - 1);
  ff_sv : forall i c d a, (i < ax0 (values t))%nat -> (c < ax1 (values t))%nat -> (S d < ax3 (values t))%nat ->
     param_at t (p_average p) d = Some a ->
     av (wls_slope (f_reg r)) i c 0 d =
       wavg a (ax2 (values t)) (used t (f_w r) i c d) (fun o => amount t i c o d) (fun o => amount t i c o (S d));
  ff_mse : forall i c d a f, (i < ax0 (values t))%nat -> (c < ax1 (values t))%nat -> (S d < ax3 (values t))%nat ->
     param_at t (p_average p) d = Some a -> av (wls_slope (f_reg r)) i c 0 d = Some f ->
     (forall o, (o < ax2 (values t))%nat -> used t (f_w r) i c d o = true -> 0 < amount t i c o d)%Qc ->
     (a = Regression -> forall o, (o < ax2 (values t))%nat -> amount t i c o d = 0%Qc -> amount t i c o (S d) = 0%Qc) ->
     av (wls_mse (f_reg r)) i c 0 d =
       cdiv (Some (sum_over (ax2 (values t)) (used t (f_w r) i c d)
                (fun o => (amount t i c o (S d) - f * amount t i c o d) * (amount t i c o (S d) - f * amount t i c o d) / avg_pow a (amount t i c o d))%Qc))
            (n2n (Some (sum_over (ax2 (values t)) (used t (f_w r) i c d) (fun _ => 1) - 1)%Qc));
  ff_dd : forall i c d a, (i < ax0 (values t))%nat -> (c < ax1 (values t))%nat -> (S d < ax3 (values t))%nat ->
     param_at t (p_average p) d = Some a ->
     av (wls_d (f_reg r)) i c 0 d = n2n (Some (avg_den a (ax2 (values t)) (used t (f_w r) i c d) (fun o => amount t i c o d)));
  ff_ldf : param_property t (wls_slope (f_reg r)) = Ok (f_ldf r) }.

Lemma dev_fit_inv p t r : wf t -> (2 <= ax3 (values t))%nat -> covers t (p_average p) -> covers t (p_n_periods p) ->
  fits_ages t (p_n_periods p) -> p_fillna p = None -> dev_fit p t = Ok r -> exists lr w1 w2, fit_facts p t r lr w1 w2.
Proof.
  intros W Hn Ca Cn Fn Hf H. unfold dev_fit in H. rewrite Hf in H. cbn [rbind] in H.
  destruct (param_at_spec t _ W Ca Hn) as [La Pa]. destruct (param_at_spec t _ W Cn Hn) as [Ln Pn].
  set (avg := firstn (ax3 (values t) - 1) (validate_assumption t (p_average p))) in *.
  set (ns := firstn (ax3 (values t) - 1) (validate_assumption t (p_n_periods p))) in *.
  set (x := init3 (map_arr n2n (values t))) in *. set (y := tail3 (map_arr n2n (values t))) in *.
  inv_do H. rename a into ex, E into Eex. inv_do H. rename a into lr, E into Elr. inv_do H. rename a into w1, E into Ew1.
  inv_do H. rename a into w2, E into Ew2. inv_do H. rename a into w, E into Ew. inv_do H. rename a into xe, E into Exe.
  inv_do H. rename a into wx, E into Ewx. inv_do H. rename a into reg, E into Ereg. inv_do H. rename a into ldf, E into Eldf.
  injection H as <-. exists lr, w1, w2.
  destruct (bmap2_same cdiv y x) as (lr' & Elr' & L0 & L1 & L2 & L3 & Lv); try reflexivity. rewrite Elr in Elr'. injection Elr' as <-.
  cbn [y tail3 map_arr ax0 ax1 ax2 ax3] in L0, L1, L2, L3.
  assert (Wl : wshape t lr) by (unfold wshape; auto).
  destruct (np_weight_facts t ns w1 W Hn ltac:(lia) Ew1) as (_ & (D0 & D1 & D2 & D3) & D4). rewrite Ln in D3, D4.
  destruct (drop_adj_facts p t lr w2 W Hn Wl Fn Ew2) as [Sw Aw].
  destruct (bmap2_l cmul w1 w2) as (w' & Ew' & (Q0 & Q1 & Q2 & Q3) & _ & Qv).
  { destruct Sw as (S0 & S1 & S2 & S3). unfold sub_dims. repeat split; lia. }
  rewrite Ew in Ew'. injection Ew' as <-. rewrite D0, D1, D2, D3 in *.
  assert (Wv : forall i c o d, in_range t i c o d -> (S d < ax3 (values t))%nat ->
     av w i c o d = cmul (av w1 i c o d) (av w2 (bidx (ax0 w2) i) (bidx (ax1 w2) c) o d)).
  { intros i c o d (R0 & R1 & R2 & R3) Hd. rewrite Qv by lia. destruct Sw as (S0 & S1 & S2 & S3).
    rewrite (bidx_lt (ax2 w2)), (bidx_lt (ax3 w2)) by lia. reflexivity. }
  assert (W01 : forall i c o d, in_range t i c o d -> (S d < ax3 (values t))%nat -> cell01 (av w i c o d)).
  { intros i c o d R Hd. rewrite Wv by auto. apply cell01_mul; [|apply Aw]. destruct (D4 d) as (a & _ & _ & A & V); [lia|]. rewrite V. apply A. }
  destruct (bmap2_r cmul (Arr 1 1 1 (List.length avg) (fun _ _ _ d => Some (qc (Z.of_nat (exponent (nth d avg Regression)))))) (map_arr known y))
    as (ex' & Eex' & (X0 & X1 & X2 & X3) & _ & Xv).
  { unfold sub_dims. cbn [ax0 ax1 ax2 ax3 map_arr y tail3]. rewrite La. auto. }
  rewrite Eex in Eex'. injection Eex' as <-. cbn [map_arr y tail3 ax0 ax1 ax2 ax3] in X0, X1, X2, X3, Xv.
  destruct (bmap2_same (fun a e => cpow a (if Qc_eqb (nz e) 0%Qc then 0 else if Qc_eqb (nz e) 1%Qc then 1 else 2)) x ex)
    as (xe' & Exe' & Y0 & Y1 & Y2 & Y3 & Yv); try (cbn [x init3 map_arr ax0 ax1 ax2 ax3]; congruence).
  rewrite Exe in Exe'. injection Exe' as <-. cbn [x init3 map_arr ax0 ax1 ax2 ax3] in Y0, Y1, Y2, Y3, Yv.
  destruct (bmap2_same cdiv w xe) as (wx' & Ewx' & Z0 & Z1 & Z2 & Z3 & Zv); try congruence.
  rewrite Ewx in Ewx'. injection Ewx' as <-.
  destruct (thru_orig_ok x y (map_arr n2n wx) (ax0 (values t)) (ax1 (values t)) (ax2 (values t)) (ax3 (values t) - 1))
    as (reg' & Ereg' & S0 & S1 & S2 & Sv); try (unfold dims; cbn [x y init3 tail3 map_arr ax0 ax1 ax2 ax3]; repeat split; congruence).
  rewrite Ereg in Ereg'. injection Ereg' as <-.
  assert (Wc : forall i c d a, (i < ax0 (values t))%nat -> (c < ax1 (values t))%nat -> (S d < ax3 (values t))%nat ->
     param_at t (p_average p) d = Some a -> forall o, (o < ax2 (values t))%nat ->
     av (map_arr n2n wx) i c o d = wcell a (cel t i c o d) (cel t i c o (S d)) (av w i c o d)).
  { intros i c d a Hi Hc Hd Ha o Ho. rewrite (Pa d Regression Hd) in Ha. injection Ha as Ha. cbn [map_arr av]. rewrite Zv by lia. unfold wcell. f_equal. f_equal. rewrite Yv by lia. cbn [av]. 
    rewrite Xv by lia. cbn [av]. unfold bidx. 
    assert (B : nth (if (List.length avg =? 1)%nat then 0%nat else d) avg Regression = a).
    { rewrite La. destruct (Nat.eqb_spec (ax3 (values t) - 1) 1); [replace 0%nat with d by lia|]; auto. }
    rewrite B. reflexivity. }
  assert (SD : forall i c d a, (i < ax0 (values t))%nat -> (c < ax1 (values t))%nat -> (S d < ax3 (values t))%nat -> param_at t (p_average p) d = Some a ->
     sumn (ax2 (values t)) (fun o => nz (cmul (cmul (cmul (av (map_arr n2n wx) i c o d) (av x i c o d)) (av x i c o d)) (known (av y i c o d)))) =
     avg_den a (ax2 (values t)) (used t w i c d) (fun o => amount t i c o d)).
  { intros i c d a Hi Hc Hd Ha.
    transitivity (sumn (ax2 (values t)) (fun o => if used t w i c d o then match a with Volume => amount t i c o d | Simple => 1%Qc | Regression => (amount t i c o d * amount t i c o d)%Qc end else 0%Qc)).
    * apply sumn_ext. intros o Ho. rewrite (Wc i c d a) by auto. apply (term_den a (cel t i c o d) (cel t i c o (S d))). apply W01; [repeat split; lia|lia].
    * destruct a; reflexivity. }
  constructor; cbn [f_w f_reg f_ldf]; auto.
  - unfold dims; auto.
  - unfold dims; auto.
  - intros i c o d (R0 & R1 & R2 & R3) Hd. rewrite Lv by (cbn [y tail3 map_arr ax0 ax1 ax2 ax3]; lia). reflexivity.
  - intros i c d a Hi Hc Hd Ha. destruct (Sv i c d Hi Hc ltac:(lia)) as [-> _]. rewrite <- coef_wavg.
    f_equal; f_equal; f_equal.
    + transitivity (sumn (ax2 (values t)) (fun o => if used t w i c d o then match a with Volume => amount t i c o (S d) | Simple => (amount t i c o (S d) / amount t i c o d)%Qc | Regression => (amount t i c o d * amount t i c o (S d))%Qc end else 0%Qc)).
      * apply sumn_ext. intros o Ho. rewrite (Wc i c d a) by auto. apply (term_num a (cel t i c o d) (cel t i c o (S d))). apply W01; [repeat split; lia|lia].
      * destruct a; reflexivity.
    + apply (SD i c d a); auto.
  - intros i c d a f Hi Hc Hd Ha Hf' Hpos Hreg. destruct (Sv i c d Hi Hc ltac:(lia)) as (Ec & _ & ->). rewrite <- Ec, Hf'. f_equal; [|f_equal; f_equal; f_equal]; f_equal.
    + apply sumn_ext. intros o Ho. rewrite (Wc i c d a) by auto.
      apply (term_res a (cel t i c o d) (cel t i c o (S d)) (av w i c o d) f); [apply W01; [repeat split; lia|lia]|]. intros Es. apply Hpos; auto.
    + apply sumn_ext. intros o Ho. rewrite (Wc i c d a) by auto.
      apply (term_cnt a (cel t i c o d) (cel t i c o (S d)) (av w i c o d)); [apply W01; [repeat split; lia|lia]|]. intros Er. apply Hreg; auto.
  - intros i c d a Hi Hc Hd Ha. destruct (Sv i c d Hi Hc ltac:(lia)) as (_ & -> & _). rewrite (SD i c d a) by auto. reflexivity.
Qed.
