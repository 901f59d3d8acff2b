(** Proofs about Berquist-Sherman: adjusted incurred amounts and closed counts. *)
From Coq Require Import Lia.
From Verif Require Import Spec TriFacts ArrFacts ConvFacts SliceFacts P_Core P_Filter P_Arith P_Agg P_Corr5 P_Additive2 P_Methods BcastFacts NumFacts SpecLoc SpecCorr Berq P_Berq1 P_Berq2.
Local Open Scope nat_scope.

Lemma part_ext t n fo fd v u f g : part t n fo fd v u f -> (forall i o d, i < ax0 (values t) -> o < (if fo then n else 1) -> d < (if fd then n else 1) -> f i o d = g i o d) -> part t n fo fd v u g.
Proof. intros P E. destruct P as [P1 P2 P3 P4 P5 P6 P7 P8 P9 P10 P11 P12 P13]. constructor; auto. intros i o d Hi Ho Hd. rewrite <- E by auto. auto. Qed.
Lemma part_set_values t n v u f (g : nat -> nat -> nat -> cell) av' : part t n true true v u f ->
  (forall i o d, i < ax0 (values t) -> o < n -> d < n -> av' i 0 o d = g i o d) ->
  part t n true true v (set_values u (Arr (ax0 (values u)) (ax1 (values u)) (ax2 (values u)) (ax3 (values u)) av')) g.
Proof. intros P E. destruct P as [P1 P2 P3 P4 P5 P6 P7 P8 P9 P10 P11 P12 P13]. constructor; auto. Qed.
Lemma part_set_vdate t n fo fd v w u f : part t n fo fd v u f -> part t n fo fd w (set_vdate u w) f.
Proof. intros P. destruct P as [P1 P2 P3 P4 P5 P6 P7 P8 P9 P10 P11 P12 P13]. constructor; auto. Qed.

Section Adjust.
Variables (t : tri) (n h : nat) (o0 a0 : Z).
Hypotheses (W : wf t) (B : blank_future t) (Q : square t n o0 a0 h) (Hn : 2 <= n) (H0 : 1 <= ax0 (values t)).

Lemma some_eqb (q : Qc) : q <> 0%Qc -> Qc_eqb q 0%Qc = false. Proof. intros. destruct (Qc_eqb_spec q 0%Qc); congruence. Qed.

Lemma part_scalar op v u f q : part t n true true v u f -> (vdate t <= v <= ULT_VAL)%Z ->
  exists r, op_arr op u (scalar_arr q) = Ok r /\ part t n true true v r (fun i o d => joined op (seen t v o d) (f i o d) (Some q)).
Proof using W Q Hn H0.
  intros P V. pose proof (pt_0 _ _ _ _ _ _ _ P) as U0. pose proof (pt_1 _ _ _ _ _ _ _ P) as U1. pose proof (pt_2 _ _ _ _ _ _ _ P) as U2. pose proof (pt_3 _ _ _ _ _ _ _ P) as U3. cbn in U2, U3.
  destruct (op_arr_ok op u (scalar_arr q)) as (r & E & R); [unfold bok; cbn; lia|]. exists r. split; [exact E|].
  assert (R0 : part t n true true v r (fun i o d => cel r i 0 o d)).
  { pose proof (ar_0 _ _ _ _ R) as A0. pose proof (ar_1 _ _ _ _ R) as A1. pose proof (ar_2 _ _ _ _ R) as A2. pose proof (ar_3 _ _ _ _ R) as A3. cbn in A0, A1, A2, A3.
    destruct (ar_fl _ _ _ _ R) as (_ & _ & Fo & Fd).
    constructor; auto; try lia.
    - rewrite (ar_k _ _ _ _ R). apply P.
    - rewrite (ar_kl _ _ _ _ R). apply P.
    - rewrite (ar_v _ _ _ _ R). apply P.
    - rewrite (ar_o _ _ _ _ R). apply P.
    - rewrite (ar_d _ _ _ _ R). apply P.
    - rewrite Fo. apply P.
    - intros _. rewrite Fd. apply P. reflexivity.
    - rewrite (ar_vd _ _ _ _ R). apply P. }
  apply (part_ext _ _ _ _ _ _ _ _ R0). intros i o d Hi Ho Hd. rewrite (ar_cell _ _ _ _ R), bav_scalar, bav_in by lia.
  change (av (values u) i 0 o d) with (cel u i 0 o d). rewrite (pt_cell _ _ _ _ _ _ _ P) by auto. rewrite (part_nan t n h o0 a0 W Q Hn H0 _ _ _ o d R0 V Ho Hd). unfold joined.
  destruct op; auto; destruct (seen t v o d); cbn [nz]; unfold cop, nz_add, nz_sub, cmul; rewrite ?Qcmult_1_r, ?Qcmult_0_r; reflexivity.
Qed.
(** What is added to the paid amounts. *)
Definition level_add (pw : Qc -> Z -> Qc) (rate : Qc) (os op : nat -> nat -> Qc) (o d : nat) : Qc :=
  let ok o d := negb (Qc_eqb (os o d) 0%Qc) && negb (Qc_eqb (op o d) 0%Qc) in
  if ok o d && ok (n - 1 - d) d then (os (n - 1 - d)%nat d / op (n - 1 - d)%nat d * pw (1 / (1 + rate)) (vdate t - month_of t o d)%Z * op o d)%Qc else 0%Qc.

Lemma incurred_ok pw rate p iv rp cl fp fi fr fc : 
  part t n true true (vdate t) p fp -> part t n true true (vdate t) iv fi -> part t n true true (vdate t) rp fr -> part t n true true (vdate t) cl fc ->
  exists r, bs_incurred pw rate p iv rp cl = Ok r /\
    part t n true true (vdate t) r (fun i o d => if o + d <? n then n2n (Some (nz (fp i o d) +
      level_add pw rate (fun o d => nz (fi i o d) - nz (fp i o d)) (fun o d => nz (fr i o d) - nz (fc i o d)) o d)%Qc) else None).
Proof using W B Q Hn H0.
  intros Pp Pi Pr Pc. pose proof (vd_ult t n h o0 a0 W Q Hn H0) as VU.
  assert (V : (vdate t <= Z.max (vdate t) (vdate t) <= ULT_VAL)%Z) by lia.
  assert (V1 : (vdate t <= vdate t <= ULT_VAL)%Z) by lia.
  unfold bs_incurred.
  destruct (part_op t n h o0 a0 W Q Hn H0 OSub _ _ _ _ _ _ _ _ Pr Pc V) as (op & Eo & Po & _). rewrite Eo. cbn [rbind]. rewrite Z.max_id in Po.
  destruct (part_op t n h o0 a0 W Q Hn H0 OSub _ _ _ _ _ _ _ _ Pi Pp V) as (os & Es & Ps & _). rewrite Es. cbn [rbind]. rewrite Z.max_id in Ps.
  assert (J : forall (f g : nat -> nat -> nat -> cell) i o d, o < n -> d < n -> joined OSub (seen t (vdate t) o d) (f i o d) (g i (pick true o) (pick true d)) = if o + d <? n then n2n (Some (nz (f i o d) - nz (g i o d))%Qc) else None).
  { intros f g i o d Ho Hd. unfold joined. rewrite (seen_now t n h o0 a0 Q Hn H0) by auto. reflexivity. }
  apply (part_ext _ _ _ _ _ _ _ (fun i o d => if o + d <? n then n2n (Some (nz (fr i o d) - nz (fc i o d))%Qc) else None)) in Po; [|intros; apply (J (fun i o d => fr i o d) (fun i o d => fc i o d)); auto].
  apply (part_ext _ _ _ _ _ _ _ (fun i o d => if o + d <? n then n2n (Some (nz (fi i o d) - nz (fp i o d))%Qc) else None)) in Ps; [|intros; apply (J (fun i o d => fi i o d) (fun i o d => fp i o d)); auto].
  destruct (part_op t n h o0 a0 W Q Hn H0 ODiv _ _ _ _ _ _ _ _ Ps Po V) as (avg & Ea & Pa & _). rewrite Ea. cbn [rbind]. rewrite Z.max_id in Pa. cbn [joined cop pick] in Pa.
  set (OS := fun i o d => (nz (fi i o d) - nz (fp i o d))%Qc) in *. set (OP := fun i o d => (nz (fr i o d) - nz (fc i o d))%Qc) in *.
  set (ok := fun i o d => negb (Qc_eqb (OS i o d) 0%Qc) && negb (Qc_eqb (OP i o d) 0%Qc)).
  apply (part_ext _ _ _ _ _ _ _ (fun i o d => if (o + d <? n) && ok i o d then Some (OS i o d / OP i o d)%Qc else None)) in Pa.
  2:{ intros i o d Hi Ho Hd. change (nz (fi i o d) - nz (fp i o d))%Qc with (OS i o d). change (nz (fr i o d) - nz (fc i o d))%Qc with (OP i o d). unfold ok, cdiv, n2n. destruct (o + d <? n); [|reflexivity]. cbn [andb].
      destruct (Qc_eqb_spec (OS i o d) 0%Qc); [reflexivity|]. destruct (Qc_eqb_spec (OP i o d) 0%Qc); [reflexivity|]. cbn [negb andb]. rewrite (some_eqb (OP i o d)) by auto. reflexivity. }
  assert (Wa : wf avg) by (eapply part_wf; eauto). pose proof (part_square t n h o0 a0 Q _ _ Pa) as Qa.
  assert (Pt : part t n true true (vdate t) (trend_q pw avg (1 / (1 + rate) - 1)%Qc None None)
                 (fun i o d => if (o + d <? n) && ok i o d then Some (OS i o d / OP i o d * pw (1 / (1 + rate)) (vdate t - month_of t o d)%Z)%Qc else None)).
  { unfold trend_q. apply (part_set_values _ _ _ _ _ _ _ Pa). intros i o d Hi Ho Hd. change (av (values avg) i 0 o d) with (cel avg i 0 o d). rewrite (pt_cell _ _ _ _ _ _ _ Pa) by auto.
    destruct (Nat.ltb_spec (o + d) n) as [L|L]; [|reflexivity]. cbn [andb]. destruct (ok i o d); [|reflexivity].
    rewrite (level_months avg avg n o0 a0 h o d Wa Qa ltac:(constructor; reflexivity) Ho Hd L), (pt_vd _ _ _ _ _ _ _ Pa), (part_month t n _ _ _ o d Pa).
    rewrite (part_nan t n h o0 a0 W Q Hn H0 _ _ _ o d Pa V1 Ho Hd), (seen_now t n h o0 a0 Q Hn H0) by auto. destruct (Nat.ltb_spec (o + d) n); [|lia]. cbn [cmul]. f_equal.
    replace (1 + (1 / (1 + rate) - 1))%Qc with (1 / (1 + rate))%Qc by ring. ring. }
  destruct (part_op t n h o0 a0 W Q Hn H0 ODiv _ _ _ _ _ _ _ _ Pt Pa V) as (rel & Er & Prel & _). rewrite Er. cbn [rbind]. rewrite Z.max_id in Prel. cbn [joined cop pick] in Prel.
  apply (part_ext _ _ _ _ _ _ _ (fun i o d => if (o + d <? n) && ok i o d then Some (pw (1 / (1 + rate)) (vdate t - month_of t o d)%Z)%Qc else None)) in Prel.
  2:{ intros i o d Hi Ho Hd. destruct (o + d <? n); [|reflexivity]. cbn [andb]. destruct (ok i o d) eqn:K; [|reflexivity]. unfold ok in K. unfold cdiv.
      destruct (Qc_eqb_spec (OS i o d) 0%Qc); [discriminate|]. destruct (Qc_eqb_spec (OP i o d) 0%Qc); [discriminate|].
      assert (N : (OS i o d / OP i o d)%Qc <> 0%Qc). { intros E. apply n0. replace (OS i o d) with (OS i o d / OP i o d * OP i o d)%Qc by (field; auto). rewrite E. ring. }
      rewrite some_eqb by auto. f_equal. field. auto. }
  destruct (part_diagonal t n h o0 a0 W B Q Hn H0 _ _ _ Pa V1) as (lat & El & Pl & _). rewrite (pt_vd _ _ _ _ _ _ _ Pa), El. cbn [rbind].
  destruct (part_over_origins t n h o0 a0 W Q Hn H0 ASum _ _ _ Pl ltac:(left; reflexivity)) as (s & Eg & Pg). rewrite Eg. cbn [rbind times].
  apply (part_ext _ _ _ _ _ _ _ (fun i _ d => if ok i (n - 1 - d) d then Some (OS i (n - 1 - d)%nat d / OP i (n - 1 - d)%nat d)%Qc else None)) in Pg.
  2:{ intros i o d Hi Ho Hd. rewrite (diagonal_agg t n Hn H0 ASum (fun o => if (o + d <? n) && ok i o d then Some (OS i o d / OP i o d)%Qc else None)) by auto.
      destruct (Nat.ltb_spec (n - 1 - d + d) n); [|lia]. cbn [andb]. destruct (ok i (n - 1 - d) d) eqn:K; [|reflexivity]. unfold ok in K. unfold n2n. set (o' := n - 1 - d) in *.
      destruct (Qc_eqb_spec (OS i o' d) 0%Qc); [discriminate|]. destruct (Qc_eqb_spec (OP i o' d) 0%Qc); [discriminate|].
      rewrite some_eqb; auto. intros E. apply n0. replace (OS i o' d) with (OS i o' d / OP i o' d * OP i o' d)%Qc by (field; auto). rewrite E. ring. }
  destruct (part_op t n h o0 a0 W Q Hn H0 OMul _ _ _ _ _ _ _ _ Prel Pg V) as (adj & Ej & Pj & _). rewrite Ej. cbn [rbind]. rewrite Z.max_id in Pj. cbn [joined cop pick] in Pj.
  destruct (part_op t n h o0 a0 W Q Hn H0 OMul _ _ _ _ _ _ _ _ Pj Po V) as (cs & Ec & Pcs & _). rewrite Ec. cbn [rbind]. rewrite Z.max_id in Pcs. cbn [joined cop pick] in Pcs.
  destruct (part_op t n h o0 a0 W Q Hn H0 OAdd _ _ _ _ _ _ _ _ Pcs Pp V) as (r & Eres & Pres & _). exists r. split; [exact Eres|]. rewrite Z.max_id in Pres.
  apply (part_ext _ _ _ _ _ _ _ _ Pres). intros i o d Hi Ho Hd. unfold joined. rewrite (seen_now t n h o0 a0 Q Hn H0) by auto. destruct (Nat.ltb_spec (o + d) n) as [L|L]; [|reflexivity].
  cbn [cop pick]. unfold nz_add. do 2 f_equal. unfold level_add. fold (OS i o d) (OS i (n - 1 - d) d) (OP i o d) (OP i (n - 1 - d) d). fold (ok i o d) (ok i (n - 1 - d) d).
  rewrite Qcplus_comm. f_equal. destruct (ok i o d) eqn:K1; cbn [andb]; [|reflexivity]. destruct (ok i (n - 1 - d) d) eqn:K2; [|reflexivity].
  unfold ok in K1. unfold n2n. destruct (Qc_eqb_spec (OP i o d) 0%Qc); [rewrite andb_false_r in K1; discriminate|]. cbn [cmul nz]. ring.
Qed.

(** The adjusted closed counts. *)
Lemma closed_ok cl ult fc fu w : part t n true true (vdate t) cl fc -> part t n true false w ult fu -> (vdate t <= w <= ULT_VAL)%Z ->
  (forall i o, i < ax0 (values t) -> o < n -> exists q, fu i o 0 = Some q /\ q <> 0%Qc) ->
  exists rate adj, bs_closed (vdate t) cl ult = Ok (rate, adj) /\
    part t n true true (vdate t) rate (fun i o d => cdiv (fc i o d) (fu i o 0)) /\
    part t n true true (vdate t) adj (fun i o d => if seen t w o d then match n2n (fc i (n - 1 - d) d) with Some q => Some (q / nz (fu i (n - 1 - d)%nat 0%nat) * nz (fu i o 0%nat))%Qc | None => None end else None).
Proof using W B Q Hn H0.
  intros Pc Pu Vw Hu. pose proof (vd_ult t n h o0 a0 W Q Hn H0) as VU. unfold bs_closed.
  assert (M : Z.max (vdate t) w = w) by lia. assert (M' : Z.max w (vdate t) = w) by lia.
  destruct (part_op t n h o0 a0 W Q Hn H0 ODiv _ _ _ _ _ _ _ _ Pc Pu ltac:(lia)) as (rate & Er & Pr & _). rewrite Er. cbn [rbind]. rewrite M in Pr. cbn [joined cop pick] in Pr.
  assert (Vr : (vdate t <= w <= ULT_VAL)%Z) by lia.
  destruct (part_scalar OMul _ _ _ 0%Qc Pr Vr) as (z & Ez & Pz). change (mul_arr rate (scalar_arr 0%Qc) = Ok z) in Ez. rewrite Ez. cbn [rbind]. cbn [joined cop] in Pz.
  destruct (part_scalar OAdd _ _ _ 1%Qc Pz Vr) as (one & E1 & P1). change (add_arr z (scalar_arr 1%Qc) = Ok one) in E1. rewrite E1. cbn [rbind].
  apply (part_ext _ _ _ _ _ _ _ (fun i o d => if seen t w o d then Some 1%Qc else None)) in P1.
  2:{ intros i o d Hi Ho Hd. unfold joined. destruct (seen t w o d); auto. cbn [cop]. unfold nz_add.
      replace (nz (cmul (cdiv (fc i o d) (fu i o 0)) (Some 0%Qc))) with 0%Qc; [reflexivity|]. destruct (cdiv (fc i o d) (fu i o 0)); cbn; auto. symmetry. apply Qcmult_0_r. }
  destruct (part_diagonal t n h o0 a0 W B Q Hn H0 _ _ _ Pr Vr) as (lat & El & Pl & _). rewrite El. cbn [rbind].
  destruct (part_over_origins t n h o0 a0 W Q Hn H0 AMean _ _ _ Pl ltac:(right; reflexivity)) as (m & Em & Pm). rewrite Em. cbn [rbind times].
  apply (part_ext _ _ _ _ _ _ _ (fun i _ d => n2n (cdiv (fc i (n - 1 - d) d) (fu i (n - 1 - d) 0)))) in Pm.
  2:{ intros i o d Hi Ho Hd. apply (diagonal_agg t n Hn H0 AMean (fun o => cdiv (fc i o d) (fu i o 0))); auto. }
  destruct (part_op t n h o0 a0 W Q Hn H0 OMul _ _ _ _ _ _ _ _ P1 Pm ltac:(lia)) as (c & Ec & Pc1 & _). rewrite Ec. cbn [rbind]. rewrite M' in Pc1. cbn [joined cop pick] in Pc1.
  destruct (part_op t n h o0 a0 W Q Hn H0 OMul _ _ _ _ _ _ _ _ Pc1 Pu ltac:(lia)) as (c2 & Ec2 & Pc2 & _). rewrite Ec2. cbn [rbind]. cbn [joined cop pick] in Pc2.
  exists (set_vdate rate (vdate t)), (set_vdate c2 (vdate t)). split; [reflexivity|]. split; [exact (part_set_vdate _ _ _ _ _ _ _ _ Pr)|].
  apply (part_ext _ _ _ _ _ _ _ _ (part_set_vdate _ _ _ _ _ (vdate t) _ _ Pc2)). intros i o d Hi Ho Hd.
  destruct (Hu i (n - 1 - d) Hi ltac:(lia)) as (q' & -> & N'). destruct (Hu i o Hi Ho) as (q & -> & N). destruct (seen t w o d); [|reflexivity].
  unfold cdiv, n2n. destruct (fc i (n - 1 - d) d) as [x|]; [|reflexivity]. rewrite (some_eqb q') by auto. destruct (Qc_eqb_spec x 0%Qc) as [-> | Nx].
  - replace (0 / q')%Qc with 0%Qc by (field; auto). reflexivity.
  - rewrite some_eqb.
    + cbn [cmul nz]. f_equal. field. auto.
    + intros E. apply Nx. replace x with (x / q' * q')%Qc by (field; auto). rewrite E. ring.
Qed.
End Adjust.
