(** Chain ladder: ultimates and IBNR together. *)
From Coq Require Import Lia.
From Verif Require Export P_Tail.
Local Open Scope Z_scope.

Lemma pattern_len t l : wf t -> pattern_for t l -> (ax3 (values t) <= ax3 (values l))%nat.
Proof.
  intros W PF. destruct (pf_d _ _ PF) as (xs & more & Ex & Em). pose proof (wf_d _ (pf_wf _ _ PF)) as A. pose proof (wf_d _ W) as B.
  rewrite Em in A. rewrite Ex in B. cbn [dlist] in *. rewrite app_length in A. lia.
Qed.
Lemma validate_pattern t l : wf t -> pattern_for t l -> validate_X t (Some l) = Ok l.
Proof.
  intros W PF. unfold validate_X. cbn [rbind]. rewrite <- (wf_d _ (pf_wf _ _ PF)), <- (wf_d _ W).
  pose proof (pattern_len t l W PF). destruct (Nat.eqb_spec (ax3 (values t) - ax3 (values l)) 1); [lia|reflexivity].
Qed.
Theorem cl_fit_ok t l : method_input t -> pattern_for t l ->
  exists u r, cl_fit t (Some l) = Ok (l, u) /\ ultimate_frame t u /\ ibnr_of t u = Ok r /\ ultimate_frame t r /\
    forall i c o d, in_range t i c o d -> month_of t o d = vdate t ->
      stores (cel u i c o 0%nat) (amount t i c o d * to_ultimate l i c d)%Qc /\
      stores (cel r i c o 0%nat) (amount t i c o d * to_ultimate l i c d - amount t i c o d)%Qc.
Proof.
  intros MI PF. destruct (cl_ultimate_ok t l MI PF) as (u & Eu & UF & UC). destruct (ibnr_ok t u MI UF) as (r & Er & RF & RC).
  exists u, r. unfold cl_fit. rewrite (validate_pattern t l (mi_wf _ MI) PF). cbn [rbind]. rewrite Eu. cbn [rbind].
  split; [reflexivity|]. split; [auto|]. split; [auto|]. split; [auto|]. intros i c o d R M. specialize (UC i c o d R M). specialize (RC i c o d R M).
  split; [auto|]. assert (E : amount u i c o 0%nat = (amount t i c o d * to_ultimate l i c d)%Qc) by (unfold amount at 1; apply stores_nz; auto).
  rewrite E in RC. exact RC.
Qed.
Theorem cl_ibnr_sign t l u r : method_input t -> pattern_for t l -> cl_fit t (Some l) = Ok (l, u) -> ibnr_of t u = Ok r ->
  forall i c o d, in_range t i c o d -> month_of t o d = vdate t ->
   ((forall k, (d <= k < ax3 (values l))%nat -> factor (cel l i c 0 k) = 1%Qc) -> amount r i c o 0 = 0%Qc) /\
   ((forall k, (d <= k < ax3 (values l))%nat -> 1 <= factor (cel l i c 0 k))%Qc -> 0 <= amount t i c o d -> 0 <= amount r i c o 0)%Qc.
Proof.
  intros MI PF Ef Er i c o d R M. destruct (cl_fit_ok t l MI PF) as (u' & r' & Ef' & _ & Er' & _ & C).
  rewrite Ef in Ef'. injection Ef' as <-. rewrite Er in Er'. injection Er' as <-. destruct (C i c o d R M) as [_ RC].
  assert (E : amount r i c o 0%nat = (amount t i c o d * to_ultimate l i c d - amount t i c o d)%Qc) by (unfold amount at 1; apply stores_nz; auto).
  rewrite E. split; intros H.
  - assert (T : to_ultimate l i c d = 1%Qc) by (apply prodn_1; intros k Hk; apply H; lia). rewrite T. ring.
  - intros A. assert (T : (1 <= to_ultimate l i c d)%Qc) by (apply prodn_ge_1; intros k Hk; apply H; lia). qnra.
Qed.

(** Scaling. *)
Theorem scale_cl (k : nat -> nat -> Qc) p q t t' :
  same_frame t t' -> (forall i c, 0 < k i c)%Qc ->
  (forall i c o d, in_range t i c o d -> cel t' i c o d = option_map (fun q => k i c * q)%Qc (cel t i c o d)) ->
  method_input t -> is_pattern t' = false -> is_cumulative t' = Some true ->
  (2 <= ax3 (values t))%nat -> oldest_complete t -> fittable p t ->
  tp_attach q = None -> tp_tail q <> 0%Qc -> decay_ok q -> room_after t (tp_years q) -> (periods_per_year (dgrain t) * tp_years q < 1000)%nat ->
  exists f l u r f' l' u' r',
    dev_fit p t = Ok f /\ tail_constant q t (f_ldf f) = Ok l /\ cl_fit t (Some l) = Ok (l, u) /\ ibnr_of t u = Ok r /\
    dev_fit p t' = Ok f' /\ tail_constant q t' (f_ldf f') = Ok l' /\ cl_fit t' (Some l') = Ok (l', u') /\ ibnr_of t' u' = Ok r' /\
    forall i c o, (i < ax0 (values t))%nat -> (c < ax1 (values t))%nat -> (o < ax2 (values t))%nat ->
      amount u' i c o 0 = (k i c * amount u i c o 0)%Qc /\ amount r' i c o 0 = (k i c * amount r i c o 0)%Qc.
Proof.
  intros S K V MI Hp' Hc' N2 OC FT QA QT QD QR QY. pose proof (mi_wf _ MI) as W.
  assert (W' : wf t') by (apply (wf_same_frame t t'); auto).
  assert (M' : forall o d, month_of t' o d = month_of t o d) by (intros; apply month_same_frame; auto).
  assert (B' : blank_future t').
  { intros i c o d R Fu. destruct R as (R0 & R1 & R2 & R3). rewrite (sf_0 _ _ S), (sf_1 _ _ S), (sf_2 _ _ S), (sf_3 _ _ S) in *.
    rewrite V by (unfold in_range; auto). rewrite (mi_blank _ MI i c o d); [reflexivity|unfold in_range; auto|]. unfold future in *. rewrite <- (sf_vd _ _ S), <- M'. auto. }
  assert (MI' : method_input t').
  { constructor; auto.
    - destruct (mi_diag _ MI) as [D1 D2]. split.
      + intros o Ho. rewrite (sf_2 _ _ S) in Ho. destruct (D1 o Ho) as (d & Hd & E). exists d. rewrite (sf_3 _ _ S), (sf_vd _ _ S), M'. auto.
      + rewrite (sf_3 _ _ S). eapply evenly_ext; [|exact D2]. intros x Hx. cbv beta. rewrite (sf_2 _ _ S), (sf_vd _ _ S).
        split; intros (o & Ho & E); exists o; rewrite M' in *; auto.
    - rewrite (sf_0 _ _ S). apply MI.
    - rewrite (sf_1 _ _ S). apply MI. }
  assert (FT' : fittable p t') by (apply (scale_fittable k p t t'); auto).
  destruct (scale_fit k p t t' S K V W (mi_blank _ MI) (mi_pat _ MI) Hp' N2 OC FT) as (f & f' & Ef & Ef' & SF & CF).
  destruct (cl_end_to_end p q t MI N2 OC FT QA QT QD QR QY) as (f0 & l & u & Ef0 & El & PF & Ec & UF & UC).
  rewrite Ef in Ef0. injection Ef0 as <-.
  destruct (cl_end_to_end p q t') as (f1 & l' & u' & Ef1 & El' & PF' & Ec' & UF' & UC'); auto.
  { rewrite (sf_3 _ _ S); auto. }
  { unfold oldest_complete. rewrite (sf_3 _ _ S), (sf_vd _ _ S), M'. exact OC. }
  { unfold room_after. rewrite (sf_3 _ _ S), (sf_d _ _ S), (sf_dg _ _ S), (sf_o _ _ S). exact QR. }
  { rewrite (sf_dg _ _ S). exact QY. }
  rewrite Ef' in Ef1. injection Ef1 as <-.
  destruct (ibnr_ok t u MI UF) as (r & Er & RF & RC). destruct (ibnr_ok t' u' MI' UF') as (r' & Er' & RF' & RC').
  exists f, l, u, r, f', l', u', r'. do 8 (split; [assumption|]).
  intros i c o Hi Hc Ho. destruct (mi_diag _ MI) as [D1 _]. destruct (D1 o Ho) as (d & Hd & M).
  assert (R : in_range t i c o d) by (unfold in_range; auto).
  assert (R' : in_range t' i c o d) by (unfold in_range; rewrite (sf_0 _ _ S), (sf_1 _ _ S), (sf_2 _ _ S), (sf_3 _ _ S); auto).
  assert (Mt' : month_of t' o d = vdate t') by (rewrite M', (sf_vd _ _ S); auto).
  assert (A : amount t' i c o d = (k i c * amount t i c o d)%Qc).
  { unfold amount. rewrite V by auto. destruct (cel t i c o d); cbn [option_map nz]; ring. }
  pose proof (stores_nz _ _ (UC i c o d R M)) as U1. pose proof (stores_nz _ _ (UC' i c o d R' Mt')) as U2.
  pose proof (stores_nz _ _ (RC i c o d R M)) as V1. pose proof (stores_nz _ _ (RC' i c o d R' Mt')) as V2.
  fold (amount u i c o 0%nat) in U1. fold (amount u' i c o 0%nat) in U2. fold (amount r i c o 0%nat) in V1. fold (amount r' i c o 0%nat) in V2.
  assert (E : amount u' i c o 0%nat = (k i c * amount u i c o 0%nat)%Qc).
  { rewrite U1, U2, A, (sf_3 _ _ S).
    rewrite (prodn_ext (ax3 (values t) - 1 - d) (fun j => factor (cel (f_ldf f') i c 0 (d + j)%nat)) (fun j => factor (cel (f_ldf f) i c 0 (d + j)%nat))).
    - ring.
    - intros j Hj. rewrite CF by (auto; lia). reflexivity. }
  split; [exact E|]. rewrite V1, V2, E, A. ring.
Qed.
