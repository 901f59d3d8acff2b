(** Expected increments of the bootstrap and its residuals. *)
From Coq Require Import Lia.
From Verif Require Export P_Boot1.
Local Open Scope nat_scope.

Lemma runoff_wf t l r c : wf t -> pattern_for t l -> projectable t l -> runoff_frame t l r c -> wf r.
Proof.
  intros W PF PJ RF. destruct (pf_d _ _ PF) as (xs & more & Ex & El). specialize (PJ _ El) as (P1 & P2). pose proof (pf_wf _ _ PF) as Wl.
  pose proof (wf_dsort _ Wl) as S1. pose proof (wf_d _ Wl) as L1. pose proof (wf_dev _ Wl) as D1. rewrite El in S1, L1, D1. cbn [dlist] in *. destruct D1 as (D1 & _).
  constructor.
  - rewrite (rn_0 _ _ _ _ RF), (rn_k _ _ _ _ RF). apply W.
  - rewrite (rn_1 _ _ _ _ RF), (rn_v _ _ _ _ RF). apply W.
  - rewrite (rn_2 _ _ _ _ RF), (rn_o _ _ _ _ RF). apply W.
  - rewrite (rn_3 _ _ _ _ RF), (rn_d _ _ _ _ RF), El. cbn [dlist]. rewrite app_length, <- L1. cbn. lia.
  - rewrite (rn_2 _ _ _ _ RF). apply W.
  - rewrite (rn_3 _ _ _ _ RF). lia.
  - rewrite (rn_o _ _ _ _ RF). apply W.
  - rewrite (rn_d _ _ _ _ RF), El. cbn [dlist]. apply sorted_snoc; auto.
  - rewrite (rn_vd _ _ _ _ RF). lia.
  - rewrite (rn_d _ _ _ _ RF), El, (rn_o _ _ _ _ RF), (rn_vd _ _ _ _ RF). cbn [dlist]. split; [|split].
    + intros a Ha. apply in_app_or in Ha. destruct Ha as [Ha|[<-|[]]]; [auto|lia].
    + intros o Ho. pose proof (wf_dev _ W) as D. rewrite Ex in D. destruct D as (_ & D & _). specialize (D o Ho). pose proof (wf_vd _ W). lia.
    + intros o a Ho Ha Na. apply in_app_or in Ha. destruct Ha as [Ha|[<-|[]]]; [auto|congruence].
Qed.

Section Boot.
Variables (b : boot_params) (t : tri) (n : nat).
Hypotheses (I : boot_input t n) (F : fittable (boot_dev b) t).
Local Notation step := (step_of b t n).

Lemma step_ne d : step d <> 0%Qc.
Proof. unfold step_of, factor. destruct (Qc_eqb_spec (nz (wavg Volume n (link_used b t d) (fun o => amount t 0 0 o d) (fun o => amount t 0 0 o (S d)))) 0%Qc); [discriminate|auto]. Qed.

Lemma expected_ok : exists w e, boot_expected b t = Ok (w, e) /\ 
  (forall o d, o < n -> d < n -> av e 0 0 o d = if o + d <? n then Some (expected_in b t n o d) else None) /\
  (forall o d, o < n -> S d < n -> cell01 (av w 0 0 o d)) /\
  (forall o d, o + S d < n -> pos_weight (av w 0 0 o d) = link_used b t d o).
Proof using I F.
  pose proof (bn_dims t n I) as (E0 & E1 & E2 & E3). pose proof (bn_method t n I) as MI. pose proof (bn_n _ _ I) as Hn. pose proof (bn_wf _ _ I) as W.
  destruct (chain b t n I F) as (f & l & u & Ef & Ec & PF & UF & L3 & ST & TU & UC & W1 & W2 & PJ).
  destruct (full_cumulative t l u W ltac:(lia) ltac:(lia) PF UF ltac:(lia) PJ) as (r & Er & RF & RC).
  pose proof (runoff_wf _ _ _ _ W PF PJ RF) as Wr.
  destruct (cum_to_incr_cell r Wr (rn_pat _ _ _ _ RF)) as (x & Ex & _ & _ & _ & XC).
  { rewrite (rn_cum _ _ _ _ RF). discriminate. } { rewrite (rn_3 _ _ _ _ RF). lia. }
  exists (f_w f). eexists. split; [unfold boot_expected; rewrite Ef; cbn [rbind]; rewrite Ec; cbn [rbind fst snd]; rewrite Er; cbn [rbind]; rewrite Ex; reflexivity|].
  split; [|split; [exact W1|exact W2]].
  intros o d Ho Hd. cbn [av]. rewrite (bn_nan t n I o d Ho Hd). destruct (Nat.ltb_spec (o + d) n); [|cbn [cmul]; reflexivity].
  cbn [cmul]. rewrite Qcmult_1_r. f_equal.
  assert (AM : forall k, o + k < n -> amount r 0 0 o k = expected_at b t n o k).
  { intros k Hk. destruct (RC 0 0 o ltac:(lia) ltac:(lia) ltac:(lia)) as (_ & R2). unfold amount. rewrite R2 by lia. rewrite (stores_nz _ _ (stores_cdiv _ _ _ (UC o Ho) (to_ultimate_ne _ _ _ _))).
    rewrite TU by lia. unfold expected_at. replace (n - 1 - k) with ((n - 1 - o - k) + o) by lia. rewrite prodn_app.
    rewrite (prodn_ext o (fun k0 => step (k + (n - 1 - o - k + k0))) (fun k0 => step (n - 1 - o + k0))) by (intros; f_equal; lia).
    field. split; apply prodn_ne; intros; apply step_ne. }
  rewrite XC by (unfold in_range; rewrite (rn_0 _ _ _ _ RF), (rn_1 _ _ _ _ RF), (rn_2 _ _ _ _ RF), (rn_3 _ _ _ _ RF); lia).
  destruct d as [|d]; [cbn [expected_in]; rewrite <- AM by lia; reflexivity|].
  assert (K : diff_kept r o (S d) = true).
  { unfold diff_kept. apply orb_true_iff. right. rewrite (rn_vd _ _ _ _ RF). apply negb_true_iff, Z.ltb_ge.
    pose proof (bn_future t n I o (S d) Ho ltac:(lia)) as FU. unfold future in FU.
    assert (MO : month_of r o (S d) = month_of t o (S d)).
    { unfold month_of. rewrite (rn_o _ _ _ _ RF), (rn_d _ _ _ _ RF). destruct (pf_d _ _ PF) as (xs & more & Xs & Xl). rewrite Xl, Xs. cbn [dlist]. 
      pose proof (wf_d _ W) as L. rewrite Xs in L. cbn [dlist] in L. rewrite <- app_assoc, app_nth1 by lia. reflexivity. }
    rewrite MO. pose proof (wf_vd _ W). destruct (Z.le_gt_cases (month_of t o (S d)) (vdate t)); [lia|]. exfalso. intuition lia. }
  rewrite K. rewrite nz_n2n. cbn [nz expected_in]. rewrite !AM by lia. reflexivity.
Qed.
End Boot.
