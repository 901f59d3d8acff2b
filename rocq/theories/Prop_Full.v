(** Properties of the full expectation. *)
From Coq Require Import Lia.
From Verif Require Import P_FullExp ExMethods.
Local Open Scope Z_scope.

(** C35. Cumulative: at each age the ultimate divided by the product of the remaining factors, and the ultimate in the last column. *)
Theorem C35_cumulative : forall t l u, wf t -> (1 <= ax0 (values t))%nat -> (1 <= ax1 (values t))%nat -> pattern_for t l -> ultimate_frame t u ->
  (2 <= ax3 (values l))%nat -> projectable t l ->
  exists r, full_expectation (cdf_of l) u true = Ok r /\ runoff_frame t l r true /\
  forall i c o, (i < ax0 (values t))%nat -> (c < ax1 (values t))%nat -> (o < ax2 (values t))%nat ->
    cel r i c o (ax3 (values l)) = cel u i c o 0%nat /\
    forall d, (d < ax3 (values l))%nat -> cel r i c o d = cdiv (cel u i c o 0%nat) (Some (to_ultimate l i c d)).
Proof. exact full_cumulative. Qed.
Print Assumptions C35_cumulative.
(** With the chain ladder the expectation at the current age is the amount reported. *)
Theorem C35_chain_ladder : forall t l, method_input t -> pattern_for t l -> (2 <= ax3 (values l))%nat -> projectable t l ->
  exists u r, cl_fit t (Some l) = Ok (l, u) /\ full_expectation (cdf_of l) u true = Ok r /\ runoff_frame t l r true /\
  forall i c o d, in_range t i c o d -> month_of t o d = vdate t ->
    stores (cel r i c o d) (amount t i c o d) /\ stores (cel r i c o (ax3 (values l))) (amount t i c o d * to_ultimate l i c d)%Qc /\
    forall e, (e < ax3 (values l))%nat -> stores (cel r i c o e) (amount t i c o d * (to_ultimate l i c d / to_ultimate l i c e))%Qc.
Proof. exact full_cl. Qed.
Print Assumptions C35_chain_ladder.
(** Incremental: the columns up to each age add to the cumulative expectation of that age and, if the last factor is 1,
    all columns add to the ultimate. *)
Theorem C35_incremental : forall t l u, wf t -> (1 <= ax0 (values t))%nat -> (1 <= ax1 (values t))%nat -> pattern_for t l -> ultimate_frame t u ->
  (2 <= ax3 (values l))%nat -> projectable t l ->
  exists r, full_expectation (cdf_of l) u false = Ok r /\ runoff_frame t l r false /\
  forall i c o, (i < ax0 (values t))%nat -> (c < ax1 (values t))%nat -> (o < ax2 (values t))%nat -> stores (cel u i c o 0%nat) (amount u i c o 0) ->
    (forall n, (n < ax3 (values l))%nat -> sumn (S n) (fun d => amount r i c o d) = amount u i c o 0 / to_ultimate l i c n)%Qc /\
    (factor (cel l i c 0 (ax3 (values l) - 1)) = 1%Qc -> sumn (S (ax3 (values l))) (fun d => amount r i c o d) = amount u i c o 0).
Proof. exact full_incremental_flat_tail. Qed.
Print Assumptions C35_incremental.

(** Ultimates of 240, 252 and 180 for [ex3]; factors that end with a tail of 6/5. *)
Definition exult : tri := Tri (kdims ex3) (key_labels ex3) (vdims ex3) (odims ex3) (Vals [ULT_VAL])
  (Arr 1 1 3 1 (fun _ _ o _ => nth o [Some (qc 240); Some (qc 252); Some (qc 180)] None)) ULT_VAL (Some true) false GY GY.
Definition expat_end : tri := Tri [["Total"%string]] ["Total"%string] ["paid"%string] [y 2001] (Ages [12; 24; 36])
  (Arr 1 1 1 3 (fun _ _ _ d => nth d [Some (qc 3 / qc 2)%Qc; Some (qc 7 / qc 6)%Qc; Some (qc 6 / qc 5)%Qc] None))
  ULT_VAL (Some false) true GY GY.
Lemma exult_frame : ultimate_frame ex3 exult.
Proof. constructor; reflexivity. Qed.
Lemma expat_end_pattern : pattern_for ex3 expat_end.
Proof.
  constructor; try reflexivity; try discriminate.
  - apply wfb_ok; vm_compute; reflexivity.
  - exists [12; 24; 36], []. auto.
Qed.
Lemma expat_projectable : projectable ex3 expat.
Proof.
  intros ages E. injection E as <-. split.
  - intros a [<-|[<-|[<-|[<-|[]]]]]; lia.
  - intros o a [<-|[<-|[<-|[]]]] [<-|[<-|[<-|[<-|[]]]]]; vm_compute; reflexivity.
Qed.
Example C35_hyps : method_input ex3 /\ pattern_for ex3 expat /\ ultimate_frame ex3 exult /\ (2 <= ax3 (values expat))%nat /\ projectable ex3 expat /\
  factor (cel expat 0 0 0 3) = 1%Qc /\ cel (Ex.get ex3 (full_expectation (cdf_of expat) exult true)) 0 0 1 1 = Some (qc 180).
Proof.
  split; [apply ex3_method|]. split; [apply expat_pattern|]. split; [apply exult_frame|]. split; [cbn; lia|]. split; [apply expat_projectable|].
  split; [apply qeqb; vm_compute; reflexivity|]. apply cell_eqb_eq; vm_compute; reflexivity.
Qed.

(** The columns do not add to the ultimate when the last factor is not 1: the tail increment has the wrong sign.
    The ultimate is 240 and the columns add to 160. *)
Theorem C35_incremental_tail_refuted : exists t l u r, method_input t /\ pattern_for t l /\ ultimate_frame t u /\ (2 <= ax3 (values l))%nat /\ projectable t l /\
  full_expectation (cdf_of l) u false = Ok r /\ amount u 0 0 0 0 = qc 240 /\ sumn (ax3 (values r)) (fun d => amount r 0 0 0 d) = qc 160.
Proof.
  exists ex3, expat_end, exult, (Ex.get ex3 (full_expectation (cdf_of expat_end) exult false)).
  split; [apply ex3_method|]. split; [apply expat_end_pattern|]. split; [apply exult_frame|]. split; [cbn; lia|]. split.
  - intros ages E. injection E as <-. split.
    + intros a [<-|[<-|[<-|[]]]]; lia.
    + intros o a [<-|[<-|[<-|[]]]] [<-|[<-|[<-|[]]]]; vm_compute; reflexivity.
  - split; [apply get_ok; vm_compute; reflexivity|]. split; apply qeqb; vm_compute; reflexivity.
Qed.
Print Assumptions C35_incremental_tail_refuted.
