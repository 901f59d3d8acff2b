(** Properties of the full triangle. *)
From Coq Require Import Lia.
From Verif Require Import P_FullTri ExMethods.
Local Open Scope Z_scope.

(** C34. The full triangle repeats the data up to each origin's latest age.  After it, each column is the latest amount plus
    the share of the open amount (ultimate less latest) that has emerged; nothing is added if the ultimate is 0 or the remaining
    factors multiply to 1. *)
Theorem C34_full_triangle : forall t l u lat, runoff_input t l u lat ->
  exists x, full_triangle t l u = Ok x /\ wf x /\ runoff_frame t l x true /\
  forall i c o, (i < ax0 (values t))%nat -> (c < ax1 (values t))%nat -> (o < ax2 (values t))%nat ->
    (forall d, (d <= lat o)%nat -> stores (cel x i c o d) (amount t i c o d)) /\
    (factors_present l i c -> forall d, (lat o < d <= ax3 (values l))%nat ->
      stores (cel x i c o d) (if Qc_eqb (amount u i c o 0) 0%Qc then amount t i c o (lat o) else if Qc_eqb (to_ultimate l i c (lat o)) 1%Qc then amount t i c o (lat o)
         else (amount t i c o (lat o) + emerged l i c (lat o) d * (amount u i c o 0 - amount t i c o (lat o)))%Qc)).
Proof. exact full_triangle_ok. Qed.
Print Assumptions C34_full_triangle.
(** The last column is the ultimate. *)
Theorem C34_ends_at_ultimate : forall t l u lat, runoff_input t l u lat -> exists x, full_triangle t l u = Ok x /\
  forall i c o, (i < ax0 (values t))%nat -> (c < ax1 (values t))%nat -> (o < ax2 (values t))%nat -> factors_present l i c ->
    amount u i c o 0 <> 0%Qc -> to_ultimate l i c (lat o) <> 1%Qc -> stores (cel x i c o (ax3 (values l))) (amount u i c o 0).
Proof. exact full_triangle_last. Qed.
Print Assumptions C34_ends_at_ultimate.
(** With factors of at least 1 the run-off moves steadily from the latest amount towards the ultimate and never beyond it. *)
Theorem C34_between : forall t l u lat, runoff_input t l u lat -> exists x, full_triangle t l u = Ok x /\
  forall i c o, (i < ax0 (values t))%nat -> (c < ax1 (values t))%nat -> (o < ax2 (values t))%nat -> factors_present l i c -> growing l i c (lat o) ->
    forall d e, (lat o <= d <= e)%nat -> (e <= ax3 (values l))%nat ->
    ((amount t i c o (lat o) <= amount u i c o 0)%Qc -> (amount t i c o (lat o) <= amount x i c o d /\ amount x i c o d <= amount x i c o e /\ amount x i c o e <= amount u i c o 0)%Qc) /\
    ((amount u i c o 0 <= amount t i c o (lat o))%Qc -> (amount u i c o 0 <= amount x i c o e /\ amount x i c o e <= amount x i c o d /\ amount x i c o d <= amount t i c o (lat o))%Qc).
Proof. exact full_triangle_bounds. Qed.
Print Assumptions C34_between.
(** With the chain ladder each column is the latest amount times the factors passed since, and the last is always the ultimate. *)
Theorem C34_chain_ladder : forall t l lat, method_input t -> pattern_for t l -> projectable t l -> uniq_labels t -> latest_ages t lat -> enough_history t lat -> even_ages t l ->
  exists u x, cl_fit t (Some l) = Ok (l, u) /\ full_triangle t l u = Ok x /\ runoff_frame t l x true /\
  forall i c o, (i < ax0 (values t))%nat -> (c < ax1 (values t))%nat -> (o < ax2 (values t))%nat -> factors_present l i c ->
    (forall d, (d <= lat o)%nat -> stores (cel x i c o d) (amount t i c o d)) /\
    stores (cel x i c o (ax3 (values l))) (amount u i c o 0) /\
    (to_ultimate l i c (lat o) <> 1%Qc -> forall d, (lat o < d <= ax3 (values l))%nat -> stores (cel x i c o d) (amount t i c o (lat o) * growth l i c (lat o) d)%Qc).
Proof. exact full_triangle_cl. Qed.
Print Assumptions C34_chain_ladder.
(** Incremental data: the known increments are kept and the columns up to each age add to the cumulative full triangle. *)
Theorem C34_incremental : forall s l u lat, is_pattern s = false -> is_cumulative s = Some false -> wf s -> runoff_input (incr_to_cum s) l u lat ->
  exists x r, full_triangle (incr_to_cum s) l u = Ok x /\ full_triangle_incr s l u = Ok r /\ runoff_frame s l r false /\
  forall i c o, (i < ax0 (values s))%nat -> (c < ax1 (values s))%nat -> (o < ax2 (values s))%nat ->
    (forall d, (d <= lat o)%nat -> amount r i c o d = amount s i c o d) /\
    forall d, (d <= ax3 (values l))%nat -> sumn (S d) (fun k => amount r i c o k) = amount x i c o d.
Proof. exact full_triangle_incremental. Qed.
Print Assumptions C34_incremental.

Definition exlat (o : nat) : nat := (2 - o)%nat.
Definition exult : tri := Tri (kdims ex3) (key_labels ex3) (vdims ex3) (odims ex3) (Vals [ULT_VAL])
  (Arr 1 1 3 1 (fun _ _ o _ => nth o [Some (qc 240); Some (qc 252); Some (qc 180)] None)) ULT_VAL (Some true) false GY GY.
Lemma ex3_uniq : uniq_labels ex3.
Proof. split; vm_compute; repeat constructor; auto. Qed.
Lemma ex3_latest : latest_ages ex3 exlat.
Proof. intros o Ho. cbn in Ho. destruct o as [|[|[|]]]; [..|lia]; split; try reflexivity; cbn; lia. Qed.
Lemma ex3_history : enough_history ex3 exlat.
Proof. cbv; lia. Qed.
Lemma ex3_runoff l xs : pattern_for ex3 l -> ddims l = Ages xs -> xs = [12; 24; 36; 48] \/ xs = [12; 24; 36] -> forall u, ultimate_frame ex3 u -> runoff_input ex3 l u exlat.
Proof.
  intros PF E Hx u UF. constructor; auto.
  - apply ex3_method.
  - intros ages E'. rewrite E in E'. injection E' as <-. split.
    + intros a Ha. destruct Hx as [-> | ->]; cbn in Ha; intuition lia.
    + intros o a Ho Ha. change (odims ex3) with [y 2001; y 2002; y 2003] in Ho. unfold y, dec, ULT_VAL in *. destruct Hx as [-> | ->]; cbn in Ho, Ha; intuition lia.
  - apply ex3_uniq.
  - apply ex3_latest.
  - apply ex3_history.
  - intros ages d E' Hd. rewrite E in E'. injection E' as <-. change (grain_months (dgrain ex3)) with 12. destruct Hx as [-> | ->]; cbn in Hd; destruct d as [|[|[|d]]]; try reflexivity; lia.
Qed.
Lemma exult_frame3 : ultimate_frame ex3 exult.
Proof. constructor; reflexivity. Qed.
Lemma expat_runoff : runoff_input ex3 expat exult exlat.
Proof. eapply ex3_runoff; [apply expat_pattern|reflexivity|auto|apply exult_frame3]. Qed.
(** The youngest origin: latest 90, ultimate 180, factors 3/2, 7/6, 6/5, 1 still to come. *)
Example C34_hyps : runoff_input ex3 expat exult exlat /\ factors_present expat 0 0 /\ growing expat 0 0 0 /\ to_ultimate expat 0 0 0 <> 1%Qc /\
  map (fun d => cel (Ex.get ex3 (full_triangle ex3 expat exult)) 0 0 2 d) [0; 1; 4]%nat = [Some (qc 90); Some (qc 90 + (qc 1 / qc 2) / (qc 11 / qc 10) * qc 90)%Qc; Some (qc 180)].
Proof.
  split; [apply expat_runoff|]. split; [|split; [|split]].
  - intros d Hd. cbn in Hd. destruct d as [|[|[|[|]]]]; [..|lia]; apply cell_eqb_eq; vm_compute; reflexivity.
  - intros d Hd. cbn in Hd. destruct d as [|[|[|[|]]]]; [..|lia]; apply Qle_bool_iff; vm_compute; reflexivity.
  - intros E. apply (f_equal (fun q => Qc_eqb q 1)) in E. revert E. vm_compute. discriminate.
  - cbn [map]. repeat (apply f_equal2; [apply cell_eqb_eq; vm_compute; reflexivity|]). reflexivity.
Qed.
Lemma ex3i_runoff : runoff_input (incr_to_cum ex3i) expat exult exlat.
Proof.
  destruct expat_runoff as [MI PF UF PJ UL LA EH EA].
  assert (F : same_frame ex3 (incr_to_cum ex3i)) by (constructor; reflexivity).
  constructor; auto.
  - apply (method_input_scaled (fun _ _ => 1%Qc) ex3); auto; try reflexivity.
    intros i c o d (Hi & Hc & Ho & Hd). cbn in Hi, Hc, Ho, Hd. destruct i as [|]; [|lia]. destruct c as [|]; [|lia].
    destruct o as [|[|[|]]]; [..|lia]; destruct d as [|[|[|]]]; try lia; apply cell_eqb_eq; vm_compute; reflexivity.
  - destruct PF. constructor; auto.
  - destruct UF. constructor; auto.
Qed.
Example C34_incremental_hyps : is_pattern ex3i = false /\ is_cumulative ex3i = Some false /\ wf ex3i /\ runoff_input (incr_to_cum ex3i) expat exult exlat.
Proof. split; [reflexivity|]. split; [reflexivity|]. split; [apply ex3i_wf|apply ex3i_runoff]. Qed.

(** An origin whose remaining factor is 1 but whose ultimate (240) differs from the latest amount (175) ends at the latest amount. *)
Definition expat_flat : tri := Tri [["Total"%string]] ["Total"%string] ["paid"%string] [y 2001] (Ages [12; 24; 36])
  (Arr 1 1 1 3 (fun _ _ _ d => nth d [Some (qc 3 / qc 2)%Qc; Some (qc 7 / qc 6)%Qc; Some 1%Qc] None))
  ULT_VAL (Some false) true GY GY.
Lemma expat_flat_pattern : pattern_for ex3 expat_flat.
Proof.
  constructor; try reflexivity; try discriminate.
  - apply wfb_ok; vm_compute; reflexivity.
  - exists [12; 24; 36], []. auto.
Qed.
Theorem C34_flat_development_refuted : exists t l u lat x, runoff_input t l u lat /\ factors_present l 0 0 /\ full_triangle t l u = Ok x /\
  amount u 0 0 0 0 = qc 240 /\ amount t 0 0 0 (lat 0%nat) = qc 175 /\ amount x 0 0 0 (ax3 (values l)) = qc 175.
Proof.
  exists ex3, expat_flat, exult, exlat, (Ex.get ex3 (full_triangle ex3 expat_flat exult)). split; [eapply ex3_runoff; [apply expat_flat_pattern|reflexivity|auto|apply exult_frame3]|].
  split; [intros d Hd; cbn in Hd; destruct d as [|[|[|]]]; [..|lia]; apply cell_eqb_eq; vm_compute; reflexivity|].
  split; [apply get_ok; vm_compute; reflexivity|]. split; [|split]; apply qeqb; vm_compute; reflexivity.
Qed.
Print Assumptions C34_flat_development_refuted.
(** An origin whose ultimate is 0 ends at the latest amount. *)
Definition exult0 : tri := set_values exult (Arr 1 1 3 1 (fun _ _ o _ => nth o [Some (qc 240); Some 0%Qc; Some (qc 180)] None)).
Theorem C34_zero_ultimate_refuted : exists t l u lat x, runoff_input t l u lat /\ factors_present l 0 0 /\ to_ultimate l 0 0 (lat 1%nat) <> 1%Qc /\ full_triangle t l u = Ok x /\
  amount u 0 0 1 0 = 0%Qc /\ amount t 0 0 1 (lat 1%nat) = qc 180 /\ amount x 0 0 1 (ax3 (values l)) = qc 180.
Proof.
  exists ex3, expat, exult0, exlat, (Ex.get ex3 (full_triangle ex3 expat exult0)). split; [eapply ex3_runoff; [apply expat_pattern|reflexivity|auto|constructor; reflexivity]|].
  split; [intros d Hd; cbn in Hd; destruct d as [|[|[|[|]]]]; [..|lia]; apply cell_eqb_eq; vm_compute; reflexivity|].
  split; [intros E; apply (f_equal (fun q => Qc_eqb q 1)) in E; revert E; vm_compute; discriminate|].
  split; [apply get_ok; vm_compute; reflexivity|]. split; [|split]; apply qeqb; vm_compute; reflexivity.
Qed.
Print Assumptions C34_zero_ultimate_refuted.
(** Two origins and two ages: the chain ladder run-off is wrong.  The younger origin is at 120 with factors 2, 2 and 1 to come, so
    240 at the next age; the full triangle shows 120 + 2/17 * 360. *)
Definition expat2 : tri := Tri [["Total"%string]] ["Total"%string] ["paid"%string] [y 2001] (Ages [12; 24; 36])
  (Arr 1 1 1 3 (fun _ _ _ d => nth d [Some (qc 2); Some (qc 2); Some 1%Qc] None))
  ULT_VAL (Some false) true GY GY.
Theorem C34_two_by_two_refuted : exists t l lat u x, method_input t /\ pattern_for t l /\ projectable t l /\ uniq_labels t /\ latest_ages t lat /\ even_ages t l /\ factors_present l 0 0 /\
  ax2 (values t) = 2%nat /\ cl_fit t (Some l) = Ok (l, u) /\ full_triangle t l u = Ok x /\
  (amount t 0 0 1 (lat 1%nat) * growth l 0 0 (lat 1%nat) 1 = qc 240)%Qc /\ amount x 0 0 1 1 = (qc 120 + qc 2 / qc 17 * qc 360)%Qc.
Proof.
  set (u := snd (Ex.get (expat2, expat2) (cl_fit ex2 (Some expat2)))).
  exists ex2, expat2, (fun o => 1 - o)%nat, u, (Ex.get ex2 (full_triangle ex2 expat2 u)).
  assert (W : wf ex2) by apply ex2_wf.
  assert (PF : pattern_for ex2 expat2).
  { constructor; try reflexivity; try discriminate; [apply wfb_ok; vm_compute; reflexivity|exists [12; 24], [36]; auto]. }
  assert (MI : method_input ex2).
  { constructor; try reflexivity; auto.
    - apply blank_futureb_ok; vm_compute; reflexivity.
    - split.
      + intros o Ho. cbn in Ho. destruct o as [|[|]]; [exists 1%nat|exists 0%nat|lia]; split; try reflexivity; cbn; lia.
      + exists 0%nat, 1%nat, 2%nat. split; [lia|]. intros d Hd. cbn in Hd. split.
        * intros _. exists d. lia.
        * intros _. destruct d as [|[|]]; [exists 1%nat|exists 0%nat|lia]; split; try reflexivity; cbn; lia. }
  split; [exact MI|]. split; [exact PF|]. split; [|split; [|split; [|split; [|split; [|split; [|split; [|split]]]]]]].
  - intros ages E. injection E as <-. split; [intros a [<-|[<-|[<-|[]]]]; lia|]. intros o a [<-|[<-|[]]] [<-|[<-|[<-|[]]]]; vm_compute; reflexivity.
  - split; vm_compute; repeat constructor; auto.
  - intros o Ho. cbn in Ho. destruct o as [|[|]]; [..|lia]; split; try reflexivity; cbn; lia.
  - intros ages d E Hd. injection E as <-. cbn in Hd. destruct d as [|[|]]; try reflexivity; lia.
  - intros d Hd. cbn in Hd. destruct d as [|[|[|]]]; [..|lia]; apply cell_eqb_eq; vm_compute; reflexivity.
  - reflexivity.
  - destruct (cl_fit_ok ex2 expat2 MI PF) as (v & b & Ev & _). unfold u. rewrite Ev. reflexivity.
  - apply get_ok; vm_compute; reflexivity.
  - split; apply qeqb; vm_compute; reflexivity.
Qed.
Print Assumptions C34_two_by_two_refuted.

(** C28 (third part). The run-off of data scaled by a positive constant is scaled by that constant. *)
Theorem C28_runoff_scales : forall (k : nat -> nat -> Qc) t t' l l' u u' lat,
  same_frame t t' -> (forall i c, 0 < k i c)%Qc ->
  (forall i c o d, in_range t i c o d -> cel t' i c o d = option_map (fun q => k i c * q)%Qc (cel t i c o d)) ->
  is_pattern t' = false -> is_cumulative t' = Some true -> runoff_input t l u lat ->
  (forall i c, (i < ax0 (values t))%nat -> (c < ax1 (values t))%nat -> factors_present l i c) ->
  pattern_for t' l' -> ddims l' = ddims l ->
  (forall i c d, (i < ax0 (values t))%nat -> (c < ax1 (values t))%nat -> (d < ax3 (values l))%nat -> cel l' i c 0%nat d = cel l i c 0%nat d) ->
  ultimate_frame t' u' ->
  (forall i c o, (i < ax0 (values t))%nat -> (c < ax1 (values t))%nat -> (o < ax2 (values t))%nat -> amount u' i c o 0 = k i c * amount u i c o 0)%Qc ->
  exists r r', full_triangle t l u = Ok r /\ full_triangle t' l' u' = Ok r' /\
    forall i c o d, (i < ax0 (values t))%nat -> (c < ax1 (values t))%nat -> (o < ax2 (values t))%nat -> (d <= ax3 (values l))%nat ->
      amount r' i c o d = (k i c * amount r i c o d)%Qc.
Proof. exact scale_runoff. Qed.
Print Assumptions C28_runoff_scales.
Definition times10 (t : tri) : tri := set_values t (map_arr (option_map (fun q => qc 10 * q)%Qc) (values t)).
Example C28_runoff_hyps : same_frame ex3 (times10 ex3) /\ (forall i c : nat, 0 < (fun _ _ => qc 10) i c)%Qc /\ runoff_input ex3 expat exult exlat /\ factors_present expat 0 0 /\
  pattern_for (times10 ex3) expat /\ ultimate_frame (times10 ex3) (times10 exult) /\ forall o, (amount (times10 exult) 0 0 o 0 = qc 10 * amount exult 0 0 o 0)%Qc.
Proof.
  split; [constructor; reflexivity|]. split; [intros; reflexivity|]. split; [apply expat_runoff|]. split; [apply C34_hyps|].
  split; [destruct expat_pattern; constructor; auto|]. split; [constructor; reflexivity|]. intros o. change (amount (times10 exult) 0 0 o 0) with (nz (option_map (fun q => qc 10 * q)%Qc (cel exult 0 0 o 0%nat))). unfold amount. destruct (cel exult 0 0 o 0%nat); cbn [option_map nz]; ring.
Qed.
