(** Properties C37 and C38: voting. *)
From Coq Require Import Lia.
From Verif Require Import SpecVoting P_Voting Ex.
Local Open Scope Z_scope.

(** C37. The voted ultimate of every cell is the weighted average of the members; a cell
    whose weights add up to zero is missing. *)
Theorem C37_weighted_average : forall t w us, wf t -> (1 <= ax0 (values t))%nat -> (1 <= ax1 (values t))%nat -> us <> [] ->
  weights_cover t w (List.length us) -> (forall u, In u us -> ultimate_frame t u) ->
  exists r, vote t w (map Some us) = Ok r /\ ultimate_frame t r /\
    forall i c o, (i < ax0 (values t))%nat -> (c < ax1 (values t))%nat -> (o < ax2 (values t))%nat ->
      (total_weight w (List.length us) i c o <> 0%Qc -> amount r i c o 0 = voted w us i c o) /\
      (total_weight w (List.length us) i c o = 0%Qc -> cel r i c o 0 = None).
Proof. exact vote_ok. Qed.
Print Assumptions C37_weighted_average.

(** C37. Between the smallest and the largest of the members that have weight. *)
Theorem C37_between : forall t w us r i c o lo hi, ready t w us -> vote t w (map Some us) = Ok r ->
  (i < ax0 (values t))%nat -> (c < ax1 (values t))%nat -> (o < ax2 (values t))%nat ->
  (forall e, (e < List.length us)%nat -> (0 <= weight_of w i c o e)%Qc) -> (exists e, (e < List.length us)%nat /\ (0 < weight_of w i c o e)%Qc) ->
  (forall e, (e < List.length us)%nat -> (0 < weight_of w i c o e)%Qc -> (lo <= member us e i c o <= hi)%Qc) ->
  (lo <= amount r i c o 0 <= hi)%Qc.
Proof. exact vote_between. Qed.
Print Assumptions C37_between.

(** C37. All weight on one member. *)
Theorem C37_one_member : forall t w us r i c o e0, ready t w us -> vote t w (map Some us) = Ok r ->
  (i < ax0 (values t))%nat -> (c < ax1 (values t))%nat -> (o < ax2 (values t))%nat -> (e0 < List.length us)%nat ->
  weight_of w i c o e0 <> 0%Qc -> (forall e, (e < List.length us)%nat -> e <> e0 -> weight_of w i c o e = 0%Qc) ->
  amount r i c o 0 = member us e0 i c o.
Proof. exact vote_one. Qed.
Print Assumptions C37_one_member.

(** C37. Only the proportions of the weights matter, origin by origin. *)
Theorem C37_scaling : forall t w w' us r r' i c o k, ready t w us -> ready t w' us -> vote t w (map Some us) = Ok r -> vote t w' (map Some us) = Ok r' ->
  (i < ax0 (values t))%nat -> (c < ax1 (values t))%nat -> (o < ax2 (values t))%nat -> k <> 0%Qc ->
  (forall e, (e < List.length us)%nat -> weight_of w' i c o e = (k * weight_of w i c o e)%Qc) ->
  total_weight w (List.length us) i c o <> 0%Qc -> amount r' i c o 0 = amount r i c o 0.
Proof. exact vote_scale. Qed.
Print Assumptions C37_scaling.

(** C37. The order in which members (with their weights) are listed does not matter. *)
Theorem C37_order : forall t w w' us us' r r' p i c o d0, ready t w us -> ready t w' us' -> vote t w (map Some us) = Ok r -> vote t w' (map Some us') = Ok r' ->
  Permutation p (seq 0 (List.length us)) -> us' = map (fun e => nth e us d0) p ->
  (i < ax0 (values t))%nat -> (c < ax1 (values t))%nat -> (o < ax2 (values t))%nat ->
  (forall e, (e < List.length us)%nat -> weight_of w' i c o e = weight_of w i c o (nth e p 0%nat)) ->
  total_weight w (List.length us) i c o <> 0%Qc -> amount r' i c o 0 = amount r i c o 0.
Proof. exact vote_order. Qed.
Print Assumptions C37_order.

Definition ult3 (a b c : Z) : tri := tri_of [[Some a]; [Some b]; [Some c]] [y 2001; y 2002; y 2003] (Vals [ULT_VAL]) ULT_VAL (Some true) false.
Definition w23 : warr := W2 3 2 (fun o e => nth e (nth o [[qc 1; qc 0]; [qc 1; qc 1]; [qc 1; qc 3]] []) 0%Qc).
Lemma ult3_frame a b c : ultimate_frame ex3 (ult3 a b c).
Proof. constructor; reflexivity. Qed.
Example C37_example : ready ex3 w23 [ult3 200 300 400; ult3 180 200 200] /\
  exists r, vote ex3 w23 (map Some [ult3 200 300 400; ult3 180 200 200]) = Ok r /\
    amount r 0 0 0 0 = qc 200 /\ amount r 0 0 1 0 = qc 250 /\ amount r 0 0 2 0 = qc 250.
Proof.
  split.
  - split; [apply ex3_wf|]. split; [cbn; lia|]. split; [cbn; lia|]. split; [discriminate|]. split; [split; reflexivity|].
    intros u [<-|[<-|[]]]; apply ult3_frame.
  - exists (Ex.get ex3 (vote ex3 w23 (map Some [ult3 200 300 400; ult3 180 200 200]))).
    split; [apply get_ok; vm_compute; reflexivity|]. repeat split; apply qeqb; vm_compute; reflexivity.
Qed.

(** Boundary of C37: an estimator set to 'drop'.  The remaining one takes over the weight at
    its new position and is divided by the weight of both: dropping the first of two
    members with weights 1 and 3 leaves a quarter of the second. *)
Definition w13 : warr := W2 3 2 (fun _ e => nth e [qc 1; qc 3] 0%Qc).
Theorem C37_dropped_member_refuted : exists t w u r, ready t w [u; u] /\ vote t w [None; Some u] = Ok r /\
  amount u 0 0 0 0 = qc 200 /\ amount r 0 0 0 0 = qc 50.
Proof.
  exists ex3, w13, (ult3 200 300 400), (Ex.get ex3 (vote ex3 w13 [None; Some (ult3 200 300 400)])).
  split.
  - split; [apply ex3_wf|]. split; [cbn; lia|]. split; [cbn; lia|]. split; [discriminate|]. split; [split; reflexivity|].
    intros u [<-|[<-|[]]]; apply ult3_frame.
  - split; [apply get_ok; vm_compute; reflexivity|]. split; apply qeqb; vm_compute; reflexivity.
Qed.
Print Assumptions C37_dropped_member_refuted.

(** C38. Fitting succeeds only with one row of weights per origin and one weight per
    estimator. *)
Theorem C38_checked : forall t n dflt s w, fit_weights t n dflt s = Ok w ->
  w_origins w = ax2 (values t) /\ w_estimators w = n /\ (1 <= n)%nat.
Proof. exact fit_checks. Qed.
Print Assumptions C38_checked.
Theorem C38_array : forall t n dflt w, (1 <= n)%nat ->
  fit_weights t n dflt (WArr w) = if ((w_origins w =? ax2 (values t)) && (w_estimators w =? n))%nat then Ok w else Err ValueError.
Proof. exact fit_array. Qed.
Print Assumptions C38_array.

(** C38. A mapping: given weights where given, the default weighting for exactly the other
    origins; a key that is no origin raises. *)
Theorem C38_mapping : forall t n dflt m, wf t -> (1 <= n)%nat -> List.length dflt = n ->
  (forall o r, In (o, r) m -> In o (odims t) /\ List.length r = n) ->
  exists w, fit_weights t n (Some dflt) (WMap m) = Ok w /\ weights_cover t w n /\
    forall i c o e, (o < ax2 (values t))%nat ->
      (forall r, mapped m (nth o (odims t) 0) r -> weight_of w i c o e = nth e r 0%Qc) /\
      (~ In (nth o (odims t) 0) (map fst m) -> weight_of w i c o e = nth e dflt 0%Qc).
Proof. exact fit_mapping. Qed.
Print Assumptions C38_mapping.
Theorem C38_unknown_origin : forall t n dflt m o r, (1 <= n)%nat -> In (o, r) m -> ~ In o (odims t) ->
  fit_weights t n dflt (WMap m) = Err IndexError.
Proof. exact fit_mapping_unknown. Qed.
Print Assumptions C38_unknown_origin.

(** C38. A function of the origin. *)
Theorem C38_function : forall t n dflt f, wf t -> (1 <= n)%nat -> (forall o, In o (odims t) -> List.length (f o) = n) ->
  (match dflt with Some d => List.length d = n | None => True end) ->
  exists w, fit_weights t n dflt (WFun f) = Ok w /\ weights_cover t w n /\
    forall i c o e, (o < ax2 (values t))%nat -> weight_of w i c o e = nth e (f (nth o (odims t) 0)) 0%Qc.
Proof. exact fit_function. Qed.
Print Assumptions C38_function.

(** C38. No weights: the default weighting (ones) everywhere, provided that there are as
    many origins as ages; otherwise fitting raises. *)
Theorem C38_no_weights : forall t n dflt, (1 <= n)%nat -> (match dflt with Some d => List.length d = n | None => True end) ->
  (ax2 (values t) = ax3 (values t) -> exists w, fit_weights t n dflt WNone = Ok w /\ weights_cover t w n /\
     forall i c o e, weight_of w i c o e = match dflt with Some d => nth e d 0%Qc | None => if (e <? n)%nat then 1%Qc else 0%Qc end) /\
  (ax2 (values t) <> ax3 (values t) -> fit_weights t n dflt WNone = Err ValueError).
Proof. exact fit_none. Qed.
Print Assumptions C38_no_weights.

Example C38_example : wf ex3 /\ exists w, fit_weights ex3 2 (Some [qc 1; qc 1]) (WMap [(y 2002, [qc 1; qc 3])]) = Ok w /\
  weight_of w 0 0 1 1 = qc 3 /\ weight_of w 0 0 2 1 = qc 1.
Proof. split; [apply ex3_wf|]. eexists. split; [reflexivity|]. split; reflexivity. Qed.

(** Boundary of C38: with no weights a triangle with three origins and two ages cannot be
    fitted, although the documented default is to average the estimators. *)
Definition ex32 : tri := tri_of [[Some 100; Some 150]; [Some 120; Some 180]; [Some 90; N]]
  [y 2001; y 2002; y 2003] (Ages [12; 24]) (dec 2003) (Some true) false.
Theorem C38_more_origins_than_ages_refuted : exists t, wf t /\ fit_weights t 2 None WNone = Err ValueError /\
  exists w, fit_weights t 2 None (WArr w) = Ok w /\ forall i c o e, (e < 2)%nat -> weight_of w i c o e = 1%Qc.
Proof.
  exists ex32. split; [apply wfb_ok; vm_compute; reflexivity|]. split; [reflexivity|].
  exists (W2 3 2 (fun _ _ => 1%Qc)). split; reflexivity.
Qed.
Print Assumptions C38_more_origins_than_ages_refuted.
