(** C52: applying a fitted method to new data. *)
From Coq Require Import Lia Permutation.
From Verif Require Import SpecPredict P_Predict ExMethods.
Local Open Scope Z_scope.

(** The ultimate of every known row of the new data is its latest amount times the
    fitted factors of that row from its age on; rows the method was not fitted to
    are dropped; the triangle returned holds the amounts of the new data. *)
Theorem C52_known_rows : forall m l t, new_data m l t -> matched t l ->
  exists x u, cl_predict m l t = Ok (x, u) /\ ultimate_frame x u /\ kdims x = known_keys (kdims t) (kdims l) /\ key_labels x = key_labels t /\ vdims x = vdims t /\ odims x = odims t /\ vdate x = vdate t /\ blank_future x /\
    forall i j c o d, in_range t i c o d -> (j < ax0 (values l))%nat -> nth i (kdims t) [] = nth j (kdims l) [] ->
      exists r, (r < ax0 (values u))%nat /\ nth r (kdims u) [] = nth i (kdims t) [] /\ amount x r c o d = amount t i c o d /\
        (month_of t o d = vdate t -> stores (cel u r c o 0%nat) (amount t i c o d * to_ultimate l j c d)%Qc).
Proof. exact predict_known. Qed.
Print Assumptions C52_known_rows.

(** Factors of a single row serve for all rows of data with other keys. *)
Theorem C52_aggregate_factors : forall m l t, new_data m l t -> List.length (kdims l) = 1%nat -> NoDup (key_labels t) -> full_keys t -> full_keys l ->
  ~ In (nth 0 (kdims l) []) (kdims t) \/ List.length (kdims t) = 1%nat ->
  exists x u, cl_predict m l t = Ok (x, u) /\ ultimate_frame x u /\ kdims x = kdims t /\ key_labels x = key_labels t /\ vdims x = vdims t /\ odims x = odims t /\ vdate x = vdate t /\ blank_future x /\
    forall i c o d, in_range t i c o d -> amount x i c o d = amount t i c o d /\
        (month_of t o d = vdate t -> stores (cel u i c o 0%nat) (amount t i c o d * to_ultimate l 0 c d)%Qc).
Proof. exact predict_one_row. Qed.
Print Assumptions C52_aggregate_factors.

(** On the triangle it was fitted to, [predict] gives the fitted ultimates. *)
Theorem C52_fitted_triangle : forall t l, method_input t -> pattern_for t l -> NoDup (key_labels t) -> NoDup (kdims t) -> full_keys t ->
  exists x u u', cl_predict t l t = Ok (x, u) /\ cl_ultimate t l = Ok u' /\ kdims x = kdims t /\ ddims x = ddims t /\ ultimate_frame t u /\ ultimate_frame t u' /\
    (forall i c o d, in_range t i c o d -> amount x i c o d = amount t i c o d) /\
    forall i c o, (i < ax0 (values t))%nat -> (c < ax1 (values t))%nat -> (o < ax2 (values t))%nat -> cel u i c o 0%nat = cel u' i c o 0%nat.
Proof. exact predict_self. Qed.
Print Assumptions C52_fitted_triangle.

(** An age beyond all fitted factors is refused. *)
Theorem C52_too_old : forall m l t xs, ddims t = Ages xs -> dlist (ddims l) <> [] ->
  (exists a, In a xs /\ forall b, In b (dlist (ddims l)) -> b < a) -> cl_predict m l t = Err ValueError.
Proof. exact predict_too_old. Qed.
Print Assumptions C52_too_old.

(** Benktander and Bornhuetter-Ferguson: the same iterations as on fitted data. *)
Theorem C52_benktander : forall m l t s n q, new_data m l t -> matched t l -> kdims l = kdims t -> exposure_for t s ->
  exists x u, benktander_predict n q m l t s = Ok (x, u) /\ ultimate_frame (with_row_labels x (sorted_rows x)) u /\ kdims x = kdims t /\ vdims x = vdims t /\ odims x = odims t /\ Permutation (kdims u) (kdims t) /\
    forall i c o d, in_range t i c o d -> month_of t o d = vdate t ->
      let latest := amount t i c o d in let e := (q * exposure s i c o)%Qc in let w := unreported_share l i c d in
      exists r, (r < ax0 (values u))%nat /\ nth r (kdims u) [] = nth i (kdims t) [] /\
        (latest + e = 0 -> cel u r c o 0%nat = None)%Qc /\ (latest + e <> 0 -> amount u r c o 0 = iterate n (bf_step latest w) e)%Qc.
Proof. exact predict_benktander. Qed.
Print Assumptions C52_benktander.

(** ** The hypotheses can be met *)
(** New data: two later origins, valued a year after the fitted triangle. *)
Definition exnew : tri := tri_of [[Some 110; Some 160]; [Some 120; None]] [y 2003; y 2004] (Ages [12; 24]) (dec 2004) (Some true) false.
Lemma square_diag t : ax2 (values t) = 2%nat -> ax3 (values t) = 2%nat ->
  month_of t 0 1 = vdate t -> month_of t 1 0 = vdate t -> even_diag t.
Proof.
  intros E2 E3 M0 M1. split.
  - intros o Ho. rewrite E2 in Ho. rewrite E3. exists (1 - o)%nat. split; [lia|]. destruct o as [|[|o]]; auto; lia.
  - exists 0%nat, 1%nat, 2%nat. split; [lia|]. rewrite E2, E3. intros d Hd. split; [intros _; exists d; lia|].
    intros _. exists (1 - d)%nat. split; [lia|]. destruct d as [|[|d]]; auto; lia.
Qed.
Lemma exnew_input : method_input exnew.
Proof.
  constructor; try reflexivity; try (cbn; lia).
  - apply wfb_ok; vm_compute; reflexivity.
  - apply blank_futureb_ok; vm_compute; reflexivity.
  - apply square_diag; reflexivity.
Qed.
Example C52_new_data_met : new_data ex3 expat exnew.
Proof.
  constructor; try reflexivity.
  - apply ex3_method.
  - apply exnew_input.
  - apply pattern_over, expat_pattern.
  - exists [12; 24], [36; 48]. auto.
  - vm_compute; discriminate.
  - intros o a Ho Ha _. change (odims exnew) with [y 2003; y 2004] in Ho. change (dlist (ddims ex3)) with [12; 24; 36] in Ha.
    destruct Ho as [<- | [<- | []]], Ha as [<- | [<- | [<- | []]]]; vm_compute; reflexivity.
  - right. vm_compute. repeat split; auto.
Qed.
Example C52_predicted : match cl_predict ex3 expat exnew with
  | Ok (x, u) => ddims x = Ages [12; 24; 36] /\ amount u 0 0 0 0 = qc 224 /\ amount u 0 0 1 0 = qc 252
  | Err _ => False end.
Proof. vm_compute. repeat split; (reflexivity || (apply Qc_is_canon; reflexivity)). Qed.
Example C52_matched_met : matched exnew expat.
Proof. constructor; vm_compute; try split; try (repeat constructor; cbn; intuition discriminate); try discriminate; try reflexivity; intros k [<- | []]; reflexivity. Qed.

(** Several rows: factors for A and B, data for B and C. *)
Definition exrows : tri := Tri [["B"]; ["C"]]%string ["line"%string] ["paid"%string] [y 2003; y 2004] (Ages [12; 24])
  (Arr 2 1 2 2 (fun i _ o d => if (o + d <=? 1)%nat then Some (qc (Z.of_nat (100 + 10 * i + 3 * o + 50 * d))) else None)) (dec 2004) (Some true) false GY GY.
Definition exfitted : tri := Tri [["A"]; ["B"]]%string ["line"%string] ["paid"%string] [y 2002; y 2003] (Ages [12; 24])
  (Arr 2 1 2 2 (fun i _ o d => if (o + d <=? 1)%nat then Some (qc (Z.of_nat (90 + 5 * i + 2 * o + 40 * d))) else None)) (dec 2003) (Some true) false GY GY.
Definition exfactors : tri := Tri [["A"]; ["B"]]%string ["line"%string] ["paid"%string] [y 2002] (Ages [12; 24])
  (Arr 2 1 1 2 (fun i _ _ d => if (d =? 0)%nat then Some (qc (2 + Z.of_nat i)) else Some (qc 3 / qc 2)%Qc)) ULT_VAL (Some false) true GY GY.
Lemma exrows_input : method_input exrows.
Proof. constructor; try reflexivity; try (cbn; lia); [apply wfb_ok|apply blank_futureb_ok|apply square_diag]; vm_compute; reflexivity. Qed.
Lemma exfitted_input : method_input exfitted.
Proof. constructor; try reflexivity; try (cbn; lia); [apply wfb_ok|apply blank_futureb_ok|apply square_diag]; vm_compute; reflexivity. Qed.
Lemma exfactors_pattern : pattern_for exfitted exfactors.
Proof.
  constructor; try reflexivity; try discriminate.
  - apply wfb_ok; vm_compute; reflexivity.
  - exists [12; 24], []. auto.
Qed.
Example C52_rows_met : new_data exfitted exfactors exrows /\ matched exrows exfactors.
Proof.
  split.
  - constructor; try reflexivity.
    + apply exfitted_input.
    + apply exrows_input.
    + apply pattern_over, exfactors_pattern.
    + exists [12; 24], []. auto.
    + vm_compute; discriminate.
    + intros o a Ho Ha _. change (odims exrows) with [y 2003; y 2004] in Ho. change (dlist (ddims exfitted)) with [12; 24] in Ha.
      destruct Ho as [<- | [<- | []]], Ha as [<- | [<- | []]]; vm_compute; reflexivity.
    + left. reflexivity.
  - constructor; cbn [exrows exfactors key_labels kdims].
    + split; [repeat constructor; cbn; tauto|reflexivity].
    + split; [repeat constructor; cbn; intuition discriminate|]. intros k [<- | [<- | []]]; reflexivity.
    + split; [repeat constructor; cbn; intuition discriminate|]. intros k [<- | [<- | []]]; reflexivity.
    + vm_compute. reflexivity.
    + vm_compute. discriminate.
Qed.
Example C52_rows_predicted : match cl_predict exfitted exfactors exrows with
  | Ok (x, u) => kdims u = [["B"%string]] /\ amount u 0 0 0 0 = qc 225 /\ amount u 0 0 1 0 = (qc 103 * qc 9 / qc 2)%Qc
  | Err _ => False end.
Proof. vm_compute. repeat split; (reflexivity || (apply Qc_is_canon; reflexivity)). Qed.
Example C52_benktander_met : exposure_for exnew (tri_of [[Some 300]; [Some 310]] [y 2003; y 2004] (Ages [12]) (dec 2004) (Some true) false) /\ kdims expat = kdims exnew.
Proof. split; [constructor; try reflexivity; left; reflexivity|reflexivity]. Qed.

(** ** Where the claim stops *)
Lemma decided (r : result (tri * tri)) (f : tri -> tri -> bool) : match r with Ok (x, u) => f x u | Err _ => false end = true ->
  exists x u, r = Ok (x, u) /\ f x u = true.
Proof. destruct r as [[x u]|]; [eauto|discriminate]. Qed.
(** Data valued before the fitted triangle gets no ultimates at all. *)
Theorem C52_older_valuation_refuted : exists m l t, method_input m /\ pattern_for m l /\ method_input t /\
  kdims t = kdims m /\ vdims t = vdims m /\ (exists xs more, ddims t = Ages xs /\ ddims m = Ages (xs ++ more)) /\ vdate t < vdate m /\
  (exists c o d, in_range t 0 c o d /\ month_of t o d = vdate t /\ amount t 0 c o d <> 0%Qc) /\
  exists x u, cl_predict m l t = Ok (x, u) /\ forall o, (o < ax2 (values u))%nat -> cel u 0 0 o 0%nat = None.
Proof.
  exists ex3, expat, (tri_of [[Some 100; Some 150]; [Some 110; None]] [y 2001; y 2002] (Ages [12; 24]) (dec 2002) (Some true) false).
  split; [apply ex3_method|]. split; [apply expat_pattern|]. split.
  { constructor; try reflexivity; try (cbn; lia); [apply wfb_ok|apply blank_futureb_ok|apply square_diag]; vm_compute; reflexivity. }
  do 2 (split; [reflexivity|]). split; [exists [12; 24], [36]; auto|]. split; [vm_compute; reflexivity|]. split.
  { exists 0%nat, 0%nat, 1%nat. split; [unfold in_range; cbn; lia|]. split; [reflexivity|]. vm_compute. discriminate. }
  match goal with |- exists x u, ?r = _ /\ _ => destruct (decided r (fun _ u => (ax2 (values u) =? 2)%nat && is_nan (cel u 0 0 0 0) && is_nan (cel u 0 0 1 0))) as (x & u & E & H); [vm_compute; reflexivity|] end.
  exists x, u. split; [exact E|]. apply andb_true_iff in H. destruct H as (H & H2). apply andb_true_iff in H. destruct H as (H0 & H1). apply Nat.eqb_eq in H0. rewrite H0.
  intros o Ho. destruct o as [|[|o]]; [destruct (cel u 0 0 0 0); [discriminate|reflexivity]|destruct (cel u 0 0 1 0); [discriminate|reflexivity]|lia].
Qed.
Print Assumptions C52_older_valuation_refuted.
(** A single later origin with fewer ages than the fitted triangle comes back with
    the fitted triangle's first origin added. *)
Theorem C52_single_origin_refuted : exists m l t, method_input m /\ pattern_for m l /\ method_input t /\
  kdims t = kdims m /\ vdims t = vdims m /\ (exists xs more, ddims t = Ages xs /\ ddims m = Ages (xs ++ more)) /\ vdate t = vdate m /\
  exists x u, cl_predict m l t = Ok (x, u) /\ List.length (odims t) = 1%nat /\ List.length (odims u) = 2%nat.
Proof.
  exists ex3, expat, (tri_of [[Some 120; Some 180]] [y 2002] (Ages [12; 24]) (dec 2003) (Some true) false).
  split; [apply ex3_method|]. split; [apply expat_pattern|]. split.
  { constructor; try reflexivity; try (cbn; lia); [apply wfb_ok; vm_compute; reflexivity|apply blank_futureb_ok; vm_compute; reflexivity|]. split.
    - intros o Ho. cbn in Ho. exists 1%nat. split; [cbn; lia|]. destruct o; [reflexivity|lia].
    - exists 1%nat, 1%nat, 1%nat. split; [lia|]. cbn [values tri_of ax2 ax3]. intros d Hd. split.
      + intros (o & Ho & M). cbn in Ho. replace o with 0%nat in M by lia. cbn in Hd. destruct d as [|[|d]]; [vm_compute in M; discriminate|exists 0%nat; auto|lia].
      + intros (k & Hk & ->). replace k with 0%nat by lia. exists 0%nat. split; [cbn; lia|reflexivity]. }
  do 2 (split; [reflexivity|]). split; [exists [12; 24], [36]; auto|]. split; [reflexivity|].
  match goal with |- exists x u, ?r = _ /\ _ => destruct (decided r (fun _ u => (List.length (odims u) =? 2)%nat)) as (x & u & E & H); [vm_compute; reflexivity|] end.
  exists x, u. split; [exact E|]. split; [reflexivity|]. apply Nat.eqb_eq. exact H.
Qed.
Print Assumptions C52_single_origin_refuted.
(** A single origin at a single age: its amount is repeated in the future ages of the
    triangle returned. *)
Theorem C52_single_age_refuted : exists m l t, method_input m /\ pattern_for m l /\ method_input t /\
  kdims t = kdims m /\ vdims t = vdims m /\ (exists xs more, ddims t = Ages xs /\ ddims m = Ages (xs ++ more)) /\ vdate m < vdate t /\
  exists x u, cl_predict m l t = Ok (x, u) /\ vdate x = vdate t /\ vdate x < month_of x 0 1 /\ amount x 0 0 0 1 = amount t 0 0 0 0 /\ amount t 0 0 0 0 <> 0%Qc.
Proof.
  exists ex3, expat, (tri_of [[Some 120]] [y 2004] (Ages [12]) (dec 2004) (Some true) false).
  split; [apply ex3_method|]. split; [apply expat_pattern|]. split.
  { constructor; try reflexivity; try (cbn; lia); [apply wfb_ok; vm_compute; reflexivity|apply blank_futureb_ok; vm_compute; reflexivity|]. split.
    - intros o Ho. cbn in Ho. exists 0%nat. split; [cbn; lia|]. destruct o; [reflexivity|lia].
    - exists 0%nat, 1%nat, 1%nat. split; [lia|]. intros d Hd. cbn in Hd. replace d with 0%nat by lia. split.
      + intros _. exists 0%nat; auto.
      + intros _. exists 0%nat. split; [cbn; lia|reflexivity]. }
  do 2 (split; [reflexivity|]). split; [exists [12], [24; 36]; auto|]. split; [vm_compute; reflexivity|].
  match goal with |- exists x u, ?r = _ /\ vdate x = ?v /\ _ => destruct (decided r (fun x _ => (vdate x =? v) && (vdate x <? month_of x 0 1) && Qc_eqb (amount x 0 0 0 1) (qc 120))) as (x & u & E & H); [vm_compute; reflexivity|] end.
  exists x, u. split; [exact E|]. apply andb_true_iff in H. destruct H as (H & H2). apply andb_true_iff in H. destruct H as (H0 & H1).
  split; [apply Z.eqb_eq; exact H0|]. split; [apply Z.ltb_lt; exact H1|]. split; [destruct (Qc_eqb_spec (amount x 0 0 0 1) (qc 120)); [|discriminate]; rewrite e; reflexivity|]. vm_compute. discriminate.
Qed.
Print Assumptions C52_single_age_refuted.
(** A single row unknown to a method fitted to several rows gets an ultimate under each
    fitted key instead of none. *)
Theorem C52_unknown_row_refuted : exists m l t, method_input m /\ pattern_for m l /\ method_input t /\
  key_labels t = key_labels m /\ vdims t = vdims m /\ ddims t = ddims m /\ vdate m < vdate t /\
  known_keys (kdims t) (kdims l) = [] /\ List.length (kdims t) = 1%nat /\
  exists x u, cl_predict m l t = Ok (x, u) /\ kdims u = kdims l /\ amount u 0 0 1 0 <> amount u 1 0 1 0.
Proof.
  exists exfitted, exfactors, (Tri [["C"%string]] ["line"%string] ["paid"%string] [y 2003; y 2004] (Ages [12; 24])
    (Arr 1 1 2 2 (fun i _ o d => if (o + d <=? 1)%nat then Some (qc (Z.of_nat (100 + 3 * o + 50 * d))) else None)) (dec 2004) (Some true) false GY GY).
  split; [apply exfitted_input|]. split; [apply exfactors_pattern|]. split.
  { constructor; try reflexivity; try (cbn; lia); [apply wfb_ok|apply blank_futureb_ok|apply square_diag]; vm_compute; reflexivity. }
  do 3 (split; [reflexivity|]). split; [vm_compute; reflexivity|]. do 2 (split; [reflexivity|]).
  match goal with |- exists x u, ?r = _ /\ _ => destruct (decided r (fun _ u => (if list_eq_dec (list_eq_dec string_dec) (kdims u) (kdims exfactors) then true else false) && negb (Qc_eqb (amount u 0 0 1 0) (amount u 1 0 1 0)))) as (x & u & E & H); [vm_compute; reflexivity|] end.
  exists x, u. split; [exact E|]. apply andb_true_iff in H. destruct H as (H0 & H1). split; [destruct (list_eq_dec _ (kdims u) (kdims exfactors)); [auto|discriminate]|].
  destruct (Qc_eqb_spec (amount u 0 0 1 0) (amount u 1 0 1 0)); [discriminate|auto].
Qed.
Print Assumptions C52_unknown_row_refuted.
