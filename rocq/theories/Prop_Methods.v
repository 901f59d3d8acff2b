(** Properties of tails and reserving methods. *)
From Coq Require Import Lia Permutation.
From Verif Require Import P_CapeCod ExMethods Prop_Dev.
Local Open Scope Z_scope.

(** C28 (second part). Fitting factors, adding a tail and applying them: every
    ultimate and IBNR is multiplied by the constant. *)
Theorem C28_ultimates_scale : forall (k : nat -> nat -> Qc) p q t t',
  same_frame t t' -> (forall i c, 0 < k i c)%Qc ->
  (forall i c o d, in_range t i c o d -> cel t' i c o d = option_map (fun q => k i c * q)%Qc (cel t i c o d)) ->
  method_input t -> is_pattern t' = false -> is_cumulative t' = Some true ->
  (2 <= ax3 (values t))%nat -> oldest_complete t -> fittable p t ->
  tp_attach q = None -> tp_tail q <> 0%Qc -> decay_ok q -> room_after t (tp_years q) -> (periods_per_year (dgrain t) * tp_years q < 1000)%nat ->
  exists f l u r f' l' u' r',
    dev_fit p t = Ok f /\ tail_constant q t (f_ldf f) = Ok l /\ cl_fit t (Some l) = Ok (l, u) /\ ibnr_of t u = Ok r /\
    dev_fit p t' = Ok f' /\ tail_constant q t' (f_ldf f') = Ok l' /\ cl_fit t' (Some l') = Ok (l', u') /\ ibnr_of t' u' = Ok r' /\
    forall i c o, (i < ax0 (values t))%nat -> (c < ax1 (values t))%nat -> (o < ax2 (values t))%nat ->
      amount u' i c o 0 = (k i c * amount u i c o 0)%Qc /\ amount r' i c o 0 = (k i c * amount r i c o 0)%Qc.
Proof. exact scale_cl. Qed.
Print Assumptions C28_ultimates_scale.
Lemma extail_decay : decay_ok extail.
Proof.
  right. intros j E. assert (H : (0 <= Qcpow (qc 1 / qc 2) j)%Qc) by (apply Qcpow_nonneg; vm_compute; discriminate).
  cbn [extail tp_seed tp_decay] in E. set (x := Qcpow _ _) in *. assert (1 <= 1 + qc 1 / qc 10 * x)%Qc.
  { assert (0 <= qc 1 / qc 10 * x)%Qc; [|qlra]. assert (0 <= qc 1 / qc 10)%Qc by (vm_compute; discriminate). set (z := (qc 1 / qc 10)%Qc) in *. qnra. }
  rewrite E in H0. vm_compute in H0. apply H0. reflexivity.
Qed.
Example C28_ultimates_hyps : method_input ex3 /\ decay_ok extail /\ tp_tail extail <> 0%Qc /\ room_after ex3 (tp_years extail) /\
  (periods_per_year (dgrain ex3) * tp_years extail < 1000)%nat /\ fittable with_drop ex3 /\ same_frame ex3 ex3x10.
Proof.
  split; [apply ex3_method|]. split; [apply extail_decay|]. split; [discriminate|]. split.
  - exists [12; 24; 36]. vm_compute. repeat split; congruence.
  - split; [vm_compute; lia|]. split; [apply fit_drop|constructor; reflexivity].
Qed.

(** C31. Each ultimate is the latest amount times the product of the factors from
    the origin's age on; IBNR is the ultimate less the latest amount. *)
Theorem C31_ultimate_and_ibnr : forall t l, method_input t -> pattern_for t l ->
  exists u r, cl_fit t (Some l) = Ok (l, u) /\ ultimate_frame t u /\ ibnr_of t u = Ok r /\ ultimate_frame t r /\
    forall i c o d, in_range t i c o d -> month_of t o d = vdate t ->
      stores (cel u i c o 0%nat) (amount t i c o d * to_ultimate l i c d)%Qc /\
      stores (cel r i c o 0%nat) (amount t i c o d * to_ultimate l i c d - amount t i c o d)%Qc.
Proof. exact cl_fit_ok. Qed.
Print Assumptions C31_ultimate_and_ibnr.
Theorem C31_ibnr_sign : forall t l u r, method_input t -> pattern_for t l -> cl_fit t (Some l) = Ok (l, u) -> ibnr_of t u = Ok r ->
  forall i c o d, in_range t i c o d -> month_of t o d = vdate t ->
   ((forall k, (d <= k < ax3 (values l))%nat -> factor (cel l i c 0 k) = 1%Qc) -> amount r i c o 0 = 0%Qc) /\
   ((forall k, (d <= k < ax3 (values l))%nat -> 1 <= factor (cel l i c 0 k))%Qc -> 0 <= amount t i c o d -> 0 <= amount r i c o 0)%Qc.
Proof. exact cl_ibnr_sign. Qed.
Print Assumptions C31_ibnr_sign.
(** With a fitted Development estimator and a tail. *)
Theorem C31_fitted_factors_and_tail : forall p q t, method_input t -> (2 <= ax3 (values t))%nat -> oldest_complete t -> fittable p t ->
  tp_attach q = None -> tp_tail q <> 0%Qc -> decay_ok q -> room_after t (tp_years q) -> (periods_per_year (dgrain t) * tp_years q < 1000)%nat ->
  exists f l u, dev_fit p t = Ok f /\ tail_constant q t (f_ldf f) = Ok l /\ pattern_for t l /\ cl_fit t (Some l) = Ok (l, u) /\ ultimate_frame t u /\
  forall i c o d, in_range t i c o d -> month_of t o d = vdate t ->
    stores (cel u i c o 0%nat)
      (amount t i c o d * (prodn (ax3 (values t) - 1 - d) (fun j => factor (cel (f_ldf f) i c 0 (d + j)%nat)) * tp_tail q))%Qc.
Proof. exact cl_end_to_end. Qed.
Print Assumptions C31_fitted_factors_and_tail.
(** Without an estimator: volume-weighted averages of the observed ratios. *)
Theorem C31_default_factors : forall t, method_input t -> (2 <= ax3 (values t))%nat -> oldest_complete t -> room_after t 1 ->
  exists l u, cl_fit t None = Ok (l, u) /\ pattern_for t l /\ ultimate_frame t u /\
  forall i c o d, in_range t i c o d -> month_of t o d = vdate t ->
    stores (cel u i c o 0%nat)
      (amount t i c o d * prodn (ax3 (values t) - 1 - d) (fun j =>
         factor (wavg Volume (ax2 (values t)) (has_ratio t i c (d + j)) (fun o => amount t i c o (d + j)) (fun o => amount t i c o (S (d + j))))))%Qc.
Proof. exact cl_default. Qed.
Print Assumptions C31_default_factors.
Example C31_hyps : method_input ex3 /\ pattern_for ex3 expat /\ oldest_complete ex3 /\ room_after ex3 1 /\ (2 <= ax3 (values ex3))%nat /\
  month_of ex3 1 1 = vdate ex3 /\ to_ultimate expat 0 0 1 = (qc 7 / qc 5)%Qc /\
  (exists u, cl_fit ex3 (Some expat) = Ok (expat, u) /\ cel u 0 0 1 0%nat = Some (qc 252)).
Proof.
  split; [apply ex3_method|]. split; [apply expat_pattern|]. split; [apply ex3_oldest|]. split; [apply ex3_room|]. split; [cbn; lia|].
  split; [reflexivity|]. split; [apply qeqb; vm_compute; reflexivity|].
  exists (Ex.get ex3 (cl_ultimate ex3 expat)). split; [|apply cell_eqb_eq; vm_compute; reflexivity].
  unfold cl_fit. change (validate_X ex3 (Some expat)) with (@Ok tri expat). cbn [rbind]. rewrite (get_ok ex3 (cl_ultimate ex3 expat)) at 1 by (vm_compute; reflexivity). cbn [rbind]. reflexivity.
Qed.

(** C32. n iterations: the chain ladder ultimate plus the n-th power of the
    unreported share times the distance of the expectation, which is n nested
    Bornhuetter-Ferguson steps; the rows of the result are sorted by label. *)
Theorem C32_iterations : forall t l s a, method_input t -> pattern_for t l -> exposure_for t s ->
  exists rows, Permutation rows (seq 0 (ax0 (values t))) /\
  forall n, exists u, benktander n a t l s = Ok u /\ ultimate_frame (with_row_labels t rows) u /\
    forall j c o d, in_range t j c o d -> month_of t o d = vdate t ->
      let i := nth j rows 0%nat in
      let latest := amount t i c o d in let e := (a * exposure s i c o)%Qc in
      let q := unreported_share l i c d in let cl := cl_amount t l i c o d in
      (latest + e = 0 -> cel u j c o 0%nat = None)%Qc /\
      (latest + e <> 0 -> stores (cel u j c o 0%nat) (cl + Qcpow q n * (e - cl)) /\ amount u j c o 0 = iterate n (bf_step latest q) e)%Qc.
Proof. exact benktander_iterations. Qed.
Print Assumptions C32_iterations.
(** For factors to ultimate of at least 1: between expectation and chain ladder,
    the distance to chain ladder never grows and tends to 0. *)
Theorem C32_converges : forall t l s a, method_input t -> pattern_for t l -> exposure_for t s ->
  exists rows U, Permutation rows (seq 0 (ax0 (values t))) /\ (forall n, benktander n a t l s = Ok (U n) /\ ultimate_frame (with_row_labels t rows) (U n)) /\
    forall j c o d, in_range t j c o d -> month_of t o d = vdate t ->
      let i := nth j rows 0%nat in
      let e := (a * exposure s i c o)%Qc in let cl := cl_amount t l i c o d in let B n := amount (U n) j c o 0 in
      (amount t i c o d + e <> 0 -> 1 <= to_ultimate l i c d ->
        (forall n, (cl <= e -> cl <= B n <= e) /\ (e <= cl -> e <= B n <= cl)) /\
        (forall n, Qcdist (B (S n)) cl <= Qcdist (B n) cl) /\
        (forall eps, 0 < eps -> exists N, forall n, (N <= n)%nat -> Qcdist (B n) cl < eps))%Qc.
Proof. exact benktander_converges. Qed.
Print Assumptions C32_converges.
Example C32_hyps : method_input ex3 /\ pattern_for ex3 expat /\ exposure_for ex3 exexp /\ (1 <= to_ultimate expat 0 0 1)%Qc /\
  (amount ex3 0 0 1 1 + 1 * exposure exexp 0 0 1 <> 0)%Qc /\
  (exists u, benktander 1 1 ex3 expat exexp = Ok u /\ amount u 0 0 1 0 = (qc 180 + qc 2 / qc 7 * qc 300)%Qc).
Proof.
  split; [apply ex3_method|]. split; [apply expat_pattern|]. split; [apply exexp_for|]. split; [vm_compute; discriminate|]. split; [discriminate|].
  exists (Ex.get ex3 (benktander 1 1 ex3 expat exexp)). split; [apply get_ok; vm_compute; reflexivity|apply qeqb; vm_compute; reflexivity].
Qed.
(** An expectation that offsets the latest amount exactly: the ultimate is missing,
    not latest + q * expectation. *)
Definition exoff : tri := tri_of [[Some 200]; [Some (-180)]; [Some 250]] [y 2001; y 2002; y 2003] (Ages [12]) (dec 2003) (Some true) false.
Theorem C32_offsetting_expectation_refuted : exists t l s u,
  method_input t /\ pattern_for t l /\ exposure_for t s /\ benktander 1 1 t l s = Ok u /\
  month_of t 1 1 = vdate t /\ amount t 0 0 1 1 <> 0%Qc /\ exposure s 0 0 1 <> 0%Qc /\
  cel u 0 0 1 0%nat = None /\ bf_step (amount t 0 0 1 1) (unreported_share l 0 0 1) (exposure s 0 0 1) <> 0%Qc.
Proof.
  exists ex3, expat, exoff, (Ex.get ex3 (benktander 1 1 ex3 expat exoff)).
  split; [apply ex3_method|]. split; [apply expat_pattern|]. split; [constructor; try reflexivity; left; reflexivity|].
  split; [apply get_ok; vm_compute; reflexivity|]. split; [reflexivity|]. split; [discriminate|]. split; [discriminate|].
  split; [apply cell_eqb_eq; vm_compute; reflexivity|]. intros E. apply (f_equal (fun q => Qc_eqb q 0%Qc)) in E. vm_compute in E. discriminate E.
Qed.
Print Assumptions C32_offsetting_expectation_refuted.

(** C33. The a-priori of an origin is the average of the trended loss ratios with
    weights used-up exposure times decay^distance; detrended by the origin's trend. *)
Theorem C33_weighted_average : forall t l s decay tr lat,
  method_input t -> pattern_for t l -> exposure_for t s -> latest_ages t lat ->
  exists ap det, capecod_aprioris decay tr t l s = Ok (ap, det) /\
    forall i c r, (i < ax0 (values t))%nat -> (c < ax1 (values t))%nat -> (r < ax2 (values t))%nat ->
      let den := cc_den t l s decay lat i c r in let avg := (cc_num t l s decay tr lat i c r / den)%Qc in
      (den = 0 -> cel ap i c r 0%nat = None /\ cel det i c r 0%nat = None)%Qc /\
      (den <> 0 -> cel ap i c r 0%nat = Some avg /\ (tr r <> 0 -> cel det i c r 0%nat = Some (avg / tr r)))%Qc.
Proof. exact capecod_aprioris_ok. Qed.
Print Assumptions C33_weighted_average.
Theorem C33_between : forall t l s decay tr lat,
  method_input t -> pattern_for t l -> exposure_for t s -> latest_ages t lat -> (0 <= decay)%Qc ->
  exists ap det, capecod_aprioris decay tr t l s = Ok (ap, det) /\
    forall i c r lo hi, (i < ax0 (values t))%nat -> (c < ax1 (values t))%nat -> (r < ax2 (values t))%nat ->
      (forall o, (o < ax2 (values t))%nat -> exposed t s lat i c o = true ->
         0 < used_up l s lat i c o /\ lo <= trended_ratio t l s tr lat i c o <= hi)%Qc ->
      (exists o, (o < ax2 (values t))%nat /\ exposed t s lat i c o = true) -> (decay <> 0%Qc \/ exposed t s lat i c r = true) ->
      exists a, cel ap i c r 0%nat = Some a /\ (lo <= a <= hi)%Qc.
Proof. exact capecod_between. Qed.
Print Assumptions C33_between.
Theorem C33_decay_one : forall t l s tr lat,
  method_input t -> pattern_for t l -> exposure_for t s -> latest_ages t lat ->
  exists ap det, capecod_aprioris 1 tr t l s = Ok (ap, det) /\
    forall i c r, (i < ax0 (values t))%nat -> (c < ax1 (values t))%nat -> (r < ax2 (values t))%nat ->
      let losses := sum_over (ax2 (values t)) (exposed t s lat i c) (fun o => amount t i c o (lat o) * tr o)%Qc in
      let used := sum_over (ax2 (values t)) (exposed t s lat i c) (used_up l s lat i c) in
      used <> 0%Qc -> cel ap i c r 0%nat = Some (losses / used)%Qc.
Proof. exact capecod_decay_one. Qed.
Print Assumptions C33_decay_one.
Theorem C33_decay_zero : forall t l s tr lat,
  method_input t -> pattern_for t l -> exposure_for t s -> latest_ages t lat ->
  exists rows ap det, Permutation rows (seq 0 (ax0 (values t))) /\ capecod_aprioris 0 tr t l s = Ok (ap, det) /\
  (forall i c r, (i < ax0 (values t))%nat -> (c < ax1 (values t))%nat -> (r < ax2 (values t))%nat -> exposed t s lat i c r = true ->
     cel ap i c r 0%nat = Some (trended_ratio t l s tr lat i c r)) /\
  forall n, exists u, capecod n 0 tr t l s = Ok u /\ ultimate_frame (with_row_labels t rows) u /\
    forall j c o, (j < ax0 (values t))%nat -> (c < ax1 (values t))%nat -> (o < ax2 (values t))%nat ->
      let i := nth j rows 0%nat in let latest := amount t i c o (lat o) in let cl := cl_amount t l i c o (lat o) in
      exposed t s lat i c o = true -> tr o <> 0%Qc -> (latest + cl <> 0)%Qc -> stores (cel u j c o 0%nat) cl.
Proof. exact capecod_decay_zero. Qed.
Print Assumptions C33_decay_zero.
(** The ultimates: the Benktander iteration from exposure times detrended a-priori. *)
Theorem C33_ultimates : forall t l s decay tr lat,
  method_input t -> pattern_for t l -> exposure_for t s -> latest_ages t lat ->
  exists rows ap det, Permutation rows (seq 0 (ax0 (values t))) /\ capecod_aprioris decay tr t l s = Ok (ap, det) /\
  forall n, exists u, capecod n decay tr t l s = Ok u /\ ultimate_frame (with_row_labels t rows) u /\
    forall j c o, (j < ax0 (values t))%nat -> (c < ax1 (values t))%nat -> (o < ax2 (values t))%nat ->
      let i := nth j rows 0%nat in let d := lat o in
      let latest := amount t i c o d in let e := (exposure s i c o * amount det i c o 0)%Qc in
      let q := unreported_share l i c d in let cl := cl_amount t l i c o d in
      (latest + e = 0 -> cel u j c o 0%nat = None)%Qc /\
      (latest + e <> 0 -> stores (cel u j c o 0%nat) (cl + Qcpow q n * (e - cl)) /\ amount u j c o 0 = iterate n (bf_step latest q) e)%Qc.
Proof. exact capecod_ultimates. Qed.
Print Assumptions C33_ultimates.
Definition ex3_lat (o : nat) : nat := (2 - o)%nat.
Example C33_hyps : method_input ex3 /\ pattern_for ex3 expat /\ exposure_for ex3 exexp /\ latest_ages ex3 ex3_lat /\
  (forall o, (o < 3)%nat -> exposed ex3 exexp ex3_lat 0 0 o = true /\ (0 < used_up expat exexp ex3_lat 0 0 o)%Qc) /\
  (exists x, capecod_aprioris (qc 1 / qc 2) (fun _ => 1%Qc) ex3 expat exexp = Ok x /\ cel (fst x) 0 0 0 0%nat <> cel (fst x) 0 0 1 0%nat).
Proof.
  split; [apply ex3_method|]. split; [apply expat_pattern|]. split; [apply exexp_for|]. split; [|split].
  - intros o Ho. cbn in Ho. do 3 (destruct o as [|o]; [vm_compute; split; [lia|reflexivity]|]). lia.
  - intros o Ho. do 3 (destruct o as [|o]; [split; vm_compute; reflexivity|]). lia.
  - exists (Ex.get (ex3, ex3) (capecod_aprioris (qc 1 / qc 2) (fun _ => 1%Qc) ex3 expat exexp)). split; [apply get_ok; vm_compute; reflexivity|].
    intros E. apply cell_eqb_eq in E. vm_compute in E. discriminate E.
Qed.

(** C36. From the attachment age on the factors multiply to the requested tail,
    those before are unchanged; the added ages continue the development grain. *)
Theorem C36_tail_product : forall p t l k, factors_for t l -> decay_ok p -> attaches_at p t k -> (1 <= k)%nat ->
  let m := S (periods_per_year (dgrain t) * tp_years p) in
  let n := (ax3 (values l) + m)%nat in
  (n - k <= 1000)%nat ->
  exists r, tail_constant p t l = Ok r /\
    kdims r = kdims l /\ key_labels r = key_labels l /\ vdims r = vdims l /\ odims r = odims l /\ vdate r = vdate l /\ same_flags l r /\
    ddims r = Ages (dlist (ddims l) ++ map (fun j => last (dlist (ddims l)) 0 + grain_months (dgrain t) * (Z.of_nat j + 1)) (seq 0 m)) /\
    ax0 (values r) = ax0 (values l) /\ ax1 (values r) = ax1 (values l) /\ ax2 (values r) = 1%nat /\ ax3 (values r) = n /\
    (forall i c o d, (d < k)%nat -> cel r i c o d = if (d <? ax3 (values l))%nat then cel l i c o d else Some 1%Qc) /\
    (forall i c o, prodn (n - k) (fun j => amount r i c o (k + j)%nat) = tp_tail p) /\
    (tp_tail p = 1%Qc -> forall i c o d, (k <= d < n)%nat -> cel r i c o d = Some 1%Qc).
Proof. exact tail_ok. Qed.
Print Assumptions C36_tail_product.
(** Factors for [ex3] without a tail. *)
Definition exfac : tri := tri_of [[Some 3; Some 2]] [y 2001] (Ages [12; 24]) ULT_VAL (Some false) true.
Definition extail_at (a : Z) : tail_params := TailParams (qc 6 / qc 5)%Qc (qc 1 / qc 2)%Qc (qc 1 / qc 10)%Qc (Some a) 2.
Lemma exfac_for : factors_for ex3 exfac.
Proof. constructor; [reflexivity|exists [12; 24]; auto|]. cbn. lia. Qed.
Example C36_hyps : factors_for ex3 exfac /\ decay_ok extail /\ attaches_at extail ex3 2 /\ decay_ok (extail_at 20) /\ attaches_at (extail_at 20) ex3 1.
Proof.
  split; [apply exfac_for|]. split; [apply extail_decay|]. split; [reflexivity|]. split; [apply extail_decay|].
  split; [discriminate|]. split; [cbn; lia|]. split; [cbn; lia|]. intros j Hj. assert (j = 0%nat) as -> by lia. cbn. lia.
Qed.
(** A tail attached at the first age: the factors at 12 and 24 stay, so the
    product from 12 on is not the tail. *)
Theorem C36_first_age_refuted : exists p t l r, factors_for t l /\ decay_ok p /\ attaches_at p t 0 /\
  tail_constant p t l = Ok r /\ cel r 0 0 0 0%nat = cel l 0 0 0 0%nat /\
  prodn (ax3 (values r)) (fun j => amount r 0 0 0 j) <> tp_tail p.
Proof.
  exists (extail_at 12), ex3, exfac, (Ex.get ex3 (tail_constant (extail_at 12) ex3 exfac)).
  split; [apply exfac_for|]. split; [apply extail_decay|]. split.
  { split; [discriminate|]. split; [cbn; lia|]. split; [cbn; lia|]. intros j Hj. lia. }
  split; [apply get_ok; vm_compute; reflexivity|]. split; [apply cell_eqb_eq; vm_compute; reflexivity|].
  intros E. apply (f_equal (fun q => Qc_eqb q (qc 6 / qc 5)%Qc)) in E. vm_compute in E. discriminate E.
Qed.
Print Assumptions C36_first_age_refuted.
