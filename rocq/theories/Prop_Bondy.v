(** C61: Bondy tails. *)
From Coq Require Import Lia Lra Qreals.
From Verif Require Import P_Mack P_Curve P_Bondy Ex ExDev SpecBondy.
Local Open Scope R_scope.

(** C61. Up to the attachment age the factors are those of the development.  After it, up to the last age of the triangle,
    every factor is the factor at the earliest age raised to the power b as often as periods have passed, and the last factor
    is the one before to the power b/(1-b). *)
Theorem C61_factors : forall t l ea aa years b j k, bondy_input t l -> bondy_at t ea aa j k -> let n := ax3 (values t) in
  exists r, tail_bondy ea aa years b t l = Ok r /\
  kdims (rt_frame r) = kdims l /\ key_labels (rt_frame r) = key_labels l /\ vdims (rt_frame r) = vdims l /\ odims (rt_frame r) = odims l /\ vdate (rt_frame r) = vdate l /\ same_flags l (rt_frame r) /\
  ddims (rt_frame r) = Ages (dlist (ddims l) ++ map (fun j => last (dlist (ddims l)) 0 + grain_months (dgrain t) * (Z.of_nat j + 1))%Z (seq 0 (S (periods_per_year (dgrain t) * years)))) /\
  ax0 (values (rt_frame r)) = ax0 (values l) /\ ax1 (values (rt_frame r)) = ax1 (values l) /\ ax2 (values (rt_frame r)) = 1%nat /\ ax3 (values (rt_frame r)) = S n /\
  (forall i c d, (d <= k)%nat -> rt_cell r i c 0%nat d = r_of (cel l i c 0 d)) /\
  (forall i c q, cel l i c 0 j = Some q -> (0 < q)%Qc ->
     (forall d, (k < d < n)%nat -> rt_cell r i c 0%nat d = Some (bondy_factor (rv q) (b i c) (d - j))) /\
     (b i c <> 1 -> rt_cell r i c 0%nat n = Some (Rpower (bondy_factor (rv q) (b i c) (n - 1 - j)) (b i c / (1 - b i c)))) /\
     (b i c = 1 -> rt_cell r i c 0%nat n = None)).
Proof. exact bondy_eq. Qed.
Print Assumptions C61_factors.
(** One factor for each labelled age: only with annual ages and a projection period of a year. *)
Theorem C61_one_label_each : forall t l ea aa years b j k r, bondy_input t l -> bondy_at t ea aa j k -> tail_bondy ea aa years b t l = Ok r ->
  (ax3 (values (rt_frame r)) = List.length (dlist (ddims (rt_frame r))) <-> dgrain t = GY /\ years = 1%nat).
Proof.
  intros t l ea aa years b j k r I At E. destruct (bondy_eq t l ea aa years b j k I At) as (r' & E' & _ & _ & _ & _ & _ & _ & Dd & _ & _ & _ & A3 & _).
  rewrite E in E'. injection E' as <-. rewrite A3, Dd. cbn [dlist]. rewrite app_length, map_length, seq_length. pose proof (bi_ages _ _ I).
  destruct (ff_d _ _ (bi_factors _ _ I)) as (xs & -> & Lx). cbn [dlist]. rewrite Lx. split.
  - intros X. assert (P : periods_per_year (dgrain t) = match dgrain t with GY => 1 | GS => 2 | GQ => 4 | GM => 12 end%nat) by (destruct (dgrain t); reflexivity). rewrite P in X. destruct (dgrain t); [split; auto; lia|exfalso; lia..].
  - intros (G & ->). rewrite G. change (periods_per_year GY) with 1%nat. lia.
Qed.
Print Assumptions C61_one_label_each.
(** The last factor is the product of all later Bondy factors, and the tail, from the last age of the triangle on, that of all
    Bondy factors from that age on. *)
Theorem C61_tail_limit : forall t l ea aa years b j k r i c q, bondy_input t l -> bondy_at t ea aa j k -> tail_bondy ea aa years b t l = Ok r ->
  cel l i c 0 j = Some q -> (0 < q)%Qc -> Rabs (b i c) < 1 -> let n := ax3 (values t) in
  product_to_infinity (rv q) (b i c) (n - j) (nzr (rt_cell r i c 0%nat n)) /\
  product_to_infinity (rv q) (b i c) (n - 1 - j) (whole_tail t r i c).
Proof. exact bondy_tail. Qed.
Print Assumptions C61_tail_limit.
(** Without parameters and with the exponent 1/2 the tail is the last factor of the development. *)
Theorem C61_classic : forall t l years b r i c q, bondy_input t l -> (2 <= ax3 (values t))%nat -> tail_bondy None None years b t l = Ok r ->
  cel l i c 0 (ax3 (values t) - 2) = Some q -> (0 < q)%Qc -> b i c = / 2 -> whole_tail t r i c = rv q.
Proof. exact bondy_classic. Qed.
Print Assumptions C61_classic.
(** Exponents between 0 and 1 and a first factor above 1: factors above 1 that fall. *)
Theorem C61_decay : forall f b j, 1 < f -> 0 < b < 1 -> 1 < bondy_factor f b (S j) < bondy_factor f b j.
Proof. exact bondy_above. Qed.
Print Assumptions C61_decay.
(** If the factors of the development are themselves a Bondy sequence, the exponent of least squares is theirs and the
    factors are unchanged wherever the curve is attached. *)
Theorem C61_recovers : forall t l ea aa years b j k r i c b0 q e, bondy_input t l -> bondy_at t ea aa j k -> tail_bondy ea aa years b t l = Ok r ->
  (S (S j) < ax3 (values t))%nat -> cel l i c 0 j = Some q -> (0 < q)%Qc -> q <> 1%Qc ->
  (forall m, (j + m < ax3 (values l))%nat -> exists p, cel l i c 0 (j + m) = Some p /\ rv p = bondy_factor (rv q) b0 m) ->
  best_bondy (ax3 (values l) - j) (log_factors l i c j) (b i c) e ->
  b i c = b0 /\ (forall d, (j <= d < ax3 (values l))%nat -> rt_cell r i c 0%nat d = r_of (cel l i c 0 d)).
Proof. exact bondy_recovers. Qed.
Print Assumptions C61_recovers.
(** An attachment age before the earliest age is refused. *)
Theorem C61_refuses : forall t l e a years b, (a < e)%Z -> a <> 0%Z -> tail_bondy (Some e) (Some a) years b t l = Err ValueError.
Proof. intros t l e a years b H N. unfold tail_bondy. destruct a; [contradiction|..]; cbn [rbind]; apply Z.ltb_lt in H; rewrite H; reflexivity. Qed.
Print Assumptions C61_refuses.

(** ** The hypotheses can be met *)
Definition exfac (a b c : Qc) : tri := Tri (kdims ex44) (key_labels ex44) (vdims ex44) [y 2001] (Ages [12; 24; 36]%Z)
  (Arr 1 1 1 3 (fun _ _ _ d => match d with O => Some a | 1%nat => Some b | _ => Some c end)) ULT_VAL (Some false) true (ograin ex44) (dgrain ex44).
Lemma exfac_input a b c : bondy_input ex44 (exfac a b c).
Proof. constructor; [apply wfb_ok; vm_compute; reflexivity|reflexivity| |reflexivity]. constructor; [reflexivity|exists [12; 24; 36]%Z; auto|]. cbn. lia. Qed.
Definition exbondy : tri := exfac (qc 16) (qc 4) (qc 2).
Example C61_hyps : bondy_input ex44 exbondy /\ bondy_at ex44 None None 2 2 /\ bondy_at ex44 (Some 12%Z) (Some 24%Z) 0 1 /\ cel exbondy 0 0 0 2%nat = Some (qc 2) /\ (2 <= ax3 (values ex44))%nat.
Proof.
  split; [apply exfac_input|]. split; [constructor; cbn; auto|]. split; [constructor; cbn; auto; split; [discriminate|auto]|]. split; auto. cbn. lia.
Qed.
Lemma rv_qc z : rv (qc z) = IZR z.
Proof. unfold rv, qc, Q2Qc. cbn [this]. rewrite (Qeq_eqR _ _ (Qred_correct (inject_Z z))). unfold Q2R, inject_Z. cbn. lra. Qed.
Lemma ln_16 : ln 16 = 4 * ln 2.
Proof. replace 16 with (2 * 2 * (2 * 2)) by ring. rewrite !ln_mult by lra. ring. Qed.
Lemma exbondy_log m : (m < 3)%nat -> log_factors exbondy 0 0 0 m = ln 16 * (/ 2) ^ m.
Proof.
  intros H. rewrite ln_16. unfold log_factors. destruct m as [|[|[|m]]]; [..|lia]; cbn [Nat.add]; change (cel exbondy 0 0 0 0) with (Some (qc 16)); change (cel exbondy 0 0 0 1) with (Some (qc 4)); change (cel exbondy 0 0 0 2) with (Some (qc 2)); cbn [nz]; rewrite rv_qc.
  - rewrite ln_16. ring.
  - replace 4 with (2 * 2) at 1 by ring. rewrite ln_mult by lra. field.
  - field.
Qed.
Example C61_recovers_hyps : (forall m, (0 + m < ax3 (values exbondy))%nat -> exists p, cel exbondy 0 0 0 (0 + m) = Some p /\ rv p = bondy_factor (rv (qc 16)) (/ 2) m) /\
  best_bondy (ax3 (values exbondy) - 0) (log_factors exbondy 0 0 0) (/ 2) (ln 16).
Proof.
  split.
  - intros m H. change (0 + m < 3)%nat in H. exists (nz (cel exbondy 0 0 0 (0 + m))). split; [destruct m as [|[|[|m]]]; [reflexivity..|lia]|].
    pose proof (exbondy_log m ltac:(lia)) as E. unfold log_factors in E. unfold bondy_factor, Rpower. rewrite rv_qc. rewrite Rmult_comm, <- E. symmetry. apply exp_ln.
    destruct m as [|[|[|m]]]; [..|lia]; cbn [Nat.add]; change (cel exbondy 0 0 0 0) with (Some (qc 16)); change (cel exbondy 0 0 0 1) with (Some (qc 4)); change (cel exbondy 0 0 0 2) with (Some (qc 2)); cbn [nz]; rewrite rv_qc; lra.
  - intros b' e'. change (ax3 (values exbondy) - 0)%nat with 3%nat. unfold bondy_loss. cbn [rsumn]. rewrite !exbondy_log by lia.
    pose proof (pow2_ge_0 (ln 16 * (/ 2) ^ 0 - e' * b' ^ 0)). pose proof (pow2_ge_0 (ln 16 * (/ 2) ^ 1 - e' * b' ^ 1)). pose proof (pow2_ge_0 (ln 16 * (/ 2) ^ 2 - e' * b' ^ 2)).
    rewrite !Rminus_diag_eq by auto. rewrite !pow_i by lia. lra.
Qed.

(** ** Where the conditions are needed *)
(** C61. Refuted: an attachment age without an earliest age, although both have defaults. *)
Theorem C61_attachment_refuted : forall t l a years b, a <> 0%Z -> tail_bondy None (Some a) years b t l = Err TypeError.
Proof. intros t l a years b N. unfold tail_bondy. destruct a; [contradiction|..]; reflexivity. Qed.
Print Assumptions C61_attachment_refuted.
(** C61. Refuted: with quarterly ages there are more labels than factors. *)
Definition exq : tri := Tri (kdims ex44) (key_labels ex44) (vdims ex44) [y 2001; y 2001 + 3; y 2001 + 6]%Z (Ages [3; 6; 9]%Z)
  (Arr 1 1 3 3 (fun _ _ o d => if (o + d <=? 2)%nat then Some (qc 100) else None)) (y 2001 + 8)%Z (Some true) false GQ GQ.
Definition exqf : tri := Tri (kdims ex44) (key_labels ex44) (vdims ex44) [y 2001] (Ages [3; 6]%Z) (Arr 1 1 1 2 (fun _ _ _ d => Some (qc 2))) ULT_VAL (Some false) true GQ GQ.
Theorem C61_labels_refuted : exists t l r, bondy_input t l /\ dgrain t = GQ /\ tail_bondy None None 1 (fun _ _ => / 2) t l = Ok r /\
  ax3 (values (rt_frame r)) = 4%nat /\ List.length (dlist (ddims (rt_frame r))) = 7%nat.
Proof.
  assert (I : bondy_input exq exqf). { constructor; [apply wfb_ok; vm_compute; reflexivity|reflexivity| |reflexivity]. constructor; [reflexivity|exists [3; 6]%Z; auto|]. cbn. lia. }
  assert (At : bondy_at exq None None 1 1) by (constructor; cbn; auto).
  destruct (C61_factors exq exqf None None 1 (fun _ _ => / 2) 1 1 I At) as (r & E & _ & _ & _ & _ & _ & _ & D & _ & _ & _ & A & _).
  exists exq, exqf, r. split; [exact I|]. split; [reflexivity|]. split; [exact E|]. split; [exact A|]. rewrite D. reflexivity.
Qed.
Print Assumptions C61_labels_refuted.
(** C61. Refuted: attached at the last age, the fitted factor of that age is left out: 1 in its place. *)
Theorem C61_last_age_refuted : exists t l r b, bondy_input t l /\ tail_bondy (Some 12%Z) (Some 48%Z) 1 b t l = Ok r /\ last (dlist (ddims t)) 0%Z = 48%Z /\
  rt_cell r 0%nat 0%nat 0%nat 3%nat = Some 1 /\ bondy_factor 16 (b 0%nat 0%nat) 3 <> 1.
Proof.
  exists ex44, exbondy. eexists. exists (fun _ _ => / 2). split; [apply exfac_input|]. split; [reflexivity|]. split; [reflexivity|]. split.
  - cbn. unfold rv. f_equal. unfold Q2R. cbn. lra.
  - unfold bondy_factor, Rpower. rewrite <- exp_0. intros X. apply exp_inv in X. pose proof ln_lt_2. rewrite ln_16 in X. lra.
Qed.
Print Assumptions C61_last_age_refuted.
(** C61. Refuted: attached after the last age, all fitted factors are appended to all factors. *)
Theorem C61_beyond_refuted : exists t l r b, bondy_input t l /\ tail_bondy (Some 12%Z) (Some 60%Z) 1 b t l = Ok r /\
  ax3 (values (rt_frame r)) = 9%nat /\ List.length (dlist (ddims (rt_frame r))) = 5%nat.
Proof. exists ex44, exbondy. eexists. exists (fun _ _ => / 2). split; [apply exfac_input|]. split; [reflexivity|]. split; reflexivity. Qed.
Print Assumptions C61_beyond_refuted.
