(** C66: bootstrap of the over-dispersed Poisson model. *)
From Coq Require Import Lia Lra.
From Verif Require Import TriFacts P_Core P_Corr5 P_Boot5 Ex ExLabel SpecBoot.
Local Open Scope nat_scope.

Lemma residual_0 b t n o d : expected_in b t n o d <> 0%Qc -> (residual b t n o d = 0%R <-> increment_of t 0 0 o d = expected_in b t n o d).
Proof.
  intros N. unfold residual. assert (P : (0 < sqrt (Rabs (rv (expected_in b t n o d))))%R) by (apply sqrt_lt_R0, Rabs_pos_lt, rv_neq; auto). split; intros H.
  - apply rv_inj. apply Rmult_integral in H. destruct H as [H|H]; [lra|]. pose proof (Rinv_neq_0_compat _ (Rgt_not_eq _ _ P)). contradiction.
  - rewrite H. unfold Rdiv. ring.
Qed.
Lemma in_cells n o d : In (o, d) (cells_by_origin n) <-> o + d < n.
Proof.
  unfold cells_by_origin. rewrite in_flat_map. split.
  - intros (o' & H1 & H2). apply in_map_iff in H2. destruct H2 as (d' & [= <- <-] & H2). apply in_seq in H2. lia.
  - intros H. exists o. split; [apply in_seq; lia|]. apply in_map, in_seq. lia.
Qed.
Lemma drawn_cells b t n v : In v (raw_residuals b t n) <-> exists o d, o + d < n /\ counted b t o d = true /\ residual b t n o d <> 0%R /\ v = residual b t n o d.
Proof.
  unfold raw_residuals. rewrite in_map_iff. split.
  - intros ((o & d) & <- & H). apply filter_In in H. destruct H as (H1 & H2). apply in_cells in H1. unfold drawn in H2. cbn [fst snd] in *. apply andb_true_iff in H2. destruct H2 as (H2 & H3).
    exists o, d. destruct (Req_EM_T (residual b t n o d) 0); [discriminate|]. auto.
  - intros (o & d & H & C & N & ->). exists (o, d). split; [reflexivity|]. apply filter_In. split; [apply in_cells; auto|]. unfold drawn. cbn [fst snd]. rewrite C. destruct (Req_EM_T (residual b t n o d) 0); [contradiction|reflexivity].
Qed.
Lemma scattered_raw b t n : all_expected b t n -> (scattered b t n <-> raw_residuals b t n <> []).
Proof.
  intros NE. split.
  - intros (o & d & H & C & N) Z. assert (X : In (residual b t n o d) (raw_residuals b t n)).
    { apply drawn_cells. exists o, d. repeat split; auto. intros R0. apply N. apply residual_0; auto. }
    rewrite Z in X. destruct X.
  - intros H. destruct (raw_residuals b t n) as [|v l] eqn:E; [congruence|]. destruct (proj1 (drawn_cells b t n v)) as (o & d & L & C & N & _); [rewrite E; left; auto|].
    exists o, d. split; auto. split; auto. intros X. apply N. apply residual_0; auto.
Qed.

(** ** The fit *)
Theorem C66_fits : forall b t n sims pick, boot_input t n -> fittable (plain_development b) t -> all_expected b t n -> scattered b t n -> 1 <= sims ->
  exists r, boot_fit b sims None pick t = Ok r.
Proof.
  intros b t n sims pick I F NE SC Hs. destruct (boot_fit_plain b t n I F sims pick NE (proj1 (scattered_raw b t n NE) SC) Hs) as (r & E & _). eauto.
Qed.
Print Assumptions C66_fits.
(** It fails if the expected increments are the actual ones, without simulations, for several index rows, and by valuation date. *)
Theorem C66_nothing_to_draw : forall b t n sims pick, boot_input t n -> fittable (plain_development b) t -> all_expected b t n -> ~ scattered b t n ->
  boot_fit b sims None pick t = Err ValueError.
Proof.
  intros b t n sims pick I F NE SC. apply (boot_fit_nothing b t n I F sims pick NE). destruct (raw_residuals b t n) as [|v l] eqn:E; [reflexivity|]. exfalso. apply SC. apply scattered_raw; auto. rewrite E. discriminate.
Qed.
Print Assumptions C66_nothing_to_draw.
Theorem C66_refused : forall b t n hat pick, (boot_input t n -> fittable (plain_development b) t -> boot_fit b 0 hat pick t = Err ValueError) /\
  (forall sims, ax0 (values t) <> 1 -> boot_fit b sims hat pick t = Err ValueError) /\
  (forall sims l, ddims t = Vals l -> boot_fit b sims hat pick t = Err ValueError).
Proof.
  intros b t n hat pick. split; [|split].
  - intros I F. apply (boot_fit_no_sims b t n I F).
  - intros sims H. unfold boot_fit. destruct (Nat.eqb_spec (ax0 (values t)) 1); [contradiction|reflexivity].
  - intros sims l H. unfold boot_fit. rewrite H. destruct (negb _); reflexivity.
Qed.
Print Assumptions C66_refused.

(** ** Expected increments *)
(** Those of the chain ladder from the latest amounts back, to the valuation date. *)
Theorem C66_expected : forall b t n sims hat pick r o d, boot_input t n -> fittable (plain_development b) t -> boot_fit b sims hat pick t = Ok r -> o < n -> d < n ->
  av (bt_expected r) 0 0 o d = if o + d <? n then Some (expected_in b t n o d) else None.
Proof. intros b t n sims hat pick r o d I F E Ho Hd. apply (bo_expected _ _ _ _ _ _ (boot_fit_facts b t n I F _ _ _ _ E)); auto. Qed.
Print Assumptions C66_expected.
Lemma expected_nz b t n sims hat pick r o d : boot_input t n -> fittable (plain_development b) t -> boot_fit b sims hat pick t = Ok r -> o + d < n -> nz (av (bt_expected r) 0 0 o d) = expected_in b t n o d.
Proof. intros I F E L. rewrite (C66_expected b t n sims hat pick r o d I F E) by lia. destruct (Nat.ltb_spec (o + d) n); [reflexivity|lia]. Qed.
(** Those of an origin add up to its latest amount. *)
Theorem C66_origin_totals : forall b t n sims hat pick r o, boot_input t n -> fittable (plain_development b) t -> boot_fit b sims hat pick t = Ok r -> o < n ->
  sumn (n - o) (fun d => nz (av (bt_expected r) 0 0 o d)) = amount t 0 0 o (n - 1 - o).
Proof.
  intros b t n sims hat pick r o I F E Ho. rewrite (sumn_ext _ _ (expected_in b t n o)) by (intros d Hd; apply (expected_nz b t n sims hat pick); auto; lia). apply (P_Boot4.origin_total b t n o Ho).
Qed.
Print Assumptions C66_origin_totals.
(** With all link ratios, those of an age add up to its actual increments. *)
Theorem C66_age_totals : forall t n sims hat pick r d, boot_input t n -> volumes t n -> boot_fit default_boot sims hat pick t = Ok r -> d < n ->
  sumn (n - d) (fun o => nz (av (bt_expected r) 0 0 o d)) = sumn (n - d) (fun o => increment_of t 0 0 o d).
Proof.
  intros t n sims hat pick r d I V E Hd. rewrite (sumn_ext _ _ (fun o => expected_in default_boot t n o d)) by (intros o Ho; apply (expected_nz default_boot t n sims hat pick); auto; [apply default_boot_fittable|lia]).
  apply (P_Boot4.age_total t n I V d Hd).
Qed.
Print Assumptions C66_age_totals.
(** They are an origin effect times an age effect. *)
Theorem C66_effects : forall b t n sims hat pick r, boot_input t n -> fittable (plain_development b) t -> boot_fit b sims hat pick t = Ok r ->
  exists A B : nat -> Qc, forall o d, o + d < n -> av (bt_expected r) 0 0 o d = Some (A o * B d)%Qc.
Proof.
  intros b t n sims hat pick r I F E. destruct (multiplicative b t n) as (A & B & M). exists A, B. intros o d H. rewrite (C66_expected b t n sims hat pick r o d I F E) by lia. destruct (Nat.ltb_spec (o + d) n); [|lia]. rewrite M; auto.
Qed.
Print Assumptions C66_effects.
(** With all link ratios, no other positive effects have a greater over-dispersed Poisson likelihood. *)
Theorem C66_likelihood : forall t n sims hat pick r, boot_input t n -> volumes t n -> boot_fit default_boot sims hat pick t = Ok r ->
  (forall o d, o + d < n -> (0 < nz (av (bt_expected r) 0 0 o d))%Qc) ->
  forall A B : nat -> R, (forall k, k < n -> (0 < A k)%R /\ (0 < B k)%R) ->
  (poisson_loss n (fun o d => rv (increment_of t 0 0 o d)) (fun o d => rv (nz (av (bt_expected r) 0 0 o d))) <=
   poisson_loss n (fun o d => rv (increment_of t 0 0 o d)) (fun o d => A o * B d))%R.
Proof.
  intros t n sims hat pick r I V E P A B AB. pose proof (default_boot_fittable t) as F.
  assert (X : forall o d, o + d < n -> nz (av (bt_expected r) 0 0 o d) = expected_in default_boot t n o d) by (intros; apply (expected_nz default_boot t n sims hat pick); auto).
  assert (Y : poisson_loss n (fun o d => rv (increment_of t 0 0 o d)) (fun o d => rv (nz (av (bt_expected r) 0 0 o d))) = poisson_loss n (fun o d => rv (increment_of t 0 0 o d)) (fun o d => rv (expected_in default_boot t n o d))).
  { unfold poisson_loss. f_equal. apply known_sum_ext. intros o d H. rewrite X by auto. reflexivity. }
  rewrite Y. apply likelihood; auto. intros o d H. rewrite <- X by auto. auto.
Qed.
Print Assumptions C66_likelihood.

(** ** Design matrix *)
(** A row for each known cell with ones for its origin and for the ages up to its own; positive expected increments are linear in it
    on the log scale. *)
Theorem C66_design : forall b t n sims hat pick r, boot_input t n -> fittable (plain_development b) t -> boot_fit b sims hat pick t = Ok r ->
  bt_design r = map (fun p => map Some (indicator n p)) (cells_by_age n) /\
  ((forall o d, o + d < n -> (0 < nz (av (bt_expected r) 0 0 o d))%Qc) ->
   exists x, List.length x = 2 * n - 1 /\ forall o d, o + d < n -> ln (rv (nz (av (bt_expected r) 0 0 o d))) = dot (indicator n (o, d)) x).
Proof.
  intros b t n sims hat pick r I F E. split; [rewrite (bo_design _ _ _ _ _ _ (boot_fit_facts b t n I F _ _ _ _ E)); apply design_ok; auto|].
  assert (X : forall o d, o + d < n -> nz (av (bt_expected r) 0 0 o d) = expected_in b t n o d) by (intros; apply (expected_nz b t n sims hat pick); auto).
  intros P. pose proof (bn_n _ _ I). destruct (log_linear b t n) as (x & L & H'); [intros o d H'; rewrite <- X by auto; auto|lia|]. exists x. split; auto. intros o d Hd. rewrite X by auto. auto.
Qed.
Print Assumptions C66_design.

(** ** Scale *)
Theorem C66_scale : forall b t n sims hat pick r, boot_input t n -> fittable (plain_development b) t -> all_expected b t n -> boot_fit b sims hat pick t = Ok r -> 3 <= n ->
  bt_scale r = Some (squares b t n / (INR ((n - 1) * (n - 2)) / 2))%R /\ (0 <= squares b t n / (INR ((n - 1) * (n - 2)) / 2))%R.
Proof.
  intros b t n sims hat pick r I F NE E Hn. rewrite (bo_scale _ _ _ _ _ _ (boot_fit_facts b t n I F _ _ _ _ E) NE). fold (squares b t n).
  assert (P : (0 < INR ((n - 1) * (n - 2)) / 2)%R). { assert (0 < INR ((n - 1) * (n - 2)))%R by (apply lt_0_INR; nia). lra. }
  cbn [rdiv]. destruct (Req_EM_T (INR ((n - 1) * (n - 2)) / 2) 0); [lra|]. split; [reflexivity|].
  apply Rmult_le_pos; [|left; apply Rinv_0_lt_compat; auto]. unfold squares. apply known_nonneg. intros o d H. destruct (counted b t o d); [apply pow2_ge_0|lra].
Qed.
Print Assumptions C66_scale.

(** ** Residuals and samples *)
(** Drawn are the residuals that count and are not 0, less their mean: they add up to 0. *)
Theorem C66_pool : forall b t n sims pick r, boot_input t n -> fittable (plain_development b) t -> all_expected b t n -> boot_fit b sims None pick t = Ok r ->
  exists m, bt_pool r = map (fun v => v - m)%R (raw_residuals b t n) /\ (INR (List.length (raw_residuals b t n)) * m = rsuml (raw_residuals b t n))%R /\ rsuml (bt_pool r) = 0%R.
Proof.
  intros b t n sims pick r I F NE E. pose proof (boot_fit_facts b t n I F _ _ _ _ E) as B.
  assert (SC : raw_residuals b t n <> []). { intros Z. rewrite (boot_fit_nothing b t n I F sims pick NE Z) in E. discriminate. }
  assert (Hs : 1 <= sims). { destruct sims; [|lia]. rewrite (boot_fit_no_sims b t n I F) in E. discriminate. }
  destruct (boot_fit_plain b t n I F sims pick NE SC Hs) as (r' & E' & P). assert (r' = r) by congruence. subst r'.
  eexists. split; [exact P|]. split; [|apply (bo_sum _ _ _ _ _ _ B)]. field. apply not_0_INR. destruct (raw_residuals b t n); cbn; congruence.
Qed.
Print Assumptions C66_pool.
Theorem C66_centred : forall b t n sims hat pick r, boot_input t n -> fittable (plain_development b) t -> boot_fit b sims hat pick t = Ok r -> bt_pool r <> [] /\ rsuml (bt_pool r) = 0%R.
Proof. intros b t n sims hat pick r I F E. pose proof (boot_fit_facts b t n I F _ _ _ _ E) as B. split; apply B. Qed.
Print Assumptions C66_centred.
(** A sample adds up increments: the expected one plus a residual drawn times the root of its size.  It has no cell after the
    valuation date. *)
Theorem C66_samples : forall b t n sims hat pick r s o d, boot_input t n -> fittable (plain_development b) t -> boot_fit b sims hat pick t = Ok r -> o < n -> d < n ->
  bt_cell r s o d = if o + d <? n then
    Some (rsumn (S d) (fun k => rv (expected_in b t n o k) + nth (pick s o k) (bt_pool r) 0 * sqrt (Rabs (rv (expected_in b t n o k))))%R) else None.
Proof.
  intros b t n sims hat pick r s o d I F E Ho Hd. pose proof (boot_fit_facts b t n I F _ _ _ _ E) as B. destruct (Nat.ltb_spec (o + d) n); [apply (P_Boot4.bo_cell _ _ _ _ _ _ B); auto|apply (bo_late _ _ _ _ _ _ B); auto].
Qed.
Print Assumptions C66_samples.
(** Samples are numbered from 0 and otherwise labelled as the triangle. *)
Theorem C66_labels : forall b t n sims hat pick r, boot_input t n -> fittable (plain_development b) t -> boot_fit b sims hat pick t = Ok r -> bt_rows r = seq 0 sims /\ bt_frame r = t.
Proof. intros b t n sims hat pick r I F E. pose proof (boot_fit_facts b t n I F _ _ _ _ E) as B. split; apply B. Qed.
Print Assumptions C66_labels.
(** The mean over the residuals of the increment sampled is the expected one. *)
Theorem C66_unbiased : forall b t n sims hat pick r o d, boot_input t n -> fittable (plain_development b) t -> boot_fit b sims hat pick t = Ok r -> o + d < n ->
  let x := rv (nz (av (bt_expected r) 0 0 o d)) in
  (rsuml (map (fun v => x + v * sqrt (Rabs x)) (bt_pool r)) / INR (List.length (bt_pool r)) = x)%R.
Proof.
  intros b t n sims hat pick r o d I F E H x. destruct (C66_centred b t n sims hat pick r I F E) as (N & S0).
  assert (G : forall l, (rsuml (map (fun v => x + v * sqrt (Rabs x)) l) = INR (List.length l) * x + rsuml l * sqrt (Rabs x))%R).
  { induction l as [|v l IH]; [cbn; ring|]. cbn [map rsuml List.length]. rewrite IH, S_INR. ring. }
  rewrite G, S0. field. apply not_0_INR. destruct (bt_pool r); cbn; congruence.
Qed.
Print Assumptions C66_unbiased.
(** Two origins: the expected increments are the actual ones, and nothing can be drawn. *)
Theorem C66_two_origins : forall t sims pick, boot_input t 2 -> all_expected default_boot t 2 -> boot_fit default_boot sims None pick t = Err ValueError.
Proof.
  intros t sims pick I NE. apply (C66_nothing_to_draw default_boot t 2 sims pick I (default_boot_fittable t) NE).
  assert (V : volumes t 2). { intros [|d] Hd; [|lia]. cbn [Nat.sub sumn]. pose proof (bn_full _ _ I 0 0 ltac:(lia)). pose proof (bn_full _ _ I 0 1 ltac:(lia)). split; intros X; [apply H|apply H0]; rewrite <- X; ring. }
  intros (o & d & H & _ & N). apply N. pose proof (P_Boot4.age_total t 2 I V 1 ltac:(lia)) as A1. pose proof (P_Boot4.origin_total default_boot t 2 0 ltac:(lia)) as O0. pose proof (P_Boot4.origin_total default_boot t 2 1 ltac:(lia)) as O1.
  rewrite <- (latest_increments t 2 0) in O0 by lia. rewrite <- (latest_increments t 2 1) in O1 by lia. cbn [Nat.sub sumn] in *.
  assert (X : forall x y : Qc, (0 + x = 0 + y)%Qc -> x = y) by (intros x y Z; replace x with (0 + x)%Qc by ring; rewrite Z; ring). apply X in A1, O1. rewrite A1 in O0.
  assert (Y : forall x y z : Qc, (x + z = y + z)%Qc -> x = y) by (intros x y z Z; replace x with (x + z - z)%Qc by ring; rewrite Z; ring). apply Y, X in O0.
  destruct o as [|[|o]], d as [|[|d]]; try lia; congruence.
Qed.
Print Assumptions C66_two_origins.

(** ** Cases *)
Definition wtri (n : nat) (rows : list (list (option Z))) : tri :=
  tri4 [["Total"%string]] ["Total"%string] ["paid"%string] (map (fun k => y 2001 + Z.of_nat (12 * 1 * k))%Z (seq 0 n))
    (Ages (map (fun k => 12 + Z.of_nat (12 * k))%Z (seq 0 n))) (dec (2000 + Z.of_nat n)) [[rows]].
Definition wcells (n : nat) (f : nat -> nat -> bool) : bool := forallb (fun o => forallb (fun d => (n <=? o + d) || f o d) (seq 0 n)) (seq 0 n).
Lemma wcells_ok n f : wcells n f = true -> forall o d, o + d < n -> f o d = true.
Proof.
  unfold wcells. intros H o d L. rewrite forallb_forall in H. specialize (H o ltac:(apply in_seq; lia)). rewrite forallb_forall in H. specialize (H d ltac:(apply in_seq; lia)).
  apply orb_true_iff in H. destruct H as [H|H]; auto. apply Nat.leb_le in H. lia.
Qed.
Lemma wtri_input n rows : 2 <= n -> n < 80 -> wf (wtri n rows) -> blank_future (wtri n rows) -> ax0 (values (wtri n rows)) = 1 -> ax1 (values (wtri n rows)) = 1 -> ax2 (values (wtri n rows)) = n -> ax3 (values (wtri n rows)) = n ->
  wcells n (fun o d => negb (Qc_eqb (amount (wtri n rows) 0 0 o d) 0%Qc)) = true -> boot_input (wtri n rows) n.
Proof.
  intros Hn Hb W Bl E0 E1 E2 E3 C. constructor; auto.
  - exists (y 2001), 12%Z, 12. split; [|split; [reflexivity|unfold y; lia]]. split; [|auto]. unfold regular. rewrite E2, E3. repeat split; try reflexivity; try lia. unfold wtri, tri4. cbn [vdate]. unfold dec, y. lia.
  - intros o d L. pose proof (wcells_ok _ _ C o d L) as A. cbv beta in A. destruct (Qc_eqb_spec (amount (wtri n rows) 0 0 o d) 0%Qc); [discriminate|auto].
Qed.
Ltac winput := apply wtri_input; [lia|lia|by_wfb|by_blankb|reflexivity|reflexivity|reflexivity|reflexivity|vm_compute; reflexivity].
Lemma by_expected b t n : wcells n (fun o d => negb (Qc_eqb (expected_in b t n o d) 0%Qc)) = true -> all_expected b t n.
Proof. intros H o d L. pose proof (wcells_ok _ _ H o d L) as A. cbv beta in A. destruct (Qc_eqb_spec (expected_in b t n o d) 0%Qc); [discriminate|auto]. Qed.
Lemma by_fitted b t n : wcells n (fun o d => Qc_eqb (increment_of t 0 0 o d) (expected_in b t n o d)) = true -> ~ scattered b t n.
Proof. intros H (o & d & L & _ & N). pose proof (wcells_ok _ _ H o d L) as A. cbv beta in A. destruct (Qc_eqb_spec (increment_of t 0 0 o d) (expected_in b t n o d)); [contradiction|discriminate]. Qed.
Lemma by_volumes t n : forallb (fun d => negb (Qc_eqb (sumn (n - S d) (fun o => amount t 0 0 o d)) 0%Qc) && negb (Qc_eqb (sumn (n - S d) (fun o => amount t 0 0 o (S d))) 0%Qc)) (seq 0 (n - 1)) = true -> volumes t n.
Proof.
  intros H d Hd. rewrite forallb_forall in H. specialize (H d ltac:(apply in_seq; lia)). apply andb_true_iff in H. destruct H as (A & B).
  destruct (Qc_eqb_spec (sumn (n - S d) (fun o => amount t 0 0 o d)) 0%Qc); [discriminate|]. destruct (Qc_eqb_spec (sumn (n - S d) (fun o => amount t 0 0 o (S d))) 0%Qc); [discriminate|]. auto.
Qed.
Definition wt1 := wtri 4 [[Some 10; Some 30; Some 45; Some 50]; [Some 12; Some 36; Some 60; None]; [Some 20; Some 50; None; None]; [Some 15; None; None; None]]%Z.
Example C66_hyps : boot_input wt1 4 /\ fittable (plain_development default_boot) wt1 /\ all_expected default_boot wt1 4 /\ scattered default_boot wt1 4 /\ volumes wt1 4 /\
  (forall o d, o + d < 4 -> (0 < expected_in default_boot wt1 4 o d)%Qc) /\ expected_in default_boot wt1 4 0 1 = Q2Qc (3663 # 203).
Proof.
  split; [winput|]. split; [apply default_boot_fittable|]. split; [apply by_expected; vm_compute; reflexivity|].
  split; [exists 0, 1; split; [lia|]; split; [vm_compute; reflexivity|vm_compute; discriminate]|]. split; [apply by_volumes; vm_compute; reflexivity|]. split.
  - assert (X : wcells 4 (fun o d => Qc_ltb 0%Qc (expected_in default_boot wt1 4 o d)) = true) by (vm_compute; reflexivity).
    intros o d L. pose proof (wcells_ok _ _ X o d L) as A. cbv beta in A. destruct (Qc_ltb_spec 0%Qc (expected_in default_boot wt1 4 o d)); [auto|discriminate].
  - apply Qc_is_canon; vm_compute; reflexivity.
Qed.
(** A link ratio left out: neither the cell where it ends nor, at the first age, the one where it starts counts. *)
Definition dropping : boot_params := BP (-1) (Some [(y 2002, 12%Z)]) None None None.
Example C66_dropped_case : boot_input wt1 4 /\ fittable (plain_development dropping) wt1 /\ all_expected dropping wt1 4 /\ scattered dropping wt1 4 /\
  counted dropping wt1 1 0 = false /\ counted dropping wt1 1 1 = false /\ counted dropping wt1 0 1 = true /\ counted dropping wt1 1 2 = true.
Proof.
  split; [winput|]. split.
  { constructor; cbn; try (intros; discriminate); try (intros [H|H]; congruence); auto; try (intros d Hd; cbn; discriminate); try (intros d m Hd [= <-]; left; left; lia).
    intros items o a [= <-] [[= <- <-]|[]]. auto. }
  split; [apply by_expected; vm_compute; reflexivity|]. split; [exists 0, 1; split; [lia|]; split; [vm_compute; reflexivity|vm_compute; discriminate]|].
  repeat split; vm_compute; reflexivity.
Qed.

(** An increment of 0 is not counted in the scale, although it is not the one expected. *)
Lemma known_less n f g o d : o + d < n -> (forall o d, o + d < n -> (f o d <= g o d)%R) -> (f o d < g o d)%R -> (known_sum n f < known_sum n g)%R.
Proof.
  intros H L S1. assert (P : (0 < known_sum n (fun o d => g o d + -1 * f o d))%R).
  { apply Rlt_le_trans with (g o d + -1 * f o d)%R; [lra|]. unfold known_sum.
    apply Rle_trans with (rsumn (n - o) (fun d => g o d + -1 * f o d)%R).
    - apply (P_Clark4.rsumn_one (n - o) (fun d => g o d + -1 * f o d)%R d); [lia|]. intros j Hj. specialize (L o j ltac:(lia)). lra.
    - apply (P_Clark4.rsumn_one n (fun o => rsumn (n - o) (fun d => g o d + -1 * f o d)%R) o); [lia|]. intros j Hj. apply rsumn_nonneg. intros k Hk. specialize (L j k ltac:(lia)). lra. }
  rewrite known_plus in P. assert (known_sum n (fun o d => -1 * f o d) = - known_sum n f)%R.
  { unfold known_sum. rewrite (rsumn_ext n _ (fun o => -1 * rsumn (n - o) (f o))%R) by (intros; apply rsumn_scale). rewrite rsumn_scale. ring. }
  lra.
Qed.
Definition wt2 := wtri 3 [[Some 100; Some 100; Some 120]; [Some 90; Some 150; None]; [Some 70; None; None]]%Z.
Theorem C66_standstill_refuted : exists t n, boot_input t n /\ all_expected default_boot t n /\ forall sims pick, 1 <= sims ->
  exists r s, boot_fit default_boot sims None pick t = Ok r /\ bt_scale r = Some s /\
    (s < known_sum n (fun o d => residual default_boot t n o d ^ 2) / (INR ((n - 1) * (n - 2)) / 2))%R.
Proof.
  assert (I : boot_input wt2 3) by winput. assert (NE : all_expected default_boot wt2 3) by (apply by_expected; vm_compute; reflexivity). pose proof (default_boot_fittable wt2) as F.
  exists wt2, 3. split; [auto|]. split; [auto|]. intros sims pick Hs.
  destruct (C66_fits default_boot wt2 3 sims pick I F NE) as (r & E); [exists 1, 1; split; [lia|]; split; [vm_compute; reflexivity|vm_compute; discriminate]|auto|].
  destruct (C66_scale default_boot wt2 3 sims None pick r I F NE E ltac:(lia)) as (Sc & _). exists r. eexists. split; [exact E|]. split; [exact Sc|].
  apply Rmult_lt_compat_r; [apply Rinv_0_lt_compat; cbn; lra|]. unfold squares. apply (known_less 3 _ _ 0 1); [lia| |].
  - intros o d _. destruct (counted default_boot wt2 o d); [lra|apply pow2_ge_0].
  - assert (C : counted default_boot wt2 0 1 = false) by (vm_compute; reflexivity). rewrite C.
    assert (N : residual default_boot wt2 3 0 1 <> 0%R). { intros X. apply residual_0 in X; [|apply NE; lia]. revert X. vm_compute. discriminate. }
    destruct (pow2_ge_0 (residual default_boot wt2 3 0 1)) as [X|X]; [exact X|]. exfalso. apply N. symmetry in X. cbn [pow] in X. rewrite Rmult_1_r in X. apply Rmult_integral in X. tauto.
Qed.
Print Assumptions C66_standstill_refuted.
(** Origins that all develop alike cannot be sampled. *)
Definition wt3 := wtri 3 [[Some 10; Some 20; Some 30]; [Some 20; Some 40; None]; [Some 15; None; None]]%Z.
Theorem C66_regular_refuted : exists t n, boot_input t n /\ 3 <= n /\ all_expected default_boot t n /\ (forall o d, o + d < n -> (0 < increment_of t 0 0 o d)%Qc) /\
  forall sims pick, boot_fit default_boot sims None pick t = Err ValueError.
Proof.
  assert (I : boot_input wt3 3) by winput. exists wt3, 3. split; [auto|]. split; [lia|]. split; [apply by_expected; vm_compute; reflexivity|]. split.
  - assert (X : wcells 3 (fun o d => Qc_ltb 0%Qc (increment_of wt3 0 0 o d)) = true) by (vm_compute; reflexivity).
    intros o d L. pose proof (wcells_ok _ _ X o d L) as A. cbv beta in A. destruct (Qc_ltb_spec 0%Qc (increment_of wt3 0 0 o d)); [auto|discriminate].
  - intros sims pick. apply (C66_nothing_to_draw _ _ 3); auto; [apply default_boot_fittable|apply by_expected; vm_compute; reflexivity|apply by_fitted; vm_compute; reflexivity].
Qed.
Print Assumptions C66_regular_refuted.
