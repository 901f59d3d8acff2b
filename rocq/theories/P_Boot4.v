(** The fitted bootstrap, and the totals of its expected increments. *)
From Coq Require Import Lia Lra.
From Verif Require P_Munich2.
From Verif Require Export P_Boot3.
From Verif Require Import SpecBoot.
Local Open Scope nat_scope.

Section Boot.
Variables (b : boot_params) (t : tri) (n : nat).
Hypotheses (I : boot_input t n) (F : fittable (boot_dev b) t).

Record boot_facts (sims : nat) (pick : nat -> nat -> nat -> nat) (r : boot) : Prop := {
  bo_expected : forall o d, o < n -> d < n -> av (bt_expected r) 0 0 o d = if o + d <? n then Some (expected_in b t n o d) else None;
  bo_design : bt_design r = boot_design t;
  bo_rows : bt_rows r = seq 0 sims;
  bo_frame : bt_frame r = t;
  bo_scale : all_expected b t n -> bt_scale r = rdiv (Some (known_sum n (fun o d => if counted b t o d then residual b t n o d ^ 2 else 0)%R)) (Some (INR ((n - 1) * (n - 2)) / 2)%R);
  bo_some : bt_pool r <> [];
  bo_sum : rsuml (bt_pool r) = 0%R;
  bo_cell : forall s o d, o + d < n -> bt_cell r s o d =
    Some (rsumn (S d) (fun k => rv (expected_in b t n o k) + nth (pick s o k) (bt_pool r) 0 * sqrt (Rabs (rv (expected_in b t n o k))))%R);
  bo_late : forall s o d, o < n -> d < n -> n <= o + d -> bt_cell r s o d = None }.

Lemma bn_ages : exists xs, ddims t = Ages xs.
Proof using I. destruct (bn_room t n I) as (xs & Ex & _). eauto. Qed.

Lemma boot_fit_facts sims hat pick r : boot_fit b sims hat pick t = Ok r -> boot_facts sims pick r.
Proof using I F.
  intros H. destruct (pieces_ok b t n I F) as (w & e & inc & P). pose proof (bn_dims t n I) as (E0 & E1 & E2 & E3). destruct bn_ages as (xs & Ex).
  unfold boot_fit in H. rewrite E0, Ex, (pc_e _ _ _ _ _ _ P), (pc_i _ _ _ _ _ _ P) in H. cbn [rbind fst snd Nat.eqb negb] in H.
  match type of H with context [centred ?l] => set (raw := l) in H end.
  destruct (centred raw) as [|p0 ps] eqn:EP; [discriminate|]. destruct sims as [|sims]; [discriminate|]. injection H as <-.
  assert (RN : raw <> []) by (intros Z; rewrite Z in EP; discriminate).
  constructor; cbn [bt_expected bt_design bt_rows bt_frame bt_scale bt_pool bt_cell]; auto.
  - exact (pc_cell _ _ _ _ _ _ P).
  - intros NE. apply scale_ok; auto.
  - discriminate.
  - rewrite <- EP. apply centred_sum; auto.
  - intros s o d Hd. apply rcumsum_some. intros k Hk. unfold sample_increment. rewrite (pc_cell _ _ _ _ _ _ P) by lia. destruct (Nat.ltb_spec (o + k) n); [|lia]. cbn [r_of option_map]. f_equal. rewrite Rplus_comm. reflexivity.
  - intros s o d Ho Hd L. apply rcumsum_none. exists d. split; [lia|]. unfold sample_increment. rewrite (pc_cell _ _ _ _ _ _ P) by lia. destruct (Nat.ltb_spec (o + d) n); [lia|]. reflexivity.
Qed.

Lemma boot_fit_plain sims pick : all_expected b t n -> raw_residuals b t n <> [] -> 1 <= sims ->
  exists r, boot_fit b sims None pick t = Ok r /\ bt_pool r = centred (raw_residuals b t n).
Proof using I F.
  intros NE RN Hs. destruct (pieces_ok b t n I F) as (w & e & inc & P). pose proof (bn_dims t n I) as (E0 & E1 & E2 & E3). destruct bn_ages as (xs & Ex).
  unfold boot_fit. rewrite E0, E2, E3, Ex, (pc_e _ _ _ _ _ _ P), (pc_i _ _ _ _ _ _ P). cbn [rbind fst snd Nat.eqb negb]. rewrite (pool_raw b t n I _ _ _ P NE).
  destruct (centred (raw_residuals b t n)) as [|p0 ps] eqn:EP; [apply (f_equal (@List.length R)) in EP; rewrite centred_length in EP; destruct (raw_residuals b t n); cbn in EP; congruence|].
  destruct sims as [|sims]; [lia|]. eexists. split; reflexivity.
Qed.
Lemma boot_fit_nothing sims pick : all_expected b t n -> raw_residuals b t n = [] -> boot_fit b sims None pick t = Err ValueError.
Proof using I F.
  intros NE RN. destruct (pieces_ok b t n I F) as (w & e & inc & P). pose proof (bn_dims t n I) as (E0 & E1 & E2 & E3). destruct bn_ages as (xs & Ex).
  unfold boot_fit. rewrite E0, E2, E3, Ex, (pc_e _ _ _ _ _ _ P), (pc_i _ _ _ _ _ _ P). cbn [rbind fst snd Nat.eqb negb]. rewrite (pool_raw b t n I _ _ _ P NE), RN. reflexivity.
Qed.
Lemma boot_fit_no_sims hat pick : boot_fit b 0 hat pick t = Err ValueError.
Proof using I F.
  destruct (pieces_ok b t n I F) as (w & e & inc & P). pose proof (bn_dims t n I) as (E0 & E1 & E2 & E3). destruct bn_ages as (xs & Ex).
  unfold boot_fit. rewrite E0, Ex, (pc_e _ _ _ _ _ _ P), (pc_i _ _ _ _ _ _ P). cbn [rbind fst snd Nat.eqb negb]. destruct (centred _); reflexivity.
Qed.

(** Totals of an origin. *)
Lemma expected_cum o m : m < n -> sumn (S m) (expected_in b t n o) = expected_at b t n o m.
Proof using.
  induction m as [|m IH]; intros H; [cbn [sumn expected_in]; ring|]. cbn [sumn] in *. rewrite IH by lia. cbn [expected_in]. ring.
Qed.
Lemma increments_cum o m : sumn (S m) (increment_of t 0 0 o) = amount t 0 0 o m.
Proof using. induction m as [|m IH]; [cbn [sumn increment_of]; ring|]. cbn [sumn] in *. rewrite IH. cbn [increment_of]. ring. Qed.
Lemma origin_total o : o < n -> sumn (n - o) (expected_in b t n o) = latest_of t n o.
Proof using.
  intros Ho. replace (n - o) with (S (n - 1 - o)) by lia. rewrite expected_cum by lia. unfold expected_at. replace (n - 1 - o - (n - 1 - o)) with 0 by lia. cbn [prodn]. field. discriminate.
Qed.
Lemma latest_increments o : o < n -> sumn (n - o) (increment_of t 0 0 o) = latest_of t n o.
Proof using. intros Ho. replace (n - o) with (S (n - 1 - o)) by lia. rewrite increments_cum. reflexivity. Qed.

(** Expected increments are a product of an origin and an age effect. *)
Lemma expected_at_split o d : o + d < n ->
  expected_at b t n o d = (latest_of t n o * prodn o (fun k => step_of b t n (n - 1 - o + k)) * / prodn (n - 1 - d) (fun k => step_of b t n (d + k)))%Qc.
Proof using.
  intros H. unfold expected_at. replace (n - 1 - d) with ((n - 1 - o - d) + o) by lia. rewrite prodn_app.
  rewrite (prodn_ext o (fun k0 => step_of b t n (d + (n - 1 - o - d + k0))) (fun k0 => step_of b t n (n - 1 - o + k0))) by (intros; f_equal; lia).
  field. split; apply prodn_ne; intros; apply step_ne.
Qed.
Lemma multiplicative : exists A B : nat -> Qc, forall o d, o + d < n -> expected_in b t n o d = (A o * B d)%Qc.
Proof using.
  exists (fun o => latest_of t n o * prodn o (fun k => step_of b t n (n - 1 - o + k)))%Qc.
  exists (fun d => match d with O => / prodn (n - 1) (fun k => step_of b t n k)
                   | S p => / prodn (n - 1 - d) (fun k => step_of b t n (d + k)) - / prodn (n - 1 - p) (fun k => step_of b t n (p + k)) end)%Qc.
  intros o [|d] H; cbn [expected_in]; rewrite !expected_at_split by lia; [rewrite Nat.sub_0_r; reflexivity|ring].
Qed.
End Boot.

(** Totals of an age, with all link ratios. *)
Section Default.
Variables (t : tri) (n : nat).
Hypothesis I : boot_input t n.
Hypothesis V : volumes t n.
Local Notation b := default_boot.

Lemma default_boot_fittable : fittable (boot_dev b) t.
Proof using.
  constructor; cbn; try (intros; discriminate); try (intros [H|H]; congruence); auto; try (intros d Hd; cbn; discriminate).
  intros d m Hd [= <-]. left. left. lia.
Qed.
Lemma default_used d o : o < n -> S d < n -> link_used b t d o = (o + S d <? n).
Proof using I.
  intros Ho Hd. pose proof (bn_dims t n I) as (E0 & E1 & E2 & E3).
  assert (SE : link_used b t d o = has_ratio t 0 0 d o).
  { unfold link_used, selected, survives_high_low, survives_above_below, listed, val_listed, in_window. cbn [default_boot plain_development bp_n_periods bp_drop bp_high bp_low bp_drop_val p_drop p_drop_val p_high p_low p_above p_below p_preserve].
    destruct (has_ratio t 0 0 d o); [|reflexivity]. change (-1 <? 1)%Z with true. cbn [orb andb negb count_at].
    rewrite andb_true_iff. split; [|reflexivity]. apply orb_true_iff. right. apply andb_true_iff. unfold how_many. split; apply Z.leb_le; lia. }
  rewrite SE. unfold has_ratio. destruct (Nat.ltb_spec (o + S d) n) as [K|K].
  - pose proof (bn_full _ _ I o d ltac:(lia)). pose proof (bn_full _ _ I o (S d) K). destruct (Qc_eqb_spec (amount t 0 0 o d) 0%Qc); [contradiction|]. destruct (Qc_eqb_spec (amount t 0 0 o (S d)) 0%Qc); [contradiction|]. reflexivity.
  - assert (Z : amount t 0 0 o (S d) = 0%Qc).
    { unfold amount. rewrite (bn_blank _ _ I); [reflexivity|unfold in_range; lia|]. apply (bn_future t n I); lia. }
    rewrite Z. cbn. apply andb_false_r.
Qed.
Lemma default_step d : S d < n -> step_of b t n d = (sumn (n - S d) (fun o => amount t 0 0 o (S d)) / sumn (n - S d) (fun o => amount t 0 0 o d))%Qc.
Proof using I V.
  intros Hd. destruct (V d Hd) as (V1 & V2). unfold step_of, wavg, avg_num, avg_den, sum_over.
  assert (SU : forall g, sumn n (fun o => if link_used b t d o then g o else 0%Qc) = sumn (n - S d) g).
  { intros g. rewrite (P_Munich2.sumn_known n (n - S d)); [apply sumn_ext|lia|].
    - intros o Ho. rewrite default_used by lia. destruct (Nat.ltb_spec (o + S d) n); [reflexivity|lia].
    - intros o Ho. rewrite default_used by lia. destruct (Nat.ltb_spec (o + S d) n); [lia|reflexivity]. }
  rewrite !SU. destruct (Qc_eqb_spec (sumn (n - S d) (fun o => amount t 0 0 o (S d))) 0%Qc); [contradiction|].
  destruct (Qc_eqb_spec (sumn (n - S d) (fun o => amount t 0 0 o d)) 0%Qc); [contradiction|].
  unfold factor. cbn [nz]. match goal with |- context [Qc_eqb ?x 0] => destruct (Qc_eqb_spec x 0%Qc) as [Z|Z] end; [|reflexivity].
  exfalso. apply V2. rewrite <- (Qcmult_1_r (sumn (n - S d) (fun o => amount t 0 0 o (S d)))). rewrite <- (Qcmult_inv_r _ V1). rewrite Qcmult_comm, <- Qcmult_assoc, (Qcmult_comm (/ _)%Qc). unfold Qcdiv in Z. rewrite Z. ring.
Qed.
Lemma expected_latest o : o < n -> expected_at b t n o (n - 1 - o) = amount t 0 0 o (n - 1 - o).
Proof using. intros. unfold expected_at, latest_of. replace (n - 1 - o - (n - 1 - o)) with 0 by lia. cbn [prodn]. field. discriminate. Qed.
Lemma expected_step o d : o + S d < n -> expected_at b t n o d = (expected_at b t n o (S d) / step_of b t n d)%Qc.
Proof using.
  intros H. unfold expected_at. replace (n - 1 - o - d) with (S (n - 1 - o - S d)) by lia. rewrite prodn_S_l. rewrite Nat.add_0_r.
  rewrite (prodn_ext _ (fun i => step_of b t n (d + S i)) (fun k => step_of b t n (S d + k))) by (intros; f_equal; lia).
  field. split; [apply prodn_ne; intros|]; apply step_ne.
Qed.
Lemma age_cumulative m : m < n -> sumn (S m) (fun o => expected_at b t n o (n - 1 - m)) = sumn (S m) (fun o => amount t 0 0 o (n - 1 - m)).
Proof using I V.
  induction m as [|m IH]; intros Hm.
  - cbn [sumn]. rewrite Nat.sub_0_r. f_equal. pose proof (expected_latest 0 Hm) as X. rewrite Nat.sub_0_r in X. exact X.
  - change (sumn (S (S m)) ?f) with (sumn (S m) f + f (S m))%Qc. cbv beta. f_equal; [|apply expected_latest; auto].
    set (d := n - 1 - S m) in *. assert (Ed : n - 1 - m = S d) by (unfold d; lia). rewrite Ed in IH.
    rewrite (sumn_ext (S m) _ (fun o => (expected_at b t n o (S d) * / step_of b t n d)%Qc)) by (intros o Ho; rewrite expected_step by (unfold d; lia); reflexivity).
    rewrite sumn_scal_r, IH by lia. rewrite default_step by (unfold d; lia). replace (n - S d) with (S m) by (unfold d; lia).
    destruct (V d ltac:(unfold d; lia)) as (V1 & V2). replace (n - S d) with (S m) in V1, V2 by (unfold d; lia). field. auto.
Qed.
Lemma age_total d : d < n -> sumn (n - d) (fun o => expected_in b t n o d) = sumn (n - d) (fun o => increment_of t 0 0 o d).
Proof using I V.
  intros Hd. pose proof (age_cumulative (n - 1 - d) ltac:(lia)) as A. replace (n - 1 - (n - 1 - d)) with d in A by lia. replace (S (n - 1 - d)) with (n - d) in A by lia.
  destruct d as [|d]; [exact A|]. cbn [expected_in increment_of]. rewrite !sumn_minus, A. f_equal.
  pose proof (age_cumulative (n - 1 - d) ltac:(lia)) as B. replace (n - 1 - (n - 1 - d)) with d in B by lia. replace (S (n - 1 - d)) with (S (n - S d)) in B by lia. cbn [sumn] in B.
  pose proof (expected_latest (n - S d) ltac:(lia)) as C. replace (n - 1 - (n - S d)) with d in C by lia. rewrite C in B.
  assert (X : forall x y z : Qc, (x + z = y + z)%Qc -> x = y) by (intros x y z E; replace x with (x + z - z)%Qc by ring; rewrite E; ring). eapply X, B.
Qed.
End Default.
