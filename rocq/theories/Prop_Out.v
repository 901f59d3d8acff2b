(** C65: development of outstanding amounts. *)
From Coq Require Import Lia.
From Verif Require Import TriFacts P_Core P_Corr5 P_Out11 Ex ExLabel SpecOutst.
Local Open Scope nat_scope.

Lemma fit_facts nm pn cn t n p q r : os_input nm t n p q -> os_data t n p q -> os_fit nm pn cn t = Ok r ->
  exists o0 a0 h, square t n o0 a0 h /\ fitted_os nm t n h o0 a0 p q pn cn r.
Proof.
  intros I D E. destruct (oi_square _ _ _ _ _ I) as (o0 & a0 & h & Q & Gd & Go & U1 & U2). destruct (fit_all nm t n h o0 a0 p q I Q Gd Go U1 U2 pn cn D) as (r' & E' & F).
  exists o0, a0, h. split; auto. congruence.
Qed.
Lemma blk_alike t u od dd v x f : wf t -> wf u -> alike t u -> blk t od dd v x f -> blk u od dd v x f.
Proof.
  intros W W' A [B1 B2 B3 B4 B5 B6 B7 B8 B9 B10 B11 B12 B13]. assert (E : ax0 (values u) = ax0 (values t)) by (rewrite (wf_k _ W), (wf_k _ W'), (al_k _ _ A); auto).
  destruct A as [A1 A2 A3 A4 A5 A6]. constructor; auto; try congruence. intros. apply B13; auto; congruence.
Qed.
Lemma first_labels nm t n p q o0 a0 h : os_input nm t n p q -> square t n o0 a0 h -> orgs h o0 0 1 = firstn 1 (odims t) /\ Ages (agl h a0 1 (n - 1)) = dmap (@tl Z) (ddims t).
Proof.
  intros I Q. pose proof (oi_n _ _ _ _ _ I) as Hn. rewrite (t_orgs t n h o0 a0 (oi_wf _ _ _ _ _ I) (oi_blank _ _ _ _ _ I) Q Hn (oi_0 _ _ _ _ _ I)), (t_ages t n h o0 a0 (oi_wf _ _ _ _ _ I) (oi_blank _ _ _ _ _ I) Q Hn (oi_0 _ _ _ _ _ I)).
  destruct n as [|m]; [lia|]. replace (S m - 1) with m by lia. split; reflexivity.
Qed.
Lemma set_facts nm pn cn t u n p q p' q' r : os_input nm t n p q -> os_data t n p q -> os_fit nm pn cn t = Ok r -> os_input nm u n p' q' -> alike t u ->
  (exists i o, i < ax0 (values u) /\ 1 <= o < n /\ latest_held u n p' q' i o <> 0%Qc) ->
  exists s o0 a0 h, os_set_ldf nm (of_case_ldf r) (of_paid_ldf r) u = Ok s /\ square u n o0 a0 h /\
    (o0 + a0 + Z.of_nat (h * (3 * n)) < 12 * 2261)%Z /\
    rolled nm u n h o0 a0 p' q' (fun i d => mean_share n (fun o => held_share t n p q cn i o d)) (fun i d => mean_share n (fun o => paid_share t n p q pn i o d)) s /\
    (forall i d, i < ax0 (values u) -> d < n - 1 -> cel (of_case_ldf r) i 0 0 d = mean_share n (fun o => held_share t n p q cn i o d) /\ cel (of_paid_ldf r) i 0 0 d = mean_share n (fun o => paid_share t n p q pn i o d)).
Proof.
  intros I D E J A L. destruct (fit_facts _ _ _ _ _ _ _ _ I D E) as (o0 & a0 & h & Q & [_ _ (v & Bc) (v' & Bp) Cum _]).
  destruct (oi_square _ _ _ _ _ J) as (o1 & a1 & k & Q' & Gd & Go & U1 & U2).
  destruct (first_labels _ _ _ _ _ _ _ _ I Q) as (X1 & X2). destruct (first_labels _ _ _ _ _ _ _ _ J Q') as (Y1 & Y2).
  assert (Z1 : orgs h o0 0 1 = orgs k o1 0 1) by (rewrite X1, Y1, (al_o _ _ A); auto). assert (Z2 : Ages (agl h a0 1 (n - 1)) = Ages (agl k a1 1 (n - 1))) by (rewrite X2, Y2, (al_d _ _ A); auto).
  rewrite Z1, Z2 in Bc, Bp. apply (blk_alike t u) in Bc; [|apply I|apply J|auto]. apply (blk_alike t u) in Bp; [|apply I|apply J|auto].
  destruct (set_all nm u n k o1 a1 p' q' J Q' Gd Go U1 U2 _ _ v v' _ _ Bc Cum (fun i d => mean_nz n _) Bp L) as (s & Es & R).
  exists s, o1, a1, k. split; [auto|]. split; [auto|]. split; [auto|]. split; [auto|]. pose proof (oi_n _ _ _ _ _ J).
  intros i d Hi Hd. split; [apply (b_cell _ _ _ _ _ _ Bc)|apply (b_cell _ _ _ _ _ _ Bp)]; auto; cbn [dlist]; rewrite ?orgs_len, ?agl_len; auto.
Qed.

(** ** The fit *)
(** It succeeds, and its amounts and factors are those of using the fitted pattern for the triangle itself. *)
Theorem C65_fits : forall nm pn cn t n p q, os_input nm t n p q -> os_data t n p q ->
  exists r, os_fit nm pn cn t = Ok r /\ os_set_ldf nm (of_case_ldf r) (of_paid_ldf r) t = Ok (of_set r).
Proof.
  intros nm pn cn t n p q I D. destruct (oi_square _ _ _ _ _ I) as (o0 & a0 & h & Q & Gd & Go & U1 & U2). destruct (fit_all nm t n h o0 a0 p q I Q Gd Go U1 U2 pn cn D) as (r & E & F).
  exists r. split; auto. apply F.
Qed.
Print Assumptions C65_fits.
(** The ratios of outstanding amounts, and of payments, to the outstanding amount before: those of the last diagonals only. *)
Theorem C65_case_ratios : forall nm pn cn t n p q r i o d, os_input nm t n p q -> os_data t n p q -> os_fit nm pn cn t = Ok r -> i < ax0 (values t) -> o < n -> d < n - 1 ->
  amount (of_case_ratio r) i 0 o d = nz (held_share t n p q cn i o d).
Proof.
  intros nm pn cn t n p q r i o d I D E Hi Ho Hd. destruct (fit_facts _ _ _ _ _ _ _ _ I D E) as (o0 & a0 & h & Q & [(v & f & B & Hf) _ _ _ _ _]).
  rewrite <- Hf, nz_n2n by auto. unfold amount. f_equal. apply (b_cell _ _ _ _ _ _ B); auto; [rewrite <- (wf_o _ (oi_wf _ _ _ _ _ I)); destruct Q as (_ & -> & _); auto|cbn [dlist]; rewrite agl_len; auto].
Qed.
Print Assumptions C65_case_ratios.
Theorem C65_paid_ratios : forall nm pn cn t n p q r i o d, os_input nm t n p q -> os_data t n p q -> os_fit nm pn cn t = Ok r -> i < ax0 (values t) -> o < n -> d < n - 1 ->
  amount (of_paid_ratio r) i 0 o d = nz (paid_share t n p q pn i o d).
Proof.
  intros nm pn cn t n p q r i o d I D E Hi Ho Hd. destruct (fit_facts _ _ _ _ _ _ _ _ I D E) as (o0 & a0 & h & Q & [_ (v & f & B & Hf) _ _ _ _]).
  rewrite <- Hf, nz_n2n by auto. unfold amount. f_equal. apply (b_cell _ _ _ _ _ _ B); auto; [rewrite <- (wf_o _ (oi_wf _ _ _ _ _ I)); destruct Q as (_ & -> & _); auto|cbn [dlist]; rewrite agl_len; auto].
Qed.
Print Assumptions C65_paid_ratios.
(** The selected ratios are their means. *)
Theorem C65_averages : forall nm pn cn t n p q r i d, os_input nm t n p q -> os_data t n p q -> os_fit nm pn cn t = Ok r -> i < ax0 (values t) -> d < n - 1 ->
  cel (of_case_ldf r) i 0 0 d = mean_share n (fun o => held_share t n p q cn i o d) /\
  cel (of_paid_ldf r) i 0 0 d = mean_share n (fun o => paid_share t n p q pn i o d).
Proof.
  intros nm pn cn t n p q r i d I D E Hi Hd. destruct (fit_facts _ _ _ _ _ _ _ _ I D E) as (o0 & a0 & h & Q & [_ _ (v & B) (v' & B') _ _]).
  split; [apply (b_cell _ _ _ _ _ _ B)|apply (b_cell _ _ _ _ _ _ B')]; auto; cbn [dlist]; rewrite ?orgs_len, ?agl_len; auto.
Qed.
Print Assumptions C65_averages.
(** The pattern can be used for every triangle with the same index, origins and ages. *)
Theorem C65_transforms : forall nm pn cn t u n p q p' q' r, os_input nm t n p q -> os_data t n p q -> os_fit nm pn cn t = Ok r -> os_input nm u n p' q' -> alike t u ->
  (exists i o, i < ax0 (values u) /\ 1 <= o < n /\ latest_held u n p' q' i o <> 0%Qc) ->
  exists s, applied nm pn cn t u n p q p' q' r s.
Proof.
  intros. destruct (set_facts nm pn cn t u n p q p' q' r) as (s & _ & _ & _ & E & _); auto. exists s. constructor; auto.
Qed.
Print Assumptions C65_transforms.

Lemma facts_of nm pn cn t u n p q p' q' r s : applied nm pn cn t u n p q p' q' r s -> exists o0 a0 h, square u n o0 a0 h /\ (o0 + a0 + Z.of_nat (h * (3 * n)) < 12 * 2261)%Z /\
    rolled nm u n h o0 a0 p' q' (fun i d => mean_share n (fun o => held_share t n p q cn i o d)) (fun i d => mean_share n (fun o => paid_share t n p q pn i o d)) s /\
    (forall i d, i < ax0 (values u) -> d < n - 1 -> cel (of_case_ldf r) i 0 0 d = mean_share n (fun o => held_share t n p q cn i o d) /\ cel (of_paid_ldf r) i 0 0 d = mean_share n (fun o => paid_share t n p q pn i o d)).
Proof.
  intros [I D E J A L S']. destruct (set_facts nm pn cn t u n p q p' q' r) as (s' & o0 & a0 & h & Es & Q & U & R & C); auto. exists o0, a0, h. split; [auto|]. split; [auto|]. split; [congruence|auto].
Qed.
Lemma Lt_value nm u n p q i o : os_input nm u n p q -> o < n -> latest_held u n p q i o <> 0%Qc -> Lt n (kcase u n p q) i o = Some (latest_held u n p q i o).
Proof.
  intros J Ho H. destruct (oi_square _ _ _ _ _ J) as (o0 & a0 & h & Q & Gd & Go & U1 & U2). rewrite (Lt_held nm u n h o0 a0 p q J Q Gd Go U1 U2) by auto.
  unfold n2n. destruct (Qc_eqb_spec (latest_held u n p q i o) 0%Qc); [contradiction|auto].
Qed.

(** ** Outstanding amounts *)
(** At the valuation date they are those of the triangle. *)
Theorem C65_case_latest : forall nm pn cn t u n p q p' q' r s i o, applied nm pn cn t u n p q p' q' r s -> i < ax0 (values u) -> o < n ->
  latest_held u n p' q' i o <> 0%Qc -> (o = n - 1 \/ cel (of_case_ldf r) i 0 0 (n - 2 - o) <> None) ->
  cel (os_case_ s) i 0 o (n - 1 - o) = Some (latest_held u n p' q' i o).
Proof.
  intros nm pn cn t u n p q p' q' r s i o Ap Hi Ho H P. destruct (facts_of _ _ _ _ _ _ _ _ _ _ _ _ Ap) as (o0 & a0 & h & Q & _ & R & C). pose proof (oi_n _ _ _ _ _ (ap_u _ _ _ _ _ _ _ _ _ _ _ _ Ap)) as Hn.
  rewrite (pt_cell _ _ _ _ _ _ _ (ro_case _ _ _ _ _ _ _ _ _ _ _ R)) by (cbn; lia).
  apply Cc_latest; auto; [intros; apply mean_nz|apply (Lt_value nm); auto; apply Ap|].
  destruct (n - 1 - o) as [|e] eqn:Ee; [exact Coq.Init.Logic.I|]. destruct P as [P|P]; [lia|]. replace (n - 2 - o) with e in P by lia. rewrite (proj1 (C i e Hi ltac:(lia))) in P. exact P.
Qed.
Print Assumptions C65_case_latest.
(** From age to age they are multiplied by the selected ratio: after the valuation date and before it. *)
Theorem C65_case_step : forall nm pn cn t u n p q p' q' r s i o d x, applied nm pn cn t u n p q p' q' r s -> i < ax0 (values u) -> o < n -> S d < n ->
  latest_held u n p' q' i o <> 0%Qc -> selected_all (of_case_ldf r) n i -> cel (of_case_ldf r) i 0 0 d = Some x ->
  exists y, cel (os_case_ s) i 0 o d = Some y /\ cel (os_case_ s) i 0 o (S d) = Some (y * x)%Qc.
Proof.
  intros nm pn cn t u n p q p' q' r s i o d x Ap Hi Ho Hd H Sa Ex. destruct (facts_of _ _ _ _ _ _ _ _ _ _ _ _ Ap) as (o0 & a0 & h & Q & _ & R & C). pose proof (oi_n _ _ _ _ _ (ap_u _ _ _ _ _ _ _ _ _ _ _ _ Ap)) as Hn.
  rewrite !(pt_cell _ _ _ _ _ _ _ (ro_case _ _ _ _ _ _ _ _ _ _ _ R)) by (cbn; lia).
  apply (Cc_step n _ _ i o) with (l := latest_held u n p' q' i o); auto; [intros; apply mean_nz|apply (Lt_value nm); auto; apply Ap| |].
  - intros e He. rewrite <- (proj1 (C i e Hi He)). apply Sa. auto.
  - rewrite <- (proj1 (C i d Hi ltac:(lia))). auto.
Qed.
Print Assumptions C65_case_step.
(** An origin without an outstanding amount at the valuation date has none at any age. *)
Theorem C65_case_closed : forall nm pn cn t u n p q p' q' r s i o d, applied nm pn cn t u n p q p' q' r s -> i < ax0 (values u) -> o < n -> d < n ->
  latest_held u n p' q' i o = 0%Qc -> cel (os_case_ s) i 0 o d = None.
Proof.
  intros nm pn cn t u n p q p' q' r s i o d Ap Hi Ho Hd H. destruct (facts_of _ _ _ _ _ _ _ _ _ _ _ _ Ap) as (o0 & a0 & h & Q & _ & R & C).
  rewrite (pt_cell _ _ _ _ _ _ _ (ro_case _ _ _ _ _ _ _ _ _ _ _ R)) by (cbn; lia). apply Cc_none.
  pose proof (ap_u _ _ _ _ _ _ _ _ _ _ _ _ Ap) as J. destruct (oi_square _ _ _ _ _ J) as (o1 & a1 & k & Q1 & Gd & Go & U1 & U2). rewrite (Lt_held nm u n k o1 a1 p' q' J Q1 Gd Go U1 U2) by auto. rewrite H. reflexivity.
Qed.
Print Assumptions C65_case_closed.
(** No origin has an outstanding amount at an age without a selected ratio. *)
Theorem C65_case_gap : forall nm pn cn t u n p q p' q' r s i o d, applied nm pn cn t u n p q p' q' r s -> i < ax0 (values u) -> o < n -> S d < n ->
  cel (of_case_ldf r) i 0 0 d = None -> cel (os_case_ s) i 0 o (S d) = None.
Proof.
  intros nm pn cn t u n p q p' q' r s i o d Ap Hi Ho Hd H. destruct (facts_of _ _ _ _ _ _ _ _ _ _ _ _ Ap) as (o0 & a0 & h & Q & _ & R & C).
  rewrite (pt_cell _ _ _ _ _ _ _ (ro_case _ _ _ _ _ _ _ _ _ _ _ R)) by (cbn; lia). apply Cc_gap; auto. rewrite <- (proj1 (C i d Hi ltac:(lia))). exact H.
Qed.
Print Assumptions C65_case_gap.

(** ** Paid amounts *)
Theorem C65_paid_known : forall nm pn cn t u n p q p' q' r s i o d, applied nm pn cn t u n p q p' q' r s -> i < ax0 (values u) -> o + d < n ->
  amount (os_paid_ s) i 0 o d = amount u i p' o d.
Proof.
  intros nm pn cn t u n p q p' q' r s i o d Ap Hi L. destruct (facts_of _ _ _ _ _ _ _ _ _ _ _ _ Ap) as (o0 & a0 & h & Q & _ & R & C).
  unfold amount at 1. rewrite (pt_cell _ _ _ _ _ _ _ (ro_paid _ _ _ _ _ _ _ _ _ _ _ R)) by (cbn; lia). rewrite nz_n2n. cbn [nz]. apply full_known. auto.
Qed.
Print Assumptions C65_paid_known.
Lemma latest_total nm pn cn t u n p q p' q' r s i : applied nm pn cn t u n p q p' q' r s -> i < ax0 (values u) -> selected_all (of_case_ldf r) n i ->
  Sl n (Cc n (fun i d => mean_share n (fun o => held_share t n p q cn i o d)) (kcase u n p' q')) i = total_held u n p' q' i.
Proof.
  intros Ap Hi Sa. destruct (facts_of _ _ _ _ _ _ _ _ _ _ _ _ Ap) as (o0 & a0 & h & Q & _ & R & C). unfold Sl, total_held. apply sumn_ext. intros o Ho.
  rewrite <- (pt_cell _ _ _ _ _ _ _ (ro_case _ _ _ _ _ _ _ _ _ _ _ R)) by (cbn; lia).
  destruct (Qc_eq_dec (latest_held u n p' q' i o) 0%Qc) as [E|E].
  - rewrite (C65_case_closed nm pn cn t u n p q p' q' r s) by (auto; lia). cbn [nz]. auto.
  - rewrite (C65_case_latest nm pn cn t u n p q p' q' r s); auto. destruct (Nat.eq_dec o (n - 1)); auto. right. apply Sa. lia.
Qed.
(** After the valuation date the payments are the selected ratio of the outstanding amount before. *)
Theorem C65_paid_future : forall nm pn cn t u n p q p' q' r s i o d, applied nm pn cn t u n p q p' q' r s -> i < ax0 (values u) -> o < n -> S d < n -> n <= o + S d ->
  selected_all (of_case_ldf r) n i -> total_held u n p' q' i <> 0%Qc ->
  amount (os_paid_ s) i 0 o (S d) = (amount (os_paid_ s) i 0 o d + amount (os_case_ s) i 0 o d * nz (cel (of_paid_ldf r) i 0 0 d))%Qc.
Proof.
  intros nm pn cn t u n p q p' q' r s i o d Ap Hi Ho Hd L Sa T. pose proof (latest_total _ _ _ _ _ _ _ _ _ _ _ _ _ Ap Hi Sa) as X. destruct (facts_of _ _ _ _ _ _ _ _ _ _ _ _ Ap) as (o0 & a0 & h & Q & _ & R & C).
  rewrite (proj2 (C i d Hi ltac:(lia))). unfold amount. rewrite !(pt_cell _ _ _ _ _ _ _ (ro_paid _ _ _ _ _ _ _ _ _ _ _ R)), (pt_cell _ _ _ _ _ _ _ (ro_case _ _ _ _ _ _ _ _ _ _ _ R)) by (cbn; lia).
  rewrite !nz_n2n. cbn [nz]. rewrite full_step by auto. f_equal. unfold has_latest. rewrite X. destruct (Qc_eqb_spec (total_held u n p' q' i) 0%Qc); [contradiction|].
  match goal with |- nz (cmul ?a (cmul ?b _)) = _ => destruct a, b; cbn [cmul nz]; ring end.
Qed.
Print Assumptions C65_paid_future.
(** If the outstanding amounts of an index row add up to 0 at the valuation date, nothing more is paid. *)
Theorem C65_paid_nothing : forall nm pn cn t u n p q p' q' r s i o d, applied nm pn cn t u n p q p' q' r s -> i < ax0 (values u) -> o < n -> S d < n -> n <= o + S d ->
  selected_all (of_case_ldf r) n i -> total_held u n p' q' i = 0%Qc ->
  amount (os_paid_ s) i 0 o (S d) = amount (os_paid_ s) i 0 o d.
Proof.
  intros nm pn cn t u n p q p' q' r s i o d Ap Hi Ho Hd L Sa T. pose proof (latest_total _ _ _ _ _ _ _ _ _ _ _ _ _ Ap Hi Sa) as X. destruct (facts_of _ _ _ _ _ _ _ _ _ _ _ _ Ap) as (o0 & a0 & h & Q & _ & R & C).
  unfold amount. rewrite !(pt_cell _ _ _ _ _ _ _ (ro_paid _ _ _ _ _ _ _ _ _ _ _ R)) by (cbn; lia).
  rewrite !nz_n2n. cbn [nz]. rewrite full_step by auto. unfold has_latest. rewrite X, T. cbn [Qc_eqb].
  replace (Qc_eqb 0 0) with true by reflexivity. match goal with |- (_ + nz (cmul ?a (cmul ?b _)))%Qc = _ => destruct a, b; cbn [cmul nz]; ring end.
Qed.
Print Assumptions C65_paid_nothing.

(** ** Factors *)
Lemma factor_ratio x y : x <> 0%Qc -> y <> 0%Qc -> factor (cdiv (n2n (Some x)) (n2n (Some y))) = (x / y)%Qc.
Proof.
  intros Hx Hy. unfold n2n. destruct (Qc_eqb_spec x 0%Qc); [contradiction|]. destruct (Qc_eqb_spec y 0%Qc); [contradiction|]. rewrite cdiv_Some by auto. unfold factor. cbn [nz].
  destruct (Qc_eqb_spec (x / y) 0%Qc) as [E|]; auto. exfalso. apply Hx. transitivity (x / y * y)%Qc; [field; auto|rewrite E; ring].
Qed.
Lemma factor_none x y : x = 0%Qc \/ y = 0%Qc -> factor (cdiv (n2n (Some x)) (n2n (Some y))) = 1%Qc.
Proof. intros [-> | ->]; [|destruct (n2n (Some x))]; reflexivity. Qed.
Lemma full_is nm pn cn t u n p q p' q' r s c i o d : applied nm pn cn t u n p q p' q' r s -> i < ax0 (values u) -> c < List.length (os_cols u nm) -> o < n -> d < n ->
  let C := Cc n (fun i d => mean_share n (fun o => held_share t n p q cn i o d)) (kcase u n p' q') in
  let X := full_paid u n C (fun i d => mean_share n (fun o => paid_share t n p q pn i o d)) p' in
  os_full u X (full_inc u n C X q') nm c i o d = completed nm u n q' s (nth c (os_cols u nm) EmptyString) i o d.
Proof.
  intros Ap Hi Hc Ho Hd. cbv zeta. destruct (facts_of _ _ _ _ _ _ _ _ _ _ _ _ Ap) as (o0 & a0 & h & Q & _ & R & C). unfold os_full, completed, full_inc.
  assert (E1 : amount (os_paid_ s) i 0 o d = full_paid u n (Cc n (fun i d => mean_share n (fun o => held_share t n p q cn i o d)) (kcase u n p' q')) (fun i d => mean_share n (fun o => paid_share t n p q pn i o d)) p' i o d).
  { unfold amount. rewrite (pt_cell _ _ _ _ _ _ _ (ro_paid _ _ _ _ _ _ _ _ _ _ _ R)) by (cbn; lia). rewrite nz_n2n. reflexivity. }
  rewrite E1. destruct (String.eqb _ _); [reflexivity|]. destruct (Nat.ltb_spec (o + d) n); [reflexivity|]. f_equal. unfold amount. rewrite (pt_cell _ _ _ _ _ _ _ (ro_case _ _ _ _ _ _ _ _ _ _ _ R)) by (cbn; lia). reflexivity.
Qed.
(** The factors are for the two columns, by origin and age. *)
Theorem C65_labels : forall nm pn cn t u n p q p' q' r s, applied nm pn cn t u n p q p' q' r s ->
  kdims (os_ldf_ s) = kdims u /\ odims (os_ldf_ s) = odims u /\ ddims (os_ldf_ s) = dmap (firstn (n - 1)) (ddims u) /\ is_pattern (os_ldf_ s) = true /\ is_cumulative (os_ldf_ s) = Some false /\
  NoDup (vdims (os_ldf_ s)) /\ (forall x, In x (vdims (os_ldf_ s)) <-> x = on_paid nm \/ x = on_incurred nm).
Proof.
  intros nm pn cn t u n p q p' q' r s Ap. destruct (facts_of _ _ _ _ _ _ _ _ _ _ _ _ Ap) as (o0 & a0 & h & Q & _ & R & C). pose proof (ap_u _ _ _ _ _ _ _ _ _ _ _ _ Ap) as J. pose proof (oi_n _ _ _ _ _ J) as Hn.
  destruct (ro_ldf _ _ _ _ _ _ _ _ _ _ _ R) as (L1 & L2 & L3 & L4 & L5 & L6). rewrite L2. repeat split; auto.
  - rewrite L4, (t_ages u n h o0 a0 (oi_wf _ _ _ _ _ J) (oi_blank _ _ _ _ _ J) Q Hn (oi_0 _ _ _ _ _ J)). cbn [dmap]. f_equal. unfold agl. rewrite firstn_map. f_equal. replace n with ((n - 1) + 1) at 3 by lia.
    rewrite seq_app, firstn_app, seq_length, Nat.sub_diag, firstn_O, app_nil_r. symmetry. apply firstn_all2. rewrite seq_length. lia.
  - apply NoDup_filter. apply J.
  - apply (in_cols u nm p' q'); apply J.
  - apply (in_cols u nm p' q'); apply J.
Qed.
Print Assumptions C65_labels.
(** A factor leads from the completed amount at an age to the one at the next. *)
Theorem C65_factors : forall nm pn cn t u n p q p' q' r s name i c o d, applied nm pn cn t u n p q p' q' r s -> i < ax0 (values u) -> o < n -> d < n - 1 ->
  nth_error (vdims (os_ldf_ s)) c = Some name ->
  (forall e, e = d \/ e = S d \/ e = n - 1 -> completed nm u n q' s name i o e <> 0%Qc) ->
  cel (os_ldf_ s) i c o d = Some (completed nm u n q' s name i o (S d) / completed nm u n q' s name i o d)%Qc.
Proof.
  intros nm pn cn t u n p q p' q' r s name i c o d Ap Hi Ho Hd Ec H. destruct (facts_of _ _ _ _ _ _ _ _ _ _ _ _ Ap) as (o0 & a0 & h & Q & _ & R & C).
  destruct (ro_ldf _ _ _ _ _ _ _ _ _ _ _ R) as (_ & L2 & _). rewrite L2 in Ec. assert (Hc : c < List.length (os_cols u nm)) by (apply nth_error_Some; congruence). apply (nth_error_nth _ _ EmptyString) in Ec.
  rewrite (ro_cell _ _ _ _ _ _ _ _ _ _ _ R) by auto. cbv zeta. unfold factor_at. rewrite !(full_is nm pn cn t u n p q p' q' r s) by (auto; lia). rewrite Ec.
  pose proof (H d (or_introl eq_refl)) as Hd0. pose proof (H (S d) (or_intror (or_introl eq_refl))) as Hd1. pose proof (H (n - 1) (or_intror (or_intror eq_refl))) as Hd2.
  destruct (Nat.ltb_spec (S d) (n - 1)) as [L|L].
  - rewrite !factor_ratio by auto. f_equal. field. auto.
  - rewrite factor_ratio by auto. replace (n - 1) with (S d) by lia. reflexivity.
Qed.
Print Assumptions C65_factors.
(** From an age at which nothing has been paid or incurred the factor makes the rest of the development void. *)
Theorem C65_factor_from_zero : forall nm pn cn t u n p q p' q' r s name i c o d, applied nm pn cn t u n p q p' q' r s -> i < ax0 (values u) -> o < n -> S d < n - 1 ->
  nth_error (vdims (os_ldf_ s)) c = Some name ->
  completed nm u n q' s name i o d = 0%Qc -> completed nm u n q' s name i o (S d) <> 0%Qc -> completed nm u n q' s name i o (n - 1) <> 0%Qc ->
  cel (os_ldf_ s) i c o d = Some (completed nm u n q' s name i o (S d) / completed nm u n q' s name i o (n - 1))%Qc.
Proof.
  intros nm pn cn t u n p q p' q' r s name i c o d Ap Hi Ho Hd Ec Hz H1 H2. destruct (facts_of _ _ _ _ _ _ _ _ _ _ _ _ Ap) as (o0 & a0 & h & Q & _ & R & C).
  destruct (ro_ldf _ _ _ _ _ _ _ _ _ _ _ R) as (_ & L2 & _). rewrite L2 in Ec. assert (Hc : c < List.length (os_cols u nm)) by (apply nth_error_Some; congruence). apply (nth_error_nth _ _ EmptyString) in Ec.
  rewrite (ro_cell _ _ _ _ _ _ _ _ _ _ _ R) by (auto; lia). cbv zeta. unfold factor_at. rewrite !(full_is nm pn cn t u n p q p' q' r s) by (auto; lia). rewrite Ec.
  destruct (Nat.ltb_spec (S d) (n - 1)) as [L|L]; [|lia]. rewrite (factor_none _ _ (or_intror Hz)), factor_ratio by auto. f_equal. field. auto.
Qed.
Print Assumptions C65_factor_from_zero.

(** ** Cases *)
Definition onm := OSN "paid" "incurred".
Definition otri (n : nat) (rows : list (list (list (option Z)))) : tri :=
  tri4 [["Total"%string]] ["Total"%string] ["paid"%string; "incurred"%string] (map (fun k => y 2001 + Z.of_nat (12 * 1 * k))%Z (seq 0 n))
    (Ages (map (fun k => 12 + Z.of_nat (12 * k))%Z (seq 0 n))) (dec (2000 + Z.of_nat n)) [rows].
Lemma otri_square n rows : 1 <= n -> n < 80 -> ax2 (values (otri n rows)) = n -> ax3 (values (otri n rows)) = n -> square (otri n rows) n (y 2001) 12 12.
Proof.
  intros Hn Hb E2 E3. split; [|auto]. unfold regular. rewrite E2, E3. repeat split; try reflexivity; try lia. unfold otri, tri4. cbn [vdate]. unfold dec, y. lia.
Qed.
Lemma otri_input n rows : 3 <= n -> n < 80 -> wf (otri n rows) -> blank_future (otri n rows) -> ax0 (values (otri n rows)) = 1 -> ax2 (values (otri n rows)) = n -> ax3 (values (otri n rows)) = n ->
  os_input onm (otri n rows) n 0 1.
Proof.
  intros Hn Hb W Bl E0 E2 E3. constructor; auto; try reflexivity; try lia.
  - exists (y 2001), 12%Z, 12. split; [apply otri_square; auto; lia|]. split; [reflexivity|]. split; [reflexivity|]. unfold y. lia.
  - repeat constructor; cbn; intuition discriminate.
  - repeat constructor; cbn; intuition discriminate.
  - cbn. intuition discriminate.
  - cbn. intuition discriminate.
Qed.
Definition ocells (n : nat) (f : nat -> nat -> bool) : bool := forallb (fun o => forallb (fun d => (n <=? o + d) || f o d) (seq 0 n)) (seq 0 n).
Lemma ocells_ok n f : ocells n f = true -> forall o d, o + d < n -> f o d = true.
Proof.
  unfold ocells. intros H o d L. rewrite forallb_forall in H. specialize (H o ltac:(apply in_seq; lia)). rewrite forallb_forall in H. specialize (H d ltac:(apply in_seq; lia)).
  apply orb_true_iff in H. destruct H as [H|H]; auto. apply Nat.leb_le in H. lia.
Qed.
Lemma by_dataa t n p q o : ocells n (fun o d => negb (Qc_eqb (all_rows t o d) 0%Qc)) = true -> (1 <=? ax0 (values t)) && (1 <=? o) && (o <? n) && negb (Qc_eqb (latest_held t n p q 0 o) 0%Qc) = true -> os_data t n p q.
Proof.
  intros H L. constructor.
  - intros o' d Ho. pose proof (ocells_ok _ _ H o' d Ho) as A. cbv beta in A. destruct (Qc_eqb_spec (all_rows t o' d) 0%Qc); [discriminate|auto].
  - rewrite !andb_true_iff in L. destruct L as (((A & B) & C) & D). exists 0, o. apply Nat.leb_le in A, B. apply Nat.ltb_lt in C. split; [lia|]. split; [lia|]. destruct (Qc_eqb_spec (latest_held t n p q 0 o) 0%Qc); [discriminate|auto].
Qed.
Ltac oinput := apply otri_input; [lia|lia|by_wfb|by_blankb|reflexivity|reflexivity|reflexivity].
Ltac odata k := apply by_dataa with (o := k); vm_compute; reflexivity.
Lemma same_some (x : option Qc) y : match x with Some z => Qc_eqb z y | None => false end = true -> x = Some y.
Proof. destruct x as [z|]; [|discriminate]. destruct (Qc_eqb_spec z y); [congruence|discriminate]. Qed.
Lemma applied_self nm pn cn t n p q r : os_input nm t n p q -> os_data t n p q -> os_fit nm pn cn t = Ok r -> applied nm pn cn t t n p q p q r (of_set r).
Proof.
  intros I D E. destruct (C65_fits nm pn cn t n p q I D) as (r' & E' & S'). assert (r' = r) by congruence. subst r'. constructor; auto; [constructor; reflexivity|apply D].
Qed.

Definition ot1 := otri 4
  [ [[Some 10; Some 30; Some 45; Some 50]; [Some 12; Some 36; Some 50; None]; [Some 20; Some 50; None; None]; [Some 15; None; None; None]];
    [[Some 50; Some 55; Some 56; Some 55]; [Some 60; Some 66; Some 60; None]; [Some 80; Some 85; None; None]; [Some 75; None; None; None]] ]%Z.
Lemma ot1_selected r : os_fit onm (-1) (-1) ot1 = Ok r -> selected_all (of_case_ldf r) 4 0.
Proof.
  intros E d Hd. assert (I : os_input onm ot1 4 0 1) by oinput. assert (D : os_data ot1 4 0 1) by odata 1.
  rewrite (proj1 (C65_averages _ _ _ _ _ _ _ _ 0 d I D E ltac:(vm_compute; lia) Hd)). destruct d as [|[|[|d]]]; [vm_compute; discriminate..|lia].
Qed.
(** Every hypothesis above is met. *)
Example C65_case : exists r, os_input onm ot1 4 0 1 /\ os_data ot1 4 0 1 /\ applied onm (-1) (-1) ot1 ot1 4 0 1 0 1 r (of_set r) /\ selected_all (of_case_ldf r) 4 0 /\ total_held ot1 4 0 1 0 <> 0%Qc /\
  (forall o, o < 4 -> latest_held ot1 4 0 1 0 o <> 0%Qc) /\ cel (of_case_ldf r) 0 0 0 0 = Some (qc 11 / qc 18)%Qc /\ cel (of_paid_ldf r) 0 0 0 1 = Some (qc 8 / qc 15)%Qc /\
  (forall e, e < 4 -> completed onm ot1 4 1 (of_set r) "paid" 0 0 e <> 0%Qc) /\ nth_error (vdims (os_ldf_ (of_set r))) 0 = Some "paid"%string.
Proof.
  assert (I : os_input onm ot1 4 0 1) by oinput. assert (D : os_data ot1 4 0 1) by odata 1. destruct (C65_fits onm (-1) (-1) ot1 4 0 1 I D) as (r & E & S'). exists r.
  pose proof (applied_self _ _ _ _ _ _ _ _ I D E) as Ap.
  split; [auto|]. split; [auto|]. split; [auto|]. split; [apply ot1_selected; auto|]. split; [vm_compute; discriminate|]. split; [intros [|[|[|[|o]]]] Ho; [vm_compute; discriminate..|lia]|].
  destruct (C65_averages _ _ _ _ _ _ _ _ 0 0 I D E) as (A1 & _); [vm_compute; lia|lia|]. destruct (C65_averages _ _ _ _ _ _ _ _ 0 1 I D E) as (_ & A2); [vm_compute; lia|lia|].
  rewrite A1, A2. split; [apply same_some; vm_compute; reflexivity|]. split; [apply same_some; vm_compute; reflexivity|]. split.
  - intros e He. unfold completed. cbn [String.eqb on_paid onm]. replace (String.eqb "paid" "paid") with true by reflexivity. rewrite (C65_paid_known _ _ _ _ _ _ _ _ _ _ _ _ 0 0 e Ap) by (try (vm_compute; lia); lia). destruct e as [|[|[|[|e]]]]; [vm_compute; discriminate..|lia].
  - destruct (facts_of _ _ _ _ _ _ _ _ _ _ _ _ Ap) as (o0 & a0 & h & Q & _ & R & _). rewrite (proj1 (proj2 (ro_ldf _ _ _ _ _ _ _ _ _ _ _ R))). reflexivity.
Qed.
(** Outstanding amounts at ages before the valuation date are not those of the triangle. *)
Theorem C65_restated_refuted : exists nm t n p q r, os_input nm t n p q /\ os_data t n p q /\ os_fit nm (-1) (-1) t = Ok r /\ selected_all (of_case_ldf r) n 0 /\
  exists o d, o + d < n /\ amount (os_case_ (of_set r)) 0 0 o d <> held t p q 0 o d.
Proof.
  assert (I : os_input onm ot1 4 0 1) by oinput. assert (D : os_data ot1 4 0 1) by odata 1. destruct (C65_fits onm (-1) (-1) ot1 4 0 1 I D) as (r & E & S'). exists onm, ot1, 4, 0, 1, r.
  pose proof (applied_self _ _ _ _ _ _ _ _ I D E) as Ap. pose proof (ot1_selected _ E) as Sa. split; [auto|]. split; [auto|]. split; [auto|]. split; [auto|]. exists 1, 1. split; [lia|].
  assert (L : latest_held ot1 4 0 1 0 1 = qc 10) by (apply Qc_is_canon; vm_compute; reflexivity).
  assert (Hi : 0 < ax0 (values ot1)) by (vm_compute; lia).
  destruct (C65_averages _ _ _ _ _ _ _ _ 0 1 I D E Hi ltac:(lia)) as (A1 & _). assert (X : mean_share 4 (fun o => held_share ot1 4 0 1 (-1) 0 o 1) = Some (qc 29 / qc 75)%Qc) by (apply same_some; vm_compute; reflexivity). rewrite X in A1.
  destruct (C65_case_step _ _ _ _ _ _ _ _ _ _ _ _ 0 1 1 _ Ap Hi ltac:(lia) ltac:(lia) ltac:(rewrite L; discriminate) Sa A1) as (z & Y1 & Y2).
  pose proof (C65_case_latest _ _ _ _ _ _ _ _ _ _ _ _ 0 1 Ap Hi ltac:(lia) ltac:(rewrite L; discriminate) ltac:(right; apply Sa; lia)) as Y3. cbn [Nat.sub] in Y3. rewrite Y3, L in Y2. 
  unfold amount. rewrite Y1. cbn [nz]. intros Hz. assert (Hh : held ot1 0 1 0 1 1 = qc 30) by (apply Qc_is_canon; vm_compute; reflexivity). rewrite Hh in Hz. subst z. apply (f_equal (fun x => Qc_eqb (nz x) (qc 10))) in Y2. vm_compute in Y2. discriminate.
Qed.
Print Assumptions C65_restated_refuted.
(** A claim reopened: the outstanding amount at the valuation date is lost. *)
Definition ot2 := otri 3
  [ [[Some 10; Some 20; Some 30]; [Some 12; Some 24; None]; [Some 20; None; None]];
    [[Some 10; Some 24; Some 32]; [Some 12; Some 29; None]; [Some 27; None; None]] ]%Z.
Theorem C65_reopened_refuted : exists nm t n p q r, os_input nm t n p q /\ os_data t n p q /\ os_fit nm (-1) (-1) t = Ok r /\
  exists o, o < n /\ latest_held t n p q 0 o <> 0%Qc /\ amount (os_case_ (of_set r)) 0 0 o (n - 1 - o) = 0%Qc.
Proof.
  assert (I : os_input onm ot2 3 0 1) by oinput. assert (D : os_data ot2 3 0 1) by odata 1. destruct (C65_fits onm (-1) (-1) ot2 3 0 1 I D) as (r & E & S'). exists onm, ot2, 3, 0, 1, r.
  pose proof (applied_self _ _ _ _ _ _ _ _ I D E) as Ap. split; [auto|]. split; [auto|]. split; [auto|]. exists 1. split; [lia|]. split; [vm_compute; discriminate|].
  unfold amount. cbn [Nat.sub]. rewrite (C65_case_gap _ _ _ _ _ _ _ _ _ _ _ _ 0 1 0 Ap); [reflexivity|vm_compute; lia|lia|lia|].
  rewrite (proj1 (C65_averages _ _ _ _ _ _ _ _ 0 0 I D E ltac:(vm_compute; lia) ltac:(lia))). vm_compute. reflexivity.
Qed.
Print Assumptions C65_reopened_refuted.
(** Origins whose claims were all closed are left out of the mean. *)
Definition ot3 := otri 4
  [ [[Some 10; Some 30; Some 45; Some 50]; [Some 12; Some 36; Some 60; None]; [Some 20; Some 50; None; None]; [Some 15; None; None; None]];
    [[Some 50; Some 55; Some 56; Some 55]; [Some 60; Some 66; Some 60; None]; [Some 80; Some 85; None; None]; [Some 75; None; None; None]] ]%Z.
Theorem C65_closed_share_refuted : exists nm t n p q r d, os_input nm t n p q /\ os_data t n p q /\ os_fit nm (-1) (-1) t = Ok r /\ d < n - 1 /\
  (forall o, o + S d < n -> held t p q 0 o d <> 0%Qc) /\
  cel (of_case_ldf r) 0 0 0 d <> Some (sumn (n - 1 - d) (fun o => held t p q 0 o (S d) / held t p q 0 o d) / qc (Z.of_nat (n - 1 - d)))%Qc.
Proof.
  assert (I : os_input onm ot3 4 0 1) by oinput. assert (D : os_data ot3 4 0 1) by odata 2. destruct (C65_fits onm (-1) (-1) ot3 4 0 1 I D) as (r & E & S'). exists onm, ot3, 4, 0, 1, r, 1.
  split; [auto|]. split; [auto|]. split; [auto|]. split; [lia|]. split; [intros [|[|o]] Ho; [vm_compute; discriminate..|lia]|].
  rewrite (proj1 (C65_averages _ _ _ _ _ _ _ _ 0 1 I D E ltac:(vm_compute; lia) ltac:(lia))). vm_compute. discriminate.
Qed.
Print Assumptions C65_closed_share_refuted.
(** Outstanding amounts that add up to 0: nothing more is paid, although they are not 0. *)
Definition ot4 := otri 3
  [ [[Some 10; Some 20; Some 30]; [Some 12; Some 24; None]; [Some 20; None; None]];
    [[Some 20; Some 28; Some 34]; [Some 22; Some 30; None]; [Some 10; None; None]] ]%Z.
Theorem C65_paid_nothing_refuted : exists nm t n p q r, os_input nm t n p q /\ os_data t n p q /\ os_fit nm (-1) (-1) t = Ok r /\ selected_all (of_case_ldf r) n 0 /\
  exists o d, n <= o + S d /\ o < n /\ S d < n /\ amount (os_case_ (of_set r)) 0 0 o d <> 0%Qc /\ nz (cel (of_paid_ldf r) 0 0 0 d) <> 0%Qc /\
    amount (os_paid_ (of_set r)) 0 0 o (S d) = amount (os_paid_ (of_set r)) 0 0 o d.
Proof.
  assert (I : os_input onm ot4 3 0 1) by oinput. assert (D : os_data ot4 3 0 1) by odata 1. destruct (C65_fits onm (-1) (-1) ot4 3 0 1 I D) as (r & E & S'). exists onm, ot4, 3, 0, 1, r.
  pose proof (applied_self _ _ _ _ _ _ _ _ I D E) as Ap. assert (Hi : 0 < ax0 (values ot4)) by (vm_compute; lia).
  assert (Sa : selected_all (of_case_ldf r) 3 0). { intros d Hd. rewrite (proj1 (C65_averages _ _ _ _ _ _ _ _ 0 d I D E Hi Hd)). destruct d as [|[|d]]; [vm_compute; discriminate..|lia]. }
  split; [auto|]. split; [auto|]. split; [auto|]. split; [auto|]. exists 2, 0. split; [lia|]. split; [lia|]. split; [lia|]. split.
  - unfold amount. pose proof (C65_case_latest _ _ _ _ _ _ _ _ _ _ _ _ 0 2 Ap Hi ltac:(lia) ltac:(vm_compute; discriminate) ltac:(left; reflexivity)) as X. cbn [Nat.sub] in X. rewrite X. vm_compute. discriminate.
  - split.
    + rewrite (proj2 (C65_averages _ _ _ _ _ _ _ _ 0 0 I D E Hi ltac:(lia))). vm_compute. discriminate.
    + apply (C65_paid_nothing _ _ _ _ _ _ _ _ _ _ _ _ 0 2 0 Ap); auto; lia.
Qed.
Print Assumptions C65_paid_nothing_refuted.
(** Nothing paid at the first age: the factor from it is not what the payments say. *)
Definition ot5 := otri 3
  [ [[Some 0; Some 20; Some 40]; [Some 12; Some 24; None]; [Some 20; None; None]];
    [[Some 50; Some 60; Some 56]; [Some 52; Some 60; None]; [Some 40; None; None]] ]%Z.
Example C65_factor_from_zero_case : exists r, applied onm (-1) (-1) ot5 ot5 3 0 1 0 1 r (of_set r) /\ nth_error (vdims (os_ldf_ (of_set r))) 0 = Some "paid"%string /\
  completed onm ot5 3 1 (of_set r) "paid" 0 0 0 = 0%Qc /\ completed onm ot5 3 1 (of_set r) "paid" 0 0 1 = qc 20 /\ completed onm ot5 3 1 (of_set r) "paid" 0 0 2 = qc 40.
Proof.
  assert (I : os_input onm ot5 3 0 1) by oinput. assert (D : os_data ot5 3 0 1) by odata 1. destruct (C65_fits onm (-1) (-1) ot5 3 0 1 I D) as (r & E & S'). exists r.
  pose proof (applied_self _ _ _ _ _ _ _ _ I D E) as Ap. assert (Hi : 0 < ax0 (values ot5)) by (vm_compute; lia). split; [auto|]. split.
  - destruct (facts_of _ _ _ _ _ _ _ _ _ _ _ _ Ap) as (o0 & a0 & h & Q & _ & R & _). rewrite (proj1 (proj2 (ro_ldf _ _ _ _ _ _ _ _ _ _ _ R))). reflexivity.
  - unfold completed. replace (String.eqb "paid" (on_paid onm)) with true by reflexivity. rewrite !(C65_paid_known _ _ _ _ _ _ _ _ _ _ _ _ 0 0 _ Ap) by (auto; lia). repeat split; apply Qc_is_canon; vm_compute; reflexivity.
Qed.
(** Two ages are too few. *)
Definition ot6 := otri 2
  [ [[Some 10; Some 20]; [Some 12; None]];
    [[Some 20; Some 28]; [Some 22; None]] ]%Z.
Theorem C65_two_ages_refuted : exists nm t o0 a0 h p q, wf t /\ blank_future t /\ square t 2 o0 a0 h /\ nth_error (vdims t) p = Some (on_paid nm) /\ nth_error (vdims t) q = Some (on_incurred nm) /\ os_data t 2 p q /\
  (forall o d, o + d < 2 -> held t p q 0 o d <> 0%Qc) /\ os_fit nm (-1) (-1) t = Err AttributeError.
Proof.
  exists onm, ot6, (y 2001), 12%Z, 12, 0, 1. split; [by_wfb|]. split; [by_blankb|]. split; [apply otri_square; [lia|lia|reflexivity|reflexivity]|]. split; [reflexivity|]. split; [reflexivity|]. split; [odata 1|].
  split; [|vm_compute; reflexivity]. intros o d L. assert (A : negb (Qc_eqb (held ot6 0 1 0 o d) 0%Qc) = true) by (revert o d L; apply ocells_ok; vm_compute; reflexivity). destruct (Qc_eqb_spec (held ot6 0 1 0 o d) 0%Qc); [discriminate|auto].
Qed.
Print Assumptions C65_two_ages_refuted.
