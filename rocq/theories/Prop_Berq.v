(** C63: the Berquist-Sherman adjustment. *)
From Coq Require Import Lia Lra Qreals.
From Verif Require Import TriFacts P_Core P_Mack P_Munich2 P_Bondy P_Corr5 P_Berq3 P_Berq5 P_Berq6 Ex ExLabel Prop_Additive SpecBerq.
Local Open Scope R_scope.

Lemma facts_of nm pw rate t ult n k r : berq_input nm t ult n k -> berq_fit pw rate nm t ult = Ok r -> berq_facts pw rate t ult n k r.
Proof. intros B F. destruct (berq_ok nm pw rate t ult n k B) as (r' & E & X). congruence. Qed.
Lemma no_future nm t ult n k i : berq_input nm t ult n k -> (i < ax0 (values t))%nat -> forall o d, (o < n)%nat -> (d < n)%nat -> (n <= o + d)%nat -> cel t i (cc k) o d = None.
Proof.
  intros B Hi o d Ho Hd L. destruct (bi_square _ _ _ _ _ B) as (o0 & a0 & h & Q). pose proof Q as (_ & E2 & E3). apply (bi_blank _ _ _ _ _ B).
  - repeat split; try lia. rewrite (wf_v _ (bi_wf _ _ _ _ _ B)). apply nth_error_Some. rewrite (bi_c _ _ _ _ _ B). discriminate.
  - rewrite (square_future _ _ _ _ _ _ _ Q); lia.
Qed.

(** C63. The adjustment works on every square triangle with the four columns. *)
Theorem C63_fits : forall nm pw rate t ult n k, berq_input nm t ult n k -> exists r, berq_fit pw rate nm t ult = Ok r.
Proof. intros nm pw rate t ult n k B. destruct (berq_ok nm pw rate t ult n k B) as (r & E & _). exists r. exact E. Qed.
Print Assumptions C63_fits.
(** A triangle without one of the columns is refused. *)
Theorem C63_refuses : forall nm pw rate t ult x, In x [bn_paid nm; bn_incurred nm; bn_reported nm; bn_closed nm] -> ~ In x (vdims t) -> berq_fit pw rate nm t ult = Err ValueError.
Proof.
  intros nm pw rate t ult x Hx Nx. assert (M : mem_str x (vdims t) = false).
  { destruct (mem_str x (vdims t)) eqn:E; auto. exfalso. apply Nx. unfold mem_str in E. apply existsb_exists in E. destruct E as (z & Hz & Ez). apply String.eqb_eq in Ez. subst z. exact Hz. }
  unfold berq_fit. cbn [In] in Hx. destruct Hx as [<- | [<- | [<- | [<- | []]]]]; rewrite M, ?andb_false_r; reflexivity.
Qed.
Print Assumptions C63_refuses.
(** The adjusted triangle has the labels of the given one; nothing is known after the valuation date. *)
Theorem C63_labels : forall nm pw rate t ult n k r, berq_input nm t ult n k -> berq_fit pw rate nm t ult = Ok r ->
  let u := rt_frame (bq_tri r) in
  kdims u = kdims t /\ key_labels u = key_labels t /\ vdims u = vdims t /\ odims u = odims t /\ ddims u = ddims t /\ vdate u = vdate t /\
  ograin u = ograin t /\ dgrain u = dgrain t /\ is_cumulative u = is_cumulative t /\ is_pattern u = is_pattern t /\
  ax0 (values u) = ax0 (values t) /\ ax1 (values u) = ax1 (values t) /\ ax2 (values u) = ax2 (values t) /\ ax3 (values u) = ax3 (values t) /\
  (forall i c o d, in_range t i c o d -> future t o d -> rt_cell (bq_tri r) i c o d = None).
Proof.
  intros nm pw rate t ult n k r B F u. pose proof (facts_of _ _ _ _ _ _ _ _ B F) as X. destruct (bi_square _ _ _ _ _ B) as (o0 & a0 & h & Q). pose proof Q as (_ & E2 & E3).
  pose proof (bf_labels _ _ _ _ _ _ _ X) as L. cbn zeta in L. fold u in L. destruct L as (L1 & L2 & L3 & L4 & L5 & L6 & L7 & L8 & L9 & L10 & L11 & L12 & L13 & L14).
  repeat (split; [congruence|]). intros i c o d (_ & _ & Ro & Rd) Fu. rewrite E2 in Ro. rewrite E3 in Rd. rewrite (square_future _ _ _ _ _ _ _ Q) in Fu by auto. apply (bf_future _ _ _ _ _ _ _ X); auto; lia.
Qed.
Print Assumptions C63_labels.
(** The reported counts and the columns not named keep their amounts. *)
Theorem C63_others : forall nm pw rate t ult n k r i c o d, berq_input nm t ult n k -> berq_fit pw rate nm t ult = Ok r -> (i < ax0 (values t))%nat -> (o + d < n)%nat ->
  c <> cp k -> c <> ci k -> c <> cc k -> adjusted r i c o d = rv (amount t i c o d).
Proof.
  intros nm pw rate t ult n k r i c o d B F Hi L N1 N2 N3. pose proof (facts_of _ _ _ _ _ _ _ _ B F) as X. unfold adjusted. rewrite (bf_other _ _ _ _ _ _ _ X) by auto. rewrite nzr_rn2n, nzr_of. reflexivity.
Qed.
Print Assumptions C63_others.
(** Closed counts: the latest disposal rate of the age times the ultimate number of claims of the origin. *)
Theorem C63_closed : forall nm pw rate t ult n k r i o d, berq_input nm t ult n k -> berq_fit pw rate nm t ult = Ok r -> (i < ax0 (values t))%nat -> (o + d < n)%nat ->
  adjusted r i (cc k) o d = rv (closed_level t ult n k i o d).
Proof.
  intros nm pw rate t ult n k r i o d B F Hi L. pose proof (facts_of _ _ _ _ _ _ _ _ B F) as X. rewrite (bf_closed _ _ _ _ _ _ _ X) by auto. f_equal. unfold closed_cell, closed_level, disposal, closed_at.
  pose proof (bi_u _ _ _ _ _ B i (n - 1 - d) Hi ltac:(lia)) as U. apply pos_ne in U.
  assert (A : amount t i (cc k) (n - 1 - d) d = nz (n2n (cel t i (cc k) (n - 1 - d) d))). { unfold amount, n2n. destruct (cel t i (cc k) (n - 1 - d) d) as [q|]; auto. cbn [nz]. destruct (Qc_eqb_spec q 0%Qc); auto. }
  rewrite A. destruct (n2n (cel t i (cc k) (n - 1 - d) d)) as [q|]; cbn [nz]; [reflexivity|]. field. exact U.
Qed.
Print Assumptions C63_closed.
(** The disposal rates are the closed counts over the ultimate numbers. *)
Theorem C63_rates : forall nm pw rate t ult n k r i o d, berq_input nm t ult n k -> berq_fit pw rate nm t ult = Ok r -> (i < ax0 (values t))%nat -> (o < n)%nat -> (d < n)%nat ->
  amount (bq_rate r) i 0 o d = (closed_at t k i o d / amount ult i 0 o 0)%Qc.
Proof.
  intros nm pw rate t ult n k r i o d B F Hi Ho Hd. pose proof (facts_of _ _ _ _ _ _ _ _ B F) as X. unfold amount at 1. rewrite (bf_rate _ _ _ _ _ _ _ X) by auto.
  pose proof (bi_u _ _ _ _ _ B i o Hi Ho) as U. apply pos_ne in U. unfold cdiv, closed_at. rewrite some_eqb by exact U. change (amount t i (cc k) o d) with (nz (cel t i (cc k) o d)). destruct (cel t i (cc k) o d); cbn [nz]; [reflexivity|]. field. exact U.
Qed.
Print Assumptions C63_rates.
(** Incurred amounts: the paid amounts and, for every open claim, the latest average outstanding amount of the age at the level of the date. *)
Theorem C63_incurred : forall nm pw rate t ult n k r i o d, berq_input nm t ult n k -> berq_fit pw rate nm t ult = Ok r -> (i < ax0 (values t))%nat -> (o + d < n)%nat ->
  has_case t k i o d -> has_case t k i (n - 1 - d) d ->
  adjusted r i (ci k) o d = rv (paid_at t k i o d + level_case t n k i pw rate o d * open_at t k i o d)%Qc.
Proof.
  intros nm pw rate t ult n k r i o d B F Hi L (A1 & A2) (A3 & A4). pose proof (facts_of _ _ _ _ _ _ _ _ B F) as X. rewrite (bf_incurred _ _ _ _ _ _ _ X) by auto. f_equal. unfold paid_at. f_equal.
  unfold level_add. rewrite !some_eqb by auto. cbn [negb andb]. unfold level_case, average_case. ring.
Qed.
Print Assumptions C63_incurred.
(** Without an outstanding amount of the cell or of the latest one of the age, the adjusted incurred amount is the paid one. *)
Theorem C63_no_case : forall nm pw rate t ult n k r i o d, berq_input nm t ult n k -> berq_fit pw rate nm t ult = Ok r -> (i < ax0 (values t))%nat -> (o + d < n)%nat ->
  ~ (has_case t k i o d /\ has_case t k i (n - 1 - d) d) -> adjusted r i (ci k) o d = rv (paid_at t k i o d).
Proof.
  intros nm pw rate t ult n k r i o d B F Hi L N. pose proof (facts_of _ _ _ _ _ _ _ _ B F) as X. rewrite (bf_incurred _ _ _ _ _ _ _ X) by auto. f_equal. unfold paid_at.
  replace (level_add t n pw rate (case_at t k i) (open_at t k i) o d) with 0%Qc; [ring|]. unfold level_add. symmetry.
  destruct (Qc_eqb_spec (case_at t k i o d) 0%Qc); [reflexivity|]. destruct (Qc_eqb_spec (open_at t k i o d) 0%Qc); [reflexivity|]. cbn [negb andb].
  destruct (Qc_eqb_spec (case_at t k i (n - 1 - d)%nat d) 0%Qc); [reflexivity|]. destruct (Qc_eqb_spec (open_at t k i (n - 1 - d)%nat d) 0%Qc); [reflexivity|].
  exfalso. apply N. repeat split; auto.
Qed.
Print Assumptions C63_no_case.
(** The latest amounts are not adjusted. *)
Theorem C63_latest : forall nm pw rate t ult n k r i c o d, berq_input nm t ult n k -> power_like pw -> berq_fit pw rate nm t ult = Ok r -> (3 <= n)%nat -> (i < ax0 (values t))%nat -> (o + d = n - 1)%nat ->
  (open_at t k i o d <> 0%Qc \/ case_at t k i o d = 0%Qc) -> adjusted r i c o d = rv (amount t i c o d).
Proof.
  intros nm pw rate t ult n k r i c o d B P F N3 Hi L Op. pose proof (facts_of _ _ _ _ _ _ _ _ B F) as X.
  assert (Eo : (n - 1 - d)%nat = o) by lia.
  destruct (Nat.eq_dec c (cp k)) as [-> |N1]; [apply (bf_latest _ _ _ _ _ _ _ X); auto|].
  destruct (Nat.eq_dec c (ci k)) as [-> |N2].
  - destruct (bi_square _ _ _ _ _ B) as (o0 & a0 & h & Q).
    destruct (Qc_eq_dec (case_at t k i o d) 0%Qc) as [E|E].
    + rewrite (C63_no_case nm pw rate t ult n k r i o d B F Hi) by (try lia; intros [(_ & H) _]; contradiction). f_equal. unfold paid_at. unfold case_at in E.
      replace (amount t i (ci k) o d) with (amount t i (ci k) o d - amount t i (cp k) o d + amount t i (cp k) o d)%Qc by ring. rewrite E. ring.
    + destruct Op as [Op|Op]; [|contradiction]. rewrite (C63_incurred nm pw rate t ult n k r i o d B F Hi) by (try lia; rewrite ?Eo; split; auto). f_equal.
      unfold level_case. rewrite Eo. assert (M : (vdate t - month_of t o d = 0)%Z) by (rewrite (square_month _ _ _ _ _ _ _ Q), (square_vdate _ _ _ _ _ Q), L by lia; lia). rewrite M, (pw_zero _ P). unfold average_case, paid_at.
      transitivity (amount t i (cp k) o d + case_at t k i o d)%Qc; [field; auto|unfold case_at; ring].
  - destruct (Nat.eq_dec c (cc k)) as [-> |N4]; [|apply (C63_others nm pw rate t ult n k r); auto; lia].
    rewrite (C63_closed nm pw rate t ult n k r i o d B F Hi) by lia. f_equal. unfold closed_level, disposal. rewrite Eo. unfold closed_at.
    pose proof (bi_u _ _ _ _ _ B i o Hi ltac:(lia)) as U. apply pos_ne in U. field. exact U.
Qed.
Print Assumptions C63_latest.
(** There is exactly one pair of neighbouring ages to look a number of closed claims up. *)
Theorem C63_bracket : forall nm t ult n k i o d, berq_input nm t ult n k -> (i < ax0 (values t))%nat -> (o + d < n - 1)%nat -> closing t n k i ->
  exists m, bracket t n k i o (closed_level t ult n k i o d) m /\ forall m', bracket t n k i o (closed_level t ult n k i o d) m' -> m' = m.
Proof.
  intros nm t ult n k i o d B Hi L C. pose proof (look_bracket t ult n k i (no_future _ _ _ _ _ _ B Hi) C o d L) as K. eexists. split; [exact K|].
  intros m' H. exact (bracket_one t n k i C o _ _ _ H K).
Qed.
Print Assumptions C63_bracket.
(** Paid amounts before the valuation date: on the exponential curve, as a function of the closed counts, through the known amounts at these two ages, at the adjusted closed count. *)
Theorem C63_paid : forall nm pw rate t ult n k r i o d m, berq_input nm t ult n k -> berq_fit pw rate nm t ult = Ok r -> (3 <= n)%nat -> (i < ax0 (values t))%nat -> (o + d < n - 1)%nat -> closing t n k i ->
  bracket t n k i o (closed_level t ult n k i o d) m ->
  on_exponential (rv (closed_at t k i o m)) (rv (paid_at t k i o m)) (rv (closed_at t k i o (S m))) (rv (paid_at t k i o (S m)))
                 (rv (closed_level t ult n k i o d)) (adjusted r i (cp k) o d).
Proof.
  intros nm pw rate t ult n k r i o d m B F N3 Hi L C K. pose proof (facts_of _ _ _ _ _ _ _ _ B F) as X.
  destruct (paid_curve t ult n k i (no_future _ _ _ _ _ _ B Hi) C o d m L K) as (a & b & Eb & Ea & P0 & P1). exists a, b. split; [exact P0|]. split; [exact P1|].
  rewrite (bf_paid _ _ _ _ _ _ _ X N3), (bf_a _ _ _ _ _ _ _ X), (bf_b _ _ _ _ _ _ _ X) by auto. rewrite Ea, Eb, (closed_cell_level t ult n k i C) by lia.
  cbn [rmul r_of option_map rexp nzr]. rewrite !Rmult_1_r, Rmult_comm, (Rmult_comm b). reflexivity.
Qed.
Print Assumptions C63_paid.
(** The parameters of that curve. *)
Theorem C63_parameters : forall nm pw rate t ult n k r i o d m, berq_input nm t ult n k -> berq_fit pw rate nm t ult = Ok r -> (i < ax0 (values t))%nat -> (o + d < n - 1)%nat -> closing t n k i ->
  bracket t n k i o (closed_level t ult n k i o d) m ->
  exists a b, bq_a r i o d = Some a /\ bq_b r i o d = Some b /\
    rv (paid_at t k i o m) = a * exp (b * rv (closed_at t k i o m)) /\ rv (paid_at t k i o (S m)) = a * exp (b * rv (closed_at t k i o (S m))).
Proof.
  intros nm pw rate t ult n k r i o d m B F Hi L C K. pose proof (facts_of _ _ _ _ _ _ _ _ B F) as X.
  destruct (paid_curve t ult n k i (no_future _ _ _ _ _ _ B Hi) C o d m L K) as (a & b & Eb & Ea & P0 & P1). exists a, b.
  rewrite (bf_a _ _ _ _ _ _ _ X), (bf_b _ _ _ _ _ _ _ X) by auto. rewrite Ea, Eb. cbn [rmul]. rewrite !Rmult_1_r. auto.
Qed.
Print Assumptions C63_parameters.
(** Between the two ages the adjusted paid amount lies between the known ones. *)
Theorem C63_between : forall nm pw rate t ult n k r i o d m, berq_input nm t ult n k -> berq_fit pw rate nm t ult = Ok r -> (3 <= n)%nat -> (i < ax0 (values t))%nat -> (o + d < n - 1)%nat -> closing t n k i ->
  (o + S m < n)%nat -> (closed_at t k i o m < closed_level t ult n k i o d)%Qc -> (closed_level t ult n k i o d <= closed_at t k i o (S m))%Qc -> (paid_at t k i o m <= paid_at t k i o (S m))%Qc ->
  rv (paid_at t k i o m) <= adjusted r i (cp k) o d <= rv (paid_at t k i o (S m)).
Proof.
  intros nm pw rate t ult n k r i o d m B F N3 Hi L C Lm C0 C1 M.
  assert (K : bracket t n k i o (closed_level t ult n k i o d) m) by (split; [lia|]; split; right; auto).
  refine (exponential_between _ _ _ _ _ _ _ _ _ _ (C63_paid nm pw rate t ult n k r i o d m B F N3 Hi L C K)).
  - apply rv_lt, C. exact Lm.
  - apply rv_pos, C. lia.
  - apply rv_le, M.
  - split; [apply Rlt_le, rv_lt, C0|apply rv_le, C1].
Qed.
Print Assumptions C63_between.
(** Nothing is adjusted if the disposal rates of every age are the same for all origins and the average outstanding amounts follow the trend. *)
Theorem C63_unchanged : forall nm pw rate t ult n k r i c o d, berq_input nm t ult n k -> berq_fit pw rate nm t ult = Ok r -> (3 <= n)%nat -> (i < ax0 (values t))%nat -> closing t n k i ->
  (forall o d, (o + d < n)%nat -> closed_at t k i o d = closed_level t ult n k i o d) ->
  (forall o d, (o + d < n)%nat -> has_case t k i o d /\ average_case t k i o d = level_case t n k i pw rate o d) ->
  (o + d < n)%nat -> adjusted r i c o d = rv (amount t i c o d).
Proof.
  intros nm pw rate t ult n k r i c o d B F N3 Hi C Hc Ha L. pose proof (facts_of _ _ _ _ _ _ _ _ B F) as X.
  destruct (Nat.eq_dec c (ci k)) as [-> |N2].
  { destruct (Ha o d L) as (H & E). destruct (Ha (n - 1 - d)%nat d ltac:(lia)) as (H' & _). rewrite (C63_incurred nm pw rate t ult n k r i o d B F Hi L H H'), <- E. f_equal. unfold average_case, paid_at. destruct H as (H & _).
    transitivity (amount t i (cp k) o d + case_at t k i o d)%Qc; [field; auto|unfold case_at; ring]. }
  destruct (Nat.eq_dec c (cc k)) as [-> |N3']. { rewrite (C63_closed nm pw rate t ult n k r i o d B F Hi L), <- Hc by auto. reflexivity. }
  destruct (Nat.eq_dec c (cp k)) as [-> |N1]; [|apply (C63_others nm pw rate t ult n k r); auto].
  destruct (Nat.eq_dec (o + d) (n - 1)) as [E|E]; [apply (bf_latest _ _ _ _ _ _ _ X); auto|]. assert (L' : (o + d < n - 1)%nat) by lia.
  set (m := (d - 1)%nat). assert (K : bracket t n k i o (closed_level t ult n k i o d) m).
  { rewrite <- Hc by auto. split; [unfold m; lia|]. destruct d as [|d].
    - split; [left; reflexivity|right]. apply Qclt_le_weak, C. lia.
    - replace m with d by (unfold m; lia). split; right; [apply C; lia|apply Qcle_refl]. }
  pose proof (C63_paid nm pw rate t ult n k r i o d m B F N3 Hi L' C K) as P. rewrite <- Hc in P by auto.
  assert (Lt : (closed_at t k i o m < closed_at t k i o (S m))%Qc) by (apply C; unfold m; lia).
  refine (exponential_one _ _ _ _ _ _ _ _ _ P _).
  - apply rv_lt in Lt. lra.
  - apply rv_pos, C. unfold m. lia.
  - destruct P as (a & b & P0 & P1 & _). exists a, b. split; [exact P0|]. split; [exact P1|]. destruct d as [|d]; [exact P0|]. replace (S m) with (S d) in P1 by (unfold m; lia). exact P1.
Qed.
Print Assumptions C63_unchanged.

(** ** Cases *)
Definition bnm := BSN "paid" "incurred" "reported" "closed".
Definition bk := Columns 0 1 2 3.
Definition btri (n : nat) (rows : list (list (list (option Z)))) : tri :=
  tri4 [["Total"%string]] ["Total"%string] ["paid"%string; "incurred"%string; "reported"%string; "closed"%string] (map (fun k => y 2001 + Z.of_nat (12 * 1 * k))%Z (seq 0 n))
    (Ages (map (fun k => 12 + Z.of_nat (12 * k))%Z (seq 0 n))) (dec (2000 + Z.of_nat n)) [rows].
Definition bult (n : nat) (us : list Z) : tri :=
  Tri [["Total"%string]] ["Total"%string] ["reported"%string] (map (fun k => y 2001 + Z.of_nat (12 * 1 * k))%Z (seq 0 n)) (Vals [ULT_VAL]) (Arr 1 1 n 1 (fun _ _ o _ => Some (qc (nth o us 0%Z)))) ULT_VAL (Some true) false GY GY.
Lemma btri_input n rows us : (2 <= n)%nat -> wf (btri n rows) -> blank_future (btri n rows) -> ax0 (values (btri n rows)) = 1%nat -> ax2 (values (btri n rows)) = n -> ax3 (values (btri n rows)) = n -> (n < 100)%nat ->
  forallb (fun o => Qc_ltb 0%Qc (amount (bult n us) 0 0 o 0)) (seq 0 n) = true -> berq_input bnm (btri n rows) (bult n us) n bk.
Proof.
  intros Hn W Bl E0 E2 E3 Hb U.
  assert (Q : square (btri n rows) n (y 2001) 12 12).
  { split; [|auto]. unfold regular. rewrite E2, E3. repeat split; try reflexivity; try lia.
    - unfold btri, tri4. cbn [vdate]. unfold dec, y. lia.
    }
  constructor; auto; try reflexivity.
  - exists (y 2001), 12%Z, 12%nat. exact Q.
  - repeat constructor; cbn; intuition discriminate.
  - intros x Hx. cbn in Hx |- *. intros [<- | []]. intuition discriminate.
  - repeat constructor; cbn; intuition discriminate.
  - unfold btri, tri4, bult. cbn [vdate]. unfold dec, y, ULT_VAL. lia.
  - intros i o Hi Ho. rewrite forallb_forall in U. specialize (U o ltac:(apply in_seq; lia)). assert (i = 0%nat) by lia. subst i. destruct (Qc_ltb_spec 0%Qc (amount (bult n us) 0 0 o 0)); [auto|discriminate].
Qed.

(** Three origins. *)
Definition bt1 := btri 3
  [ [[Some 10; Some 30; Some 60]; [Some 40; Some 100; None]; [Some 30; None; None]];
    [[Some 22; Some 42; Some 62]; [Some 72; Some 124; None]; [Some 50; None; None]];
    [[Some 8; Some 9; Some 10]; [Some 14; Some 18; None]; [Some 9; None; None]];
    [[Some 2; Some 5; Some 9]; [Some 6; Some 12; None]; [Some 4; None; None]] ]%Z.
Definition bu1 := bult 3 [10; 20; 10]%Z.
Ltac binput := apply btri_input; [lia|by_wfb|by_blankb|reflexivity|reflexivity|reflexivity|lia|vm_compute; reflexivity].
Definition all_cells (n : nat) (f : nat -> nat -> bool) : bool := forallb (fun o => forallb (fun d => (n <=? o + d)%nat || f o d) (seq 0 n)) (seq 0 n).
Lemma all_cells_ok n f : all_cells n f = true -> forall o d, (o + d < n)%nat -> f o d = true.
Proof.
  unfold all_cells. intros H o d L. rewrite forallb_forall in H. specialize (H o ltac:(apply in_seq; lia)). rewrite forallb_forall in H. specialize (H d ltac:(apply in_seq; lia)).
  apply orb_true_iff in H. destruct H as [H|H]; auto. apply Nat.leb_le in H. lia.
Qed.
Definition closingb (t : tri) (n : nat) (k : columns) (i : nat) : bool :=
  all_cells n (fun o d => Qc_ltb 0 (closed_at t k i o d) && Qc_ltb 0 (paid_at t k i o d) && ((n <=? o + S d)%nat || Qc_ltb (closed_at t k i o d) (closed_at t k i o (S d)))).
Lemma by_closingb t n k i : closingb t n k i = true -> closing t n k i.
Proof.
  intros H. pose proof (all_cells_ok _ _ H) as A. split.
  - intros o d L. specialize (A o d L). apply andb_true_iff in A. destruct A as [A _]. apply andb_true_iff in A. destruct A as [A1 A2].
    destruct (Qc_ltb_spec 0 (closed_at t k i o d)); [|discriminate]. destruct (Qc_ltb_spec 0 (paid_at t k i o d)); [|discriminate]. auto.
  - intros o d L. specialize (A o d ltac:(lia)). apply andb_true_iff in A. destruct A as [_ A]. apply orb_true_iff in A. destruct A as [A|A]; [apply Nat.leb_le in A; lia|].
    destruct (Qc_ltb_spec (closed_at t k i o d) (closed_at t k i o (S d))); [auto|discriminate].
Qed.
Definition has_caseb (t : tri) (k : columns) (i o d : nat) : bool := negb (Qc_eqb (open_at t k i o d) 0) && negb (Qc_eqb (case_at t k i o d) 0).
Lemma by_has_caseb t k i o d : has_caseb t k i o d = true -> has_case t k i o d.
Proof.
  unfold has_caseb. intros H. apply andb_true_iff in H. destruct H as [A C]. split.
  - destruct (Qc_eqb_spec (open_at t k i o d) 0); [discriminate|auto].
  - destruct (Qc_eqb_spec (case_at t k i o d) 0); [discriminate|auto].
Qed.
Example C63_case : berq_input bnm bt1 bu1 3 bk /\ closing bt1 3 bk 0 /\ has_case bt1 bk 0 0 0 /\ has_case bt1 bk 0 2 0 /\
  closed_level bt1 bu1 3 bk 0 0 1 = qc 6 /\ bracket bt1 3 bk 0 0 (closed_level bt1 bu1 3 bk 0 0 1) 1 /\ closed_level bt1 bu1 3 bk 0 0 1 <> closed_at bt1 bk 0 0 1.
Proof.
  split; [binput|]. split; [apply by_closingb; vm_compute; reflexivity|]. split; [apply by_has_caseb; vm_compute; reflexivity|]. split; [apply by_has_caseb; vm_compute; reflexivity|].
  assert (E : closed_level bt1 bu1 3 bk 0 0 1 = qc 6) by (apply Qc_is_canon; vm_compute; reflexivity). rewrite E. split; [reflexivity|]. split.
  - split; [lia|]. split; right; [reflexivity|discriminate].
  - discriminate.
Qed.
(** The same disposal rates and average outstanding amounts for all origins. *)
Definition bt2 := btri 3
  [ [[Some 10; Some 20; Some 40]; [Some 15; Some 30; None]; [Some 12; None; None]];
    [[Some 18; Some 29; Some 45]; [Some 31; Some 48; None]; [Some 20; None; None]];
    [[Some 8; Some 9; Some 10]; [Some 16; Some 18; None]; [Some 8; None; None]];
    [[Some 4; Some 6; Some 9]; [Some 8; Some 12; None]; [Some 4; None; None]] ]%Z.
Example C63_unchanged_case : berq_input bnm bt2 bu1 3 bk /\ closing bt2 3 bk 0 /\
  (forall o d, (o + d < 3)%nat -> closed_at bt2 bk 0 o d = closed_level bt2 bu1 3 bk 0 o d) /\
  (forall o d, (o + d < 3)%nat -> has_case bt2 bk 0 o d /\ average_case bt2 bk 0 o d = level_case bt2 3 bk 0 years 0 o d).
Proof.
  split; [binput|]. split; [apply by_closingb; vm_compute; reflexivity|]. split.
  - intros o d L. assert (A : Qc_eqb (closed_at bt2 bk 0 o d) (closed_level bt2 bu1 3 bk 0 o d) = true).
    { revert o d L. apply all_cells_ok. vm_compute. reflexivity. } destruct (Qc_eqb_spec (closed_at bt2 bk 0 o d) (closed_level bt2 bu1 3 bk 0 o d)); [auto|discriminate].
  - intros o d L. split; [apply by_has_caseb; revert o d L; apply all_cells_ok; vm_compute; reflexivity|].
    assert (A : Qc_eqb (average_case bt2 bk 0 o d) (level_case bt2 3 bk 0 years 0 o d) = true).
    { revert o d L. apply all_cells_ok. vm_compute. reflexivity. } destruct (Qc_eqb_spec (average_case bt2 bk 0 o d) (level_case bt2 3 bk 0 years 0 o d)); [auto|discriminate].
Qed.
(** With two ages only, the latest paid amounts are changed: the adjusted amount of the first age is added to them. *)
Definition bt3 := btri 2
  [ [[Some 10; Some 30]; [Some 40; None]];
    [[Some 22; Some 42]; [Some 72; None]];
    [[Some 8; Some 9]; [Some 14; None]];
    [[Some 2; Some 5]; [Some 6; None]] ]%Z.
Definition bu3 := bult 2 [10; 20]%Z.
Theorem C63_two_ages_refuted : exists nm t ult n k pw rate r, berq_input nm t ult n k /\ closing t n k 0 /\ power_like pw /\ berq_fit pw rate nm t ult = Ok r /\
  exists o d, (o + d = n - 1)%nat /\ rv (amount t 0 (cp k) o d) < adjusted r 0 (cp k) o d.
Proof.
  assert (B : berq_input bnm bt3 bu3 2 bk) by binput. assert (C : closing bt3 2 bk 0) by (apply by_closingb; vm_compute; reflexivity).
  destruct (C63_fits bnm years 0%Qc bt3 bu3 2 bk B) as (r & F). exists bnm, bt3, bu3, 2%nat, bk, years, 0%Qc, r. split; [exact B|]. split; [exact C|]. split; [exact C59_power|]. split; [exact F|].
  exists 0%nat, 1%nat. split; [reflexivity|]. pose proof (facts_of _ _ _ _ _ _ _ _ B F) as X.
  assert (Hi : (0 < ax0 (values bt3))%nat) by (vm_compute; lia).
  destruct (C63_bracket _ _ _ _ _ 0 0 0 B Hi ltac:(lia) C) as (m & K & _).
  destruct (C63_parameters _ _ _ _ _ _ _ _ 0 0 0 m B F Hi ltac:(lia) C K) as (a & b & Ea & Eb & P0 & P1).
  destruct (proj1 C 0%nat m) as (_ & Pm); [destruct K; lia|]. apply rv_pos in Pm. rewrite P0 in Pm. pose proof (exp_pos (b * rv (closed_at bt3 bk 0 0 m))) as Q. assert (0 < a) by nra.
  rewrite (bf_two _ _ _ _ _ _ _ X eq_refl 0 0 1) by (auto; lia). rewrite Ea, Eb, (closed_cell_level bt3 bu3 2 bk 0 C) by lia. cbn [Nat.add Nat.eqb rmul r_of option_map rexp nzr].
  pose proof (exp_pos (rv (closed_level bt3 bu3 2 bk 0 0 0) * b)). assert (0 < exp (rv (closed_level bt3 bu3 2 bk 0 0 0) * b) * a) by nra. lra.
Qed.
Print Assumptions C63_two_ages_refuted.
(** Open claims without an outstanding amount are not brought to the latest average outstanding amount of the age. *)
Definition bt4 := btri 3
  [ [[Some 10; Some 30; Some 60]; [Some 40; Some 100; None]; [Some 30; None; None]];
    [[Some 10; Some 42; Some 62]; [Some 72; Some 124; None]; [Some 50; None; None]];
    [[Some 8; Some 9; Some 9]; [Some 14; Some 18; None]; [Some 9; None; None]];
    [[Some 2; Some 5; Some 9]; [Some 6; Some 12; None]; [Some 4; None; None]] ]%Z.
Theorem C63_zero_case_refuted : exists nm t ult n k pw rate r, berq_input nm t ult n k /\ closing t n k 0 /\ power_like pw /\ berq_fit pw rate nm t ult = Ok r /\
  exists o d, (o + d < n)%nat /\ open_at t k 0 o d <> 0%Qc /\ has_case t k 0 (n - 1 - d) d /\
    adjusted r 0 (ci k) o d <> rv (paid_at t k 0 o d + level_case t n k 0 pw rate o d * open_at t k 0 o d)%Qc.
Proof.
  assert (B : berq_input bnm bt4 bu1 3 bk) by binput. assert (C : closing bt4 3 bk 0) by (apply by_closingb; vm_compute; reflexivity).
  destruct (C63_fits bnm years 0%Qc bt4 bu1 3 bk B) as (r & F). exists bnm, bt4, bu1, 3%nat, bk, years, 0%Qc, r. split; [exact B|]. split; [exact C|]. split; [exact C59_power|]. split; [exact F|].
  exists 0%nat, 0%nat. split; [lia|]. split; [discriminate|]. split; [apply by_has_caseb; vm_compute; reflexivity|].
  rewrite (C63_no_case _ _ _ _ _ _ _ _ 0 0 0 B F) by (try (vm_compute; lia); intros [(_ & H) _]; apply H; apply Qc_is_canon; vm_compute; reflexivity).
  assert (E : (paid_at bt4 bk 0 0 0 + level_case bt4 3 bk 0 years 0 0 0 * open_at bt4 bk 0 0 0)%Qc = qc 34) by (apply Qc_is_canon; vm_compute; reflexivity). rewrite E.
  assert (E' : paid_at bt4 bk 0 0 0 = qc 10) by (apply Qc_is_canon; vm_compute; reflexivity). rewrite E'. intros H. assert (L : (qc 10 < qc 34)%Qc) by reflexivity. apply rv_lt in L. lra.
Qed.
Print Assumptions C63_zero_case_refuted.
(** An outstanding amount of the latest diagonal without open claims is lost. *)
Theorem C63_latest_refuted : exists nm t ult n k pw rate r, berq_input nm t ult n k /\ closing t n k 0 /\ power_like pw /\ (3 <= n)%nat /\ berq_fit pw rate nm t ult = Ok r /\
  exists o d, (o + d = n - 1)%nat /\ adjusted r 0 (ci k) o d <> rv (amount t 0 (ci k) o d).
Proof.
  assert (B : berq_input bnm bt4 bu1 3 bk) by binput. assert (C : closing bt4 3 bk 0) by (apply by_closingb; vm_compute; reflexivity).
  destruct (C63_fits bnm years 0%Qc bt4 bu1 3 bk B) as (r & F). exists bnm, bt4, bu1, 3%nat, bk, years, 0%Qc, r. split; [exact B|]. split; [exact C|]. split; [exact C59_power|]. split; [lia|]. split; [exact F|].
  exists 0%nat, 2%nat. split; [reflexivity|].
  rewrite (C63_no_case _ _ _ _ _ _ _ _ 0 0 2 B F) by (try (vm_compute; lia); intros [(H & _) _]; apply H; apply Qc_is_canon; vm_compute; reflexivity).
  assert (E' : paid_at bt4 bk 0 0 2 = qc 60) by (apply Qc_is_canon; vm_compute; reflexivity). rewrite E'. assert (E : amount bt4 0 (ci bk) 0 2 = qc 62) by (apply Qc_is_canon; vm_compute; reflexivity). rewrite E.
  intros H. assert (L : (qc 60 < qc 62)%Qc) by reflexivity. apply rv_lt in L. lra.
Qed.
Print Assumptions C63_latest_refuted.
