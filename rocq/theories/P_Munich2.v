(** Proofs about the Munich chain ladder: when the fit succeeds, and the average ratios. *)
From Coq Require Import Lia Lra.
From Verif Require Import Spec TriFacts ArrFacts ConvFacts DevFacts P_Core P_Arith P_Agg P_Align2 P_Select2 P_Corr4 P_Corr5 P_Mack P_Bondy P_Munich1 NumFacts SpecMunich.
Local Open Scope R_scope.

Lemma nodupb_ok l : nodupb l = true <-> NoDup l.
Proof.
  induction l as [|x l IH]; cbn [nodupb]; [split; [constructor|auto]|]. rewrite andb_true_iff, IH, negb_true_iff. split.
  - intros (E & N). constructor; auto. intros H. rewrite <- not_true_iff_false in E. apply E. apply existsb_exists. exists x. split; auto. apply Nat.eqb_refl.
  - intros N. inversion N; subst. split; auto. apply not_true_iff_false. intros E. apply existsb_exists in E. destruct E as (y & Hy & Ey). apply Nat.eqb_eq in Ey. subst. contradiction.
Qed.
Definition pair_pos (t : tri) (x : string * string) : result (nat * nat) := do p <- find_str (fst x) (vdims t); do q <- find_str (snd x) (vdims t); Ok (p, q).
Lemma find_str_err a l : ~ In a l -> find_str a l = Err ValueError.
Proof. induction l as [|x l IH]; intros H; auto. cbn [find_str]. destruct (String.eqb_spec a x) as [->|]; [destruct H; left; auto|]. rewrite IH by (intros I; apply H; right; auto). reflexivity. Qed.
Lemma find_str_some a l p : find_str a l = Ok p -> nth_error l p = Some a.
Proof.
  revert p. induction l as [|x l IH]; intros p H; [discriminate H|]. cbn [find_str] in H. destruct (String.eqb_spec a x) as [->|].
  - injection H as <-. reflexivity.
  - destruct (find_str a l) as [k|]; [|discriminate H]. injection H as <-. cbn. apply IH. reflexivity.
Qed.
Lemma pair_pos_ok t x p q : pair_pos t x = Ok (p, q) -> nth_error (vdims t) p = Some (fst x) /\ nth_error (vdims t) q = Some (snd x).
Proof.
  unfold pair_pos. destruct (find_str (fst x) (vdims t)) as [a|] eqn:Ea; [|discriminate]. destruct (find_str (snd x) (vdims t)) as [b|] eqn:Eb; [|discriminate].
  cbn. intros H. injection H as <- <-. split; apply find_str_some; auto.
Qed.
Lemma pairs_pos t names pairs : mapm (pair_pos t) names = Ok pairs ->
  List.length pairs = List.length names /\ forall v p q, nth_error pairs v = Some (p, q) -> pair_at t names v p q.
Proof.
  intros H. destruct (mapm_inv _ _ _ H) as (L & V). split; auto. intros v p q E.
  assert (Lv : (v < List.length names)%nat) by (rewrite <- L; apply nth_error_Some; congruence).
  specialize (V v (EmptyString, EmptyString) (0, 0)%nat Lv). rewrite (nth_error_nth _ _ (0, 0)%nat E) in V.
  apply pair_pos_ok in V. destruct (nth v names (EmptyString, EmptyString)) as [a b] eqn:En. exists a, b. split; auto. rewrite (nth_error_nth' _ (EmptyString, EmptyString) Lv), En. reflexivity.
Qed.
Lemma pairs_pos_fun t names pairs v p q : NoDup (vdims t) -> mapm (pair_pos t) names = Ok pairs -> pair_at t names v p q -> nth_error pairs v = Some (p, q).
Proof.
  intros N H (a & b & En & Ep & Eq). destruct (mapm_inv _ _ _ H) as (L & V). assert (Lv : (v < List.length names)%nat) by (apply nth_error_Some; congruence).
  specialize (V v (EmptyString, EmptyString) (0, 0)%nat Lv). rewrite (nth_error_nth _ _ (EmptyString, EmptyString) En) in V.
  unfold pair_pos in V. cbn [fst snd] in V. rewrite (find_str_at _ _ _ N Ep), (find_str_at _ _ _ N Eq) in V. cbn [rbind] in V.
  rewrite (nth_error_nth' pairs (0, 0)%nat) by lia. congruence.
Qed.
Lemma pair_at_fun t names v v' p q p' q' : NoDup (map fst names) -> NoDup (map snd names) -> pair_at t names v p q -> pair_at t names v' p' q' -> (p = p' -> v = v') /\ (q = q' -> v = v').
Proof.
  intros N1 N2 (a & b & En & Ep & Eq) (a' & b' & En' & Ep' & Eq'). split; intros <-.
  - rewrite Ep in Ep'. injection Ep' as <-. rewrite NoDup_nth_error in N1. assert (F1 := map_nth_error fst v names En). assert (F2 := map_nth_error fst v' names En'). cbn [fst snd] in F1, F2. apply N1; [apply nth_error_Some|]; congruence.
  - rewrite Eq in Eq'. injection Eq' as <-. rewrite NoDup_nth_error in N2. assert (F1 := map_nth_error snd v names En). assert (F2 := map_nth_error snd v' names En'). cbn [fst snd] in F1, F2. apply N2; [apply nth_error_Some|]; congruence.
Qed.

Definition observed_zero (t : tri) : bool := let a := values t in
  existsb (fun i => existsb (fun c => existsb (fun o => existsb (fun d =>
         negb (is_nan (nan_triangle t o d)) && Qc_eqb (nz (cel t i c o d)) 0%Qc) (seq 0 (ax3 a))) (seq 0 (ax2 a))) (seq 0 (ax1 a))) (seq 0 (ax0 a)).
Lemma observed_zero_iff t : observed_zero t = true <-> exists i c o d, in_range t i c o d /\ is_nan (nan_triangle t o d) = false /\ amount t i c o d = 0%Qc.
Proof.
  unfold observed_zero. split.
  - intros H. apply existsb_exists in H. destruct H as (i & Hi & H). apply existsb_exists in H. destruct H as (c & Hc & H).
    apply existsb_exists in H. destruct H as (o & Ho & H). apply existsb_exists in H. destruct H as (d & Hd & H). apply in_seq in Hi, Hc, Ho, Hd.
    apply andb_true_iff in H. destruct H as (H1 & H2). apply negb_true_iff in H1. exists i, c, o, d. split; [repeat split; lia|]. split; auto.
    unfold amount. destruct (Qc_eqb_spec (nz (cel t i c o d)) 0%Qc); auto. discriminate.
  - intros (i & c & o & d & (Ri & Rc & Ro & Rd) & H1 & H2). apply existsb_exists. exists i. split; [apply in_seq; lia|]. apply existsb_exists. exists c. split; [apply in_seq; lia|].
    apply existsb_exists. exists o. split; [apply in_seq; lia|]. apply existsb_exists. exists d. split; [apply in_seq; lia|].
    rewrite H1. cbn [negb andb]. unfold amount in H2. rewrite H2. reflexivity.
Qed.

Definition mu_frame (t ldf lr : tri) : tri :=
  set_vdate (set_cumulative (set_pattern (set_dims (set_values ldf (Arr (ax0 (values t)) (ax1 (values t)) (ax2 (values t)) (ax3 (values ldf)) (fun _ _ _ _ => None))) (kdims ldf) (vdims ldf) (odims t) (ddims lr)) true) (Some false)) ULT_VAL.
Definition mu_acc (how : interpolation) (t lr ldf df : tri) (sigma : rrow) (pairs : list (nat * nat)) (i c o d : nat) : option R :=
  let full i v o d := let x := nth v pairs (0, 0)%nat in mu_full how t ldf sigma (mu_lambda how t lr ldf df sigma i (fst x) (snd x)) i (fst x) (snd x) o d in
  let n := ax3 (values ldf) in
      match last_pair (fun x => (snd x =? c)%nat) 0 pairs with
      | Some v => rdiv (snd (full i v o n)) (snd (full i v o d))
      | None => match last_pair (fun x => (fst x =? c)%nat) 0 pairs with
                | Some v => rdiv (fst (full i v o n)) (fst (full i v o d))
                | None => r_of (cel (incr_to_cum ldf) i c 0 d) end end.
Definition mu_result (how : interpolation) (t lr ldf df : tri) (sigma : rrow) (pairs : list (nat * nat)) : munich :=
  MU pairs
    (fun i v d => let x := nth v pairs (0, 0)%nat in (mu_q t i (fst x) (snd x) d, mu_q t i (snd x) (fst x) d))
    (fun i v d => let x := nth v pairs (0, 0)%nat in (mu_rho how t i (fst x) (snd x) d, mu_rho how t i (snd x) (fst x) d))
    (fun i v => let x := nth v pairs (0, 0)%nat in mu_lambda how t lr ldf df sigma i (fst x) (snd x))
    (fun i v o d => let x := nth v pairs (0, 0)%nat in mu_full how t ldf sigma (mu_lambda how t lr ldf df sigma i (fst x) (snd x)) i (fst x) (snd x) o d)
    (RTri (mu_frame t ldf lr) (fun i c o d => mu_factor (ax3 (values ldf)) (mu_acc how t lr ldf df sigma pairs i c o) d)).
Definition covered (pairs : list (nat * nat)) : bool :=
  let used := nodup Nat.eq_dec (flat_map (fun x => [fst x; snd x]) pairs) in forallb (fun k => existsb (Nat.eqb k) used) (seq 0 (List.length used)).

Lemma munich_inv how names t ldf sigma m : munich_fit how (Some names) t ldf sigma = Ok m ->
  observed_zero t = false /\ exists pairs lr l df, mapm (pair_pos t) names = Ok pairs /\ pairs <> [] /\ NoDup (map fst pairs) /\ NoDup (map snd pairs) /\
    link_ratio t = Ok lr /\ getitem_valuation t (fun o d => valuation t o d =? vdate t)%Z = Ok l /\ tri_op OSub t l = Ok df /\
    S (ax2 (values lr)) = ax2 (values t) /\ S (ax3 (values lr)) = ax3 (values t) /\ ax2 (values ldf) = 1%nat /\ S (ax3 (values ldf)) = ax3 (values t) /\
    covered pairs = true /\ m = mu_result how t lr ldf df sigma pairs.
Proof.
  unfold munich_fit. fold (observed_zero t). destruct (observed_zero t) eqn:Ez; [discriminate|]. intros H. split; auto.
  change (mapm (fun x : string * string => do p <- find_str (fst x) (vdims t); do q <- find_str (snd x) (vdims t); Ok (p, q)) names) with (mapm (pair_pos t) names) in H.
  destruct (mapm (pair_pos t) names) as [pairs|] eqn:Ep; [|discriminate H]. cbn [rbind] in H.
  destruct pairs as [|x0 pr] eqn:Ex; [discriminate H|]. rewrite <- Ex in *.
  destruct (nodupb (map fst pairs)) eqn:N1; [|discriminate H]. destruct (nodupb (map snd pairs)) eqn:N2; [|discriminate H]. cbn [andb negb] in H.
  destruct (link_ratio t) as [lr|] eqn:El; [|discriminate H]. cbn [rbind] in H.
  destruct (getitem_valuation t _) as [l|] eqn:Eg; [|discriminate H]. cbn [rbind] in H.
  destruct (tri_op OSub t l) as [df|] eqn:Ed; [|discriminate H]. cbn [rbind] in H.
  destruct (Nat.eqb_spec (S (ax2 (values lr))) (ax2 (values t))) as [S2|]; [|discriminate H].
  destruct (Nat.eqb_spec (S (ax3 (values lr))) (ax3 (values t))) as [S3|]; [|discriminate H].
  destruct (Nat.eqb_spec (ax2 (values ldf)) 1) as [S4|]; [|discriminate H].
  destruct (Nat.eqb_spec (S (ax3 (values ldf))) (ax3 (values t))) as [S5|]; [|discriminate H]. cbn [andb negb] in H. cbv zeta in H.
  fold (covered pairs) in H. destruct (covered pairs) eqn:Ec; [|discriminate H]. injection H as <-.
  exists pairs, lr, l, df. split; auto. split; [congruence|]. rewrite <- !nodupb_ok. repeat (split; [solve [auto]|]). reflexivity.
Qed.

Lemma positive_complete t : positive t -> complete t.
Proof. intros P i c o d R F E. specialize (P i c o d R F). rewrite E in P. exact (Qclt_not_eq _ _ P eq_refl). Qed.
Lemma square_nan t n o0 a0 h o d : wf t -> square t n o0 a0 h -> (2 <= n)%nat -> (o < n)%nat -> (d < n)%nat -> is_nan (nan_triangle t o d) = negb (o + d <? n)%nat.
Proof.
  intros W Q Hn Ho Hd. pose proof Q as (R & E2 & E3). rewrite nan_triangle_cases; auto; try lia. rewrite E2, E3.
  destruct (Nat.eqb_spec (Nat.min n n) 1); [lia|]. pose proof (square_future _ _ _ _ _ _ _ Q Ho Hd) as F. unfold future in F.
  destruct (Z.ltb_spec (vdate t) (month_of t o d)); destruct (Nat.ltb_spec (o + d) n); auto; lia.
Qed.
Lemma in_used (pairs : list (nat * nat)) c : In c (flat_map (fun x => [fst x; snd x]) pairs) <-> exists v y, nth_error pairs v = Some (c, y) \/ nth_error pairs v = Some (y, c).
Proof.
  rewrite in_flat_map. split.
  - intros ((p & q) & I & [<- | [<- | []]]); apply In_nth_error in I; destruct I as (v & E); exists v; [exists q|exists p]; auto.
  - intros (v & y & [E|E]); apply nth_error_In in E; eexists; (split; [exact E|]); cbn; auto.
Qed.
Lemma covered_down l : NoDup l -> (forall c c', In c l -> (c' < c)%nat -> In c' l) -> forall k, (k < List.length l)%nat -> In k l.
Proof.
  intros N D k Hk. destruct (in_dec Nat.eq_dec k l) as [I|I]; auto. exfalso.
  assert (Inc : incl l (seq 0 k)). { intros c Hc. apply in_seq. destruct (Nat.lt_trichotomy c k) as [L|[->|L]]; [lia|contradiction|]. exfalso. apply I, (D c); auto. }
  apply NoDup_incl_length in Inc; auto. rewrite seq_length in Inc. lia.
Qed.
Lemma covered_iff t names pairs : NoDup (vdims t) -> mapm (pair_pos t) names = Ok pairs ->
  (forall c c', in_pair t names c -> (c' < c)%nat -> in_pair t names c') -> covered pairs = true.
Proof.
  intros U H D. unfold covered. apply forallb_forall. intros k Hk. apply in_seq in Hk. apply existsb_exists. exists k. split; [|apply Nat.eqb_refl].
  assert (Iff : forall c, In c (nodup Nat.eq_dec (flat_map (fun x => [fst x; snd x]) pairs)) <-> in_pair t names c).
  { intros c. rewrite nodup_In, in_used. destruct (pairs_pos _ _ _ H) as (_ & P). split.
    - intros (v & y & [E|E]); exists v, y; [left|right]; apply P; auto.
    - intros (v & y & [E|E]); exists v, y; [left|right]; eapply pairs_pos_fun; eauto. }
  apply covered_down; [apply NoDup_nodup| |lia]. intros c c' Hc L. apply Iff. apply (D c); auto. apply Iff, Hc.
Qed.
Lemma pairs_nodup t names pairs : mapm (pair_pos t) names = Ok pairs -> NoDup (map fst names) -> NoDup (map snd names) -> NoDup (map fst pairs) /\ NoDup (map snd pairs).
Proof.
  intros H N1 N2. destruct (pairs_pos _ _ _ H) as (L & P).
  split; rewrite NoDup_nth_error; intros v v' Hv E; rewrite map_length in Hv.
  - destruct (nth_error pairs v) as [(p, q)|] eqn:Ev; [|apply nth_error_None in Ev; lia]. rewrite (map_nth_error fst _ _ Ev) in E. symmetry in E.
    rewrite nth_error_map in E. destruct (nth_error pairs v') as [(p', q')|] eqn:Ev'; [|discriminate E]. cbn in E. injection E as ->.
    exact (proj1 (pair_at_fun _ _ _ _ _ _ _ _ N1 N2 (P _ _ _ Ev) (P _ _ _ Ev')) eq_refl).
  - destruct (nth_error pairs v) as [(p, q)|] eqn:Ev; [|apply nth_error_None in Ev; lia]. rewrite (map_nth_error snd _ _ Ev) in E. symmetry in E.
    rewrite nth_error_map in E. destruct (nth_error pairs v') as [(p', q')|] eqn:Ev'; [|discriminate E]. cbn in E. injection E as ->.
    exact (proj2 (pair_at_fun _ _ _ _ _ _ _ _ N1 N2 (P _ _ _ Ev) (P _ _ _ Ev')) eq_refl).
Qed.
Lemma no_zero_seen t ldf n : munich_input t ldf n -> observed_zero t = false.
Proof.
  intros M. destruct (mi_square _ _ _ M) as (o0 & a0 & h & Q). pose proof Q as (R & E2 & E3). pose proof (mi_n _ _ _ M).
  apply not_true_iff_false. rewrite observed_zero_iff. intros (i & c & o & d & Rg & Nn & Z). pose proof Rg as (Ri & Rc & Ro & Rd).
  rewrite (square_nan t n o0 a0 h) in Nn by (try apply (mi_wf _ _ _ M); auto; lia). apply negb_false_iff, Nat.ltb_lt in Nn.
  apply (positive_complete _ (mi_pos _ _ _ M) i c o d Rg); auto. rewrite (square_future _ _ _ _ _ _ _ Q) by lia. lia.
Qed.
Lemma munich_fits how t ldf n names sigma : munich_input t ldf n -> pairs_ok t names -> exists m, munich_fit how (Some names) t ldf sigma = Ok m.
Proof.
  intros M P. destruct (mi_square _ _ _ M) as (o0 & a0 & h & Q). pose proof Q as (R & E2 & E3). pose proof (mi_n _ _ _ M) as Hn.
  unfold munich_fit. fold (observed_zero t). rewrite (no_zero_seen _ _ _ M).
  change (mapm (fun x : string * string => do p <- find_str (fst x) (vdims t); do q <- find_str (snd x) (vdims t); Ok (p, q)) names) with (mapm (pair_pos t) names).
  destruct (mapm_fwd (pair_pos t) names) as (pairs & Ep).
  { intros (a & b) I. destruct (po_in _ _ P a b I) as (Ia & Ib). destruct (find_str_In a _ Ia) as (p & Fp & _). destruct (find_str_In b _ Ib) as (q & Fq & _).
    exists (p, q). unfold pair_pos. cbn [fst snd]. rewrite Fp, Fq. reflexivity. }
  rewrite Ep. cbn [rbind]. destruct (pairs_pos _ _ _ Ep) as (L & _).
  assert (Ne : pairs <> []) by (intros ->; destruct names; [exact (po_some _ _ P eq_refl)|discriminate L]).
  destruct pairs as [|x0 pr] eqn:Ex; [contradiction|]. rewrite <- Ex in *.
  destruct (pairs_nodup _ _ _ Ep (po_paid _ _ P) (po_incurred _ _ P)) as (N1 & N2). apply nodupb_ok in N1, N2. rewrite N1, N2. cbn [andb negb].
  pose proof (mi_wf _ _ _ M) as W. pose proof (mi_blank _ _ _ M) as B. pose proof (positive_complete _ (mi_pos _ _ _ M)) as Cm.
  destruct (square_links t n o0 a0 h W B (mi_plain _ _ _ M) Q Cm ltac:(lia)) as (lr & El & _ & _ & _ & _ & _ & L3 & _).
  destruct (square_link_rows t n o0 a0 h W B (mi_plain _ _ _ M) Q Hn) as (lr' & El' & L2). assert (lr' = lr) by congruence. subst lr'. rewrite El. cbn [rbind].
  destruct (less_latest t n o0 a0 h W B Q Cm ltac:(lia)) as (l & df & -> & Ed & _). cbn [rbind]. rewrite Ed. cbn [rbind].
  destruct (mi_ldf _ _ _ M) as (F2 & F3). rewrite L2, L3, F2, F3, E2, E3. replace (S (n - 1)) with n by lia. rewrite !Nat.eqb_refl. cbn [andb negb]. cbv zeta. fold (covered pairs).
  rewrite (covered_iff t names pairs (mi_names _ _ _ M) Ep (po_first _ _ P)). eexists. reflexivity.
Qed.

(** * Average ratios *)
Lemma n2n_nz x : x <> 0%Qc -> n2n (Some x) = Some x.
Proof. intros H. cbn [n2n]. destruct (Qc_eqb_spec x 0%Qc); auto. contradiction. Qed.
Lemma rmul_zero_nz x : nzr (rmul x (Some 0)) = 0.
Proof. destruct x; cbn; lra. Qed.
Lemma rv_div a b : b <> 0%Qc -> rv (a / b)%Qc = rv a / rv b.
Proof. intros H. unfold Qcdiv, Rdiv. rewrite rv_mult, rv_inv by auto. reflexivity. Qed.
Lemma sumn_known n k (f : nat -> Qc) : (k <= n)%nat -> (forall o, (k <= o < n)%nat -> f o = 0%Qc) -> sumn n f = sumn k f.
Proof. intros H Z. induction H as [|m H IH]; auto. cbn [sumn]. rewrite Z by lia. rewrite IH by (intros; apply Z; lia). ring. Qed.
Lemma sumn_all_pos k (f : nat -> Qc) : (0 < k)%nat -> (forall o, (o < k)%nat -> (0 < f o)%Qc) -> (0 < sumn k f)%Qc.
Proof.
  induction k as [|k IH]; intros H P; [lia|]. cbn [sumn]. destruct k as [|k]; [cbn [sumn]; specialize (P 0%nat ltac:(lia)); replace (0 + f 0%nat)%Qc with (f 0%nat) by ring; exact P|].
  specialize (IH ltac:(lia) (fun o Ho => P o ltac:(lia))). specialize (P (S k) ltac:(lia)). qlra.
Qed.
Section Ratio.
Variables (t ldf : tri) (n i : nat).
Hypothesis M : munich_input t ldf n.
Hypothesis Hi : (i < ax0 (values t))%nat.
Lemma cell_known c o d : (c < ax1 (values t))%nat -> (o < n)%nat -> (d < n)%nat ->
  cel t i c o d = if (o + d <? n)%nat then Some (amount t i c o d) else None.
Proof.
  intros Hc Ho Hd. destruct (mi_square _ _ _ M) as (o0 & a0 & h & Q). pose proof Q as (R & E2 & E3). pose proof (mi_n _ _ _ M) as Hn.
  destruct (Nat.ltb_spec (o + d) n) as [L|L].
  - assert (P : (0 < amount t i c o d)%Qc) by (apply (mi_pos _ _ _ M); [repeat split; lia|]; rewrite (square_future _ _ _ _ _ _ _ Q) by lia; lia).
    unfold amount in *. destruct (cel t i c o d); auto. exfalso. exact (Qclt_not_eq _ _ P eq_refl).
  - apply (mi_blank _ _ _ M); [repeat split; lia|]. rewrite (square_future _ _ _ _ _ _ _ Q) by lia. lia.
Qed.
Lemma amount_pos c o d : (c < ax1 (values t))%nat -> (o + d < n)%nat -> (0 < amount t i c o d)%Qc.
Proof.
  intros Hc L. destruct (mi_square _ _ _ M) as (o0 & a0 & h & Q). pose proof Q as (R & E2 & E3).
  apply (mi_pos _ _ _ M); [repeat split; lia|]. rewrite (square_future _ _ _ _ _ _ _ Q) by lia. lia.
Qed.
Lemma amount_nz c o d : (c < ax1 (values t))%nat -> (o + d < n)%nat -> amount t i c o d <> 0%Qc.
Proof. intros Hc L E. pose proof (amount_pos c o d Hc L) as P. rewrite E in P. exact (Qclt_not_eq _ _ P eq_refl). Qed.
Definition qtotal (c d : nat) : Qc := sumn (n - d) (fun o => amount t i c o d).
Lemma qtotal_pos c d : (c < ax1 (values t))%nat -> (d < n)%nat -> (0 < qtotal c d)%Qc.
Proof. intros Hc Hd. apply sumn_all_pos; [lia|]. intros o Ho. apply amount_pos; auto; lia. Qed.
Lemma qtotal_nz c d : (c < ax1 (values t))%nat -> (d < n)%nat -> qtotal c d <> 0%Qc.
Proof. intros Hc Hd E. pose proof (qtotal_pos c d Hc Hd) as P. rewrite E in P. exact (Qclt_not_eq _ _ P eq_refl). Qed.
Lemma total_rv c d : total t n i c d = rv (qtotal c d).
Proof. unfold total, qtotal. rewrite rv_sumn. reflexivity. Qed.
Lemma total_pos c d : (c < ax1 (values t))%nat -> (d < n)%nat -> 0 < total t n i c d.
Proof. intros. rewrite total_rv. apply rv_pos, qtotal_pos; auto. Qed.

Lemma rv_qn k : rv (qn k) = INR k.
Proof. induction k as [|k IH]; [exact rv_0|]. rewrite qn_S, rv_plus, rv_1, IH, S_INR. reflexivity. Qed.
Lemma sumn_ones k : sumn k (fun _ => 1%Qc) = qn k.
Proof. induction k as [|k IH]; [reflexivity|]. cbn [sumn]. rewrite IH, qn_S. reflexivity. Qed.
Variables (p q : nat).
Hypothesis Hp : (p < ax1 (values t))%nat.
Hypothesis Hq : (q < ax1 (values t))%nat.
Lemma ratio_reg_at d : (d < n)%nat -> mu_q t i p q d = Some (qtotal q d / qtotal p d)%Qc /\
  av (wls_mse (ratio_reg t i p q)) 0%nat 0%nat 0%nat d =
    cdiv (Some (sumn (n - d) (fun o => 1 / amount t i p o d * ((amount t i q o d - qtotal q d / qtotal p d * amount t i p o d) * (amount t i q o d - qtotal q d / qtotal p d * amount t i p o d)))%Qc))
         (n2n (Some (qn (n - d) - 1)%Qc)).
Proof.
  intros Hd. destruct (mi_square _ _ _ M) as (o0 & a0 & h & Q). pose proof Q as (R & E2 & E3). unfold mu_q, ratio_reg.
  set (x := one_column t i p). set (y := one_column t i q). set (w := map_arr (fun x => cdiv (Some 1%Qc) x) x).
  destruct (thru_orig_ok x y w 1 1 n n) as (r & -> & _ & _ & _ & F); [unfold dims; cbn; auto..|].
  destruct (F 0%nat 0%nat d ltac:(lia) ltac:(lia) Hd) as (Sl & _ & Ms). clear F.
  assert (Zero : forall o, (n - d <= o < n)%nat -> cel t i p o d = None /\ cel t i q o d = None).
  { intros o Ho. rewrite !cell_known by (auto; lia). destruct (Nat.ltb_spec (o + d) n); [lia|auto]. }
  assert (Seen : forall o, (o < n - d)%nat -> cel t i p o d = Some (amount t i p o d) /\ cel t i q o d = Some (amount t i q o d)).
  { intros o Ho. rewrite !cell_known by (auto; lia). destruct (Nat.ltb_spec (o + d) n); [auto|lia]. }
  assert (Wd : forall o, (o < n - d)%nat -> cdiv (Some 1%Qc) (Some (amount t i p o d)) = Some (1 / amount t i p o d)%Qc).
  { intros o Ho. cbn [cdiv]. destruct (Qc_eqb_spec (amount t i p o d) 0%Qc); auto. exfalso. apply (amount_nz p o d); auto; lia. }
  assert (EN : sumn n (fun o => nz (cmul (cmul (av w 0 0 o d) (av x 0 0 o d)) (av y 0 0 o d)))%nat = qtotal q d).
  { rewrite (sumn_known n (n - d)); [|lia|].
    - apply sumn_ext. intros o Ho. cbn [w x y map_arr one_column av]. destruct (Seen o Ho) as (-> & ->). rewrite Wd by auto. cbn [cmul nz].
      assert (amount t i p o d <> 0%Qc) by (apply amount_nz; auto; lia). field. auto.
    - intros o Ho. cbn [w x y map_arr one_column av]. destruct (Zero o Ho) as (-> & ->). reflexivity. }
  assert (ED : sumn n (fun o => nz (cmul (cmul (cmul (av w 0 0 o d) (av x 0 0 o d)) (av x 0 0 o d)) (known (av y 0 0 o d))))%nat = qtotal p d).
  { rewrite (sumn_known n (n - d)); [|lia|].
    - apply sumn_ext. intros o Ho. cbn [w x y map_arr one_column av]. destruct (Seen o Ho) as (-> & ->). rewrite Wd by auto. cbn [cmul nz known cadd].
      assert (amount t i p o d <> 0%Qc) by (apply amount_nz; auto; lia). field. auto.
    - intros o Ho. cbn [w x y map_arr one_column av]. destruct (Zero o Ho) as (-> & ->). reflexivity. }
  rewrite EN, ED in Sl, Ms. rewrite !n2n_nz in Sl, Ms by (apply qtotal_nz; auto).
  assert (Cf : cdiv (Some (qtotal q d)) (Some (qtotal p d)) = Some (qtotal q d / qtotal p d)%Qc).
  { cbn [cdiv]. destruct (Qc_eqb_spec (qtotal p d) 0%Qc); auto. exfalso. apply (qtotal_nz p d); auto. }
  rewrite Cf in Sl, Ms. split; [exact Sl|]. rewrite Ms. f_equal; f_equal.
  - rewrite (sumn_known n (n - d)); [|lia|].
    + apply sumn_ext. intros o Ho. cbn [w x y map_arr one_column av]. destruct (Seen o Ho) as (-> & ->). rewrite Wd by auto. cbn [cmul csub known cadd sq_resid].
      pose proof (amount_pos p o d Hp ltac:(lia)) as P.
      assert (P1 : (0 < 1 / amount t i p o d)%Qc) by (unfold Qcdiv; rewrite Qcmult_1_l; apply Qcinv_pos; exact P).
      destruct (Qc_ltb_spec (1 / amount t i p o d) 0%Qc) as [L|L]; [exfalso; qlra|]. cbn [nz]. ring.
    + intros o Ho. cbn [w x y map_arr one_column av]. destruct (Zero o Ho) as (-> & ->). reflexivity.
  - f_equal. f_equal. rewrite (sumn_known n (n - d)); [|lia|].
    + rewrite <- sumn_ones. apply sumn_ext. intros o Ho. cbn [w x y map_arr one_column av]. destruct (Seen o Ho) as (-> & ->). rewrite Wd by auto. cbn [known cmul cadd nonzero_flag nz].
      destruct (Qc_eqb_spec (1 / amount t i p o d) 0%Qc) as [E|E]; [|cbn; ring]. exfalso.
      assert (Nz : amount t i p o d <> 0%Qc) by (apply amount_nz; auto; lia). assert (1 = 0)%Qc; [|discriminate].
      transitivity (1 / amount t i p o d * amount t i p o d)%Qc; [field; auto|rewrite E; ring].
    + intros o Ho. cbn [w x y map_arr one_column av]. destruct (Zero o Ho) as (-> & ->). reflexivity.
Qed.
Lemma q_at d : (d < n)%nat -> r_of (mu_q t i p q d) = Some (avg_ratio t n i p q d).
Proof. intros Hd. rewrite (proj1 (ratio_reg_at d Hd)). cbn [r_of option_map]. unfold avg_ratio. rewrite !total_rv, rv_div by (apply qtotal_nz; auto). reflexivity. Qed.
Lemma sigma_at d : (S d < n)%nat -> sigma_raw (ratio_reg t i p q) 0%nat 0%nat d = Some (ratio_spread t n i p q d).
Proof.
  intros Hd. unfold sigma_raw. rewrite (proj2 (ratio_reg_at d ltac:(lia))).
  set (SS := sumn _ _). assert (Q1 : (qn (n - d) - 1)%Qc = qn (n - d - 1)). { replace (n - d)%nat with (S (n - d - 1)) at 1 by lia. rewrite qn_S. ring. }
  rewrite Q1, n2n_nz by (apply qn_ne; lia). cbn [cdiv]. destruct (Qc_eqb_spec (qn (n - d - 1)) 0%Qc) as [E|_]; [exfalso; revert E; apply qn_ne; lia|].
  cbn [r_of option_map rsqrt]. rewrite rv_div, rv_qn by (apply qn_ne; lia).
  assert (ES : rv SS = rsumn (n - d) (fun o => rv (amount t i p o d) * (one_ratio t i p q o d - avg_ratio t n i p q d) ^ 2)).
  { unfold SS. rewrite rv_sumn. apply rsumn_ext. intros o Ho. unfold one_ratio, avg_ratio. rewrite !total_rv.
    assert (Np : amount t i p o d <> 0%Qc) by (apply amount_nz; auto; lia).
    rewrite !rv_mult, !rv_minus, !rv_mult, !rv_div, rv_1 by (auto; apply qtotal_nz; auto; lia).
    assert (rv (amount t i p o d) <> 0) by (intros E; apply rv_eq0 in E; auto).
    assert (rv (qtotal p d) <> 0) by (intros E; apply rv_eq0 in E; revert E; apply qtotal_nz; auto; lia). field. auto. }
  rewrite ES. destruct (Rlt_dec _ 0) as [L|_]; [exfalso|reflexivity]. apply Rlt_not_le in L. apply L.
  apply Rmult_le_pos; [|left; apply Rinv_0_lt_compat, lt_0_INR; lia]. apply rsumn_nonneg. intros o Ho. apply Rmult_le_pos; [|apply pow2_ge_0].
  left. apply rv_pos, amount_pos; auto; lia.
Qed.
Lemma rho_at how d : (S d < n)%nat -> ratio_spread t n i p q d <> 0 -> mu_rho how t i p q d = Some (ratio_spread t n i p q d).
Proof.
  intros Hd Nz. unfold mu_rho. pose proof (sigma_at d Hd) as E. destruct how.
  - unfold loglinear. rewrite E. cbn [option_map present nzr]. rewrite Rminus_diag_eq by reflexivity. rewrite rmul_zero_nz, Rplus_0_r. cbn [rn2n]. destruct (Req_EM_T _ 0); [contradiction|reflexivity].
  - unfold mack_fill. rewrite E. cbn [option_map present nzr]. unfold no_zero. destruct (Req_EM_T (ratio_spread t n i p q d) 0); [contradiction|].
    rewrite Rminus_diag_eq by reflexivity. rewrite Rmult_0_r, Rplus_0_r. cbn [rn2n]. destruct (Req_EM_T _ 0); [contradiction|reflexivity].
Qed.
Lemma rho_none d : (S d < n)%nat -> ratio_spread t n i p q d = 0 -> mu_rho LogLinear t i p q d = None.
Proof.
  intros Hd Nz. unfold mu_rho. pose proof (sigma_at d Hd) as E. unfold loglinear. rewrite E, Nz. cbn [option_map present nzr]. rewrite Rminus_diag_eq by reflexivity.
  rewrite rmul_zero_nz, Rplus_0_r. cbn [rn2n]. destruct (Req_EM_T 0 0); [reflexivity|contradiction].
Qed.
End Ratio.
