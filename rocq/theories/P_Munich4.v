(** Proofs about the Munich chain ladder: the completed triangle and its factors. *)
From Coq Require Import Lia Lra.
From Verif Require Import Spec TriFacts ArrFacts ConvFacts P_Core P_Mack P_Bondy P_Corr4 P_Corr5 P_Munich1 P_Munich2 P_Munich3 NumFacts SpecMunich.
Local Open Scope R_scope.

(** What a fit returns for one pair. *)
Record fitted (how : interpolation) (t lr ldf df : tri) (sigma : rrow) (n v p q : nat) (m : munich) : Prop := {
  ft_p : (p < ax1 (values t))%nat; ft_q : (q < ax1 (values t))%nat;
  ft_pair : nth_error (mu_pairs m) v = Some (p, q);
  ft_first : NoDup (map fst (mu_pairs m)); ft_second : NoDup (map snd (mu_pairs m));
  ft_m : m = mu_result how t lr ldf df sigma (mu_pairs m);
  ft_lrd : ddims lr = dmap (firstn (n - 1)) (ddims t);
  ft_lr : forall i c o d, (i < ax0 (values t))%nat -> (c < ax1 (values t))%nat -> (o < n - 1)%nat -> (d < n - 1)%nat -> cel lr i c o d = if (o + d <? n - 1)%nat then Some (SpecCorr.ratio t i c o d) else None;
  ft_df : forall i c o d, (i < ax0 (values t))%nat -> (c < ax1 (values t))%nat -> (o < n)%nat -> (d < n)%nat -> cel df i c o d = if (o + d <? n - 1)%nat then Some (amount t i c o d) else None }.
Lemma fit_facts how t ldf n names sigma m v p q : munich_input t ldf n -> munich_fit how (Some names) t ldf sigma = Ok m -> pair_at t names v p q ->
  exists lr df, fitted how t lr ldf df sigma n v p q m.
Proof.
  intros M F P. destruct (munich_inv _ _ _ _ _ _ F) as (_ & pairs & lr & l & df & Ep & Ne & N1 & N2 & El & Eg & Ed & S2 & S3 & S4 & S5 & Cv & Em).
  destruct (mi_square _ _ _ M) as (o0 & a0 & h & Q). pose proof Q as (R & E2 & E3). pose proof (mi_n _ _ _ M) as Hn. pose proof (mi_wf _ _ _ M) as W.
  assert (Pm : mu_pairs m = pairs) by (rewrite Em; reflexivity).
  exists lr, df. constructor; rewrite ?Pm; auto.
  - destruct P as (a & b & _ & E & _). rewrite (wf_v _ W). apply nth_error_Some. congruence.
  - destruct P as (a & b & _ & _ & E). rewrite (wf_v _ W). apply nth_error_Some. congruence.
  - eapply pairs_pos_fun; eauto. apply (mi_names _ _ _ M).
  - assert (Ex : exists o d, (o < ax2 (values t))%nat /\ (S d < ax3 (values t))%nat /\ (month_of t o (S d) <= vdate t)%Z).
    { exists 0%nat, 0%nat. split; [lia|]. split; [lia|]. assert (~ future t 0 1) by (rewrite (square_future _ _ _ _ _ _ _ Q) by lia; lia). unfold future in *. lia. }
    destruct (link_ratio_ok t W (mi_blank _ _ _ M) (mi_plain _ _ _ M) Ex) as (u & no & nd & Eu & _ & _ & _ & Dd & _ & _ & _ & _ & _ & D3 & _).
    assert (u = lr) by congruence. subst u. rewrite Dd. replace nd with (n - 1)%nat by lia. reflexivity.
  - intros i c o d Hi Hc Ho Hd.
    destruct (square_links t n o0 a0 h W (mi_blank _ _ _ M) (mi_plain _ _ _ M) Q (positive_complete _ (mi_pos _ _ _ M)) ltac:(lia)) as (u & Eu & _ & _ & U0 & U1 & _ & U3 & C).
    assert (u = lr) by congruence. subst u. apply C. repeat split; lia.
  - destruct (less_latest t n o0 a0 h W (mi_blank _ _ _ M) Q (positive_complete _ (mi_pos _ _ _ M)) ltac:(lia)) as (l' & u & El' & Eu & C).
    assert (l' = l) by congruence. subst l'. assert (u = df) by congruence. subst u. exact C.
Qed.

Section Fit.
Variables (how : interpolation) (t lr ldf df : tri) (sigma : rrow) (n v p q : nat) (m : munich) (i : nat).
Hypothesis M : munich_input t ldf n.
Hypothesis F : fitted how t lr ldf df sigma n v p q m.
Hypothesis Hi : (i < ax0 (values t))%nat.
Let Hp := ft_p _ _ _ _ _ _ _ _ _ _ _ F.
Let Hq := ft_q _ _ _ _ _ _ _ _ _ _ _ F.
Lemma nth_pair : nth v (mu_pairs m) (0, 0)%nat = (p, q).
Proof. exact (nth_error_nth _ _ (0, 0)%nat (ft_pair _ _ _ _ _ _ _ _ _ _ _ F)). Qed.
Lemma qf_eq d : mu_qf m i v d = (mu_q t i p q d, mu_q t i q p d).
Proof. rewrite (ft_m _ _ _ _ _ _ _ _ _ _ _ F). cbn [mu_result mu_qf]. rewrite nth_pair. reflexivity. Qed.
Lemma rhos_eq d : mu_rhos m i v d = (mu_rho how t i p q d, mu_rho how t i q p d).
Proof. rewrite (ft_m _ _ _ _ _ _ _ _ _ _ _ F). cbn [mu_result mu_rhos]. rewrite nth_pair. reflexivity. Qed.
Lemma lam_eq : mu_lam m i v = mu_lambda how t lr ldf df sigma i p q.
Proof. rewrite (ft_m _ _ _ _ _ _ _ _ _ _ _ F). cbn [mu_result mu_lam]. rewrite nth_pair. reflexivity. Qed.
Lemma tri_eq o d : mu_tri m i v o d = mu_full how t ldf sigma (mu_lam m i v) i p q o d.
Proof. rewrite lam_eq. rewrite (ft_m _ _ _ _ _ _ _ _ _ _ _ F). cbn [mu_result mu_tri]. rewrite nth_pair. reflexivity. Qed.

Lemma fit_ratios d : (d < n)%nat -> exists x y, mu_qf m i v d = (Some x, Some y) /\ rv x = avg_ratio t n i p q d /\ rv y = avg_ratio t n i q p d.
Proof.
  intros Hd. rewrite qf_eq. pose proof (q_at t ldf n i M Hi p q Hp Hq d Hd) as A. pose proof (q_at t ldf n i M Hi q p Hq Hp d Hd) as B.
  destruct (mu_q t i p q d) as [x|]; [|discriminate A]. destruct (mu_q t i q p d) as [y|]; [|discriminate B]. injection A as A. injection B as B. eauto.
Qed.
Lemma fit_rho d : (S d < n)%nat ->
  (ratio_spread t n i p q d <> 0 -> fst (mu_rhos m i v d) = Some (ratio_spread t n i p q d)) /\
  (ratio_spread t n i q p d <> 0 -> snd (mu_rhos m i v d) = Some (ratio_spread t n i q p d)).
Proof. intros Hd. rewrite rhos_eq. split; intros N; cbn [fst snd]; eapply rho_at; eauto. Qed.

Section Given.
Variables (fp fi sp si rp ri : nat -> R).
Hypothesis G : given m ldf sigma n i v p q fp fi sp si rp ri.
Lemma given_r d : (S d < n)%nat -> mu_rho how t i p q d = Some (rp d) /\ mu_rho how t i q p d = Some (ri d) /\ rp d <> 0 /\ ri d <> 0.
Proof. intros Hd. destruct (gv_r _ _ _ _ _ _ _ _ _ _ _ _ _ _ G d Hd) as (E & A & B). rewrite rhos_eq in E. injection E as -> ->. auto. Qed.
Lemma fit_lambda :
  (forall l, fst (mu_lam m i v) = Some l <-> l <> 0 /\ only_best_slope n (link_resid t i q fi si) (ratio_resid t n i p q rp) (link_resid t i p fp sp) l) /\
  (forall l, snd (mu_lam m i v) = Some l <-> l <> 0 /\ only_best_slope n (link_resid t i q fi si) (ratio_resid t n i q p ri) (link_resid t i q fi si) l).
Proof.
  destruct (mi_square _ _ _ M) as (o0 & a0 & h & Q). pose proof Q as (R & E2 & E3). pose proof (mi_n _ _ _ M) as Hn.
  rewrite lam_eq, (lambda_at t ldf n i p q M Hi Hp Hq how sigma lr df fp fi sp si rp ri).
  - cbv zeta. cbn [fst snd]. split; intros l; apply slope_best.
  - intros c o d. apply (ft_lr _ _ _ _ _ _ _ _ _ _ _ F). auto.
  - intros o d. apply (ft_df _ _ _ _ _ _ _ _ _ _ _ F); lia.
  - apply G.
  - apply G.
  - apply given_r.
Qed.
Variables (lp li : R).
Hypothesis L : mu_lam m i v = (Some lp, Some li).
Lemma next_some f l s r qq own other x : own <> 0 -> r <> 0 -> r_of qq = Some x ->
  mu_next (Some f) (Some l) (Some s) (Some r) qq (Some own) (Some other) = Some (munich_step f l s r x own other).
Proof.
  intros No Nr Eq. unfold mu_next. rewrite Eq. cbn [rmul]. rewrite (rdiv_some other own), (rdiv_some (l * s) r) by auto. cbn [rmul radd rsub]. f_equal. unfold munich_step. ring.
Qed.
Lemma step_some d a b : (S d < n)%nat -> a <> 0 -> b <> 0 ->
  mu_next (r_of (cel ldf i p 0 d)) (Some lp) (sigma i p d) (mu_rho how t i p q d) (mu_q t i p q d) (Some a) (Some b) =
    Some (munich_step (fp d) lp (sp d) (rp d) (avg_ratio t n i p q d) a b) /\
  mu_next (r_of (cel ldf i q 0 d)) (Some li) (sigma i q d) (mu_rho how t i q p d) (mu_q t i q p d) (Some b) (Some a) =
    Some (munich_step (fi d) li (si d) (ri d) (avg_ratio t n i q p d) b a).
Proof.
  intros Hd Na Nb. destruct (gv_f _ _ _ _ _ _ _ _ _ _ _ _ _ _ G d Hd) as (-> & ->). destruct (gv_s _ _ _ _ _ _ _ _ _ _ _ _ _ _ G d Hd) as (-> & -> & Ns1 & Ns2).
  destruct (given_r d Hd) as (-> & -> & Nr1 & Nr2). split; apply next_some; auto; eapply q_at; eauto; lia.
Qed.
Lemma rv_nz c o d : (c < ax1 (values t))%nat -> (o + d < n)%nat -> rv (amount t i c o d) <> 0.
Proof. intros Hc Hl E. apply rv_eq0 in E. revert E. eapply amount_nz; eauto. Qed.
Lemma fit_known o d : (o + d < n)%nat -> mu_tri m i v o d = (Some (rv (amount t i p o d)), Some (rv (amount t i q o d))).
Proof.
  intros Hod. rewrite tri_eq, L. induction d as [|d IH]; cbn [mu_full].
  - rewrite (cell_known t ldf n i M Hi q) by (auto; lia). destruct (Nat.ltb_spec (o + 0) n); [|lia]. reflexivity.
  - rewrite IH by lia. cbn [fst snd]. destruct (step_some d (rv (amount t i p o d)) (rv (amount t i q o d)) ltac:(lia)) as (-> & ->); [apply rv_nz; auto; lia..|].
    rewrite !(cell_known t ldf n i M Hi) by (auto; lia). destruct (Nat.ltb_spec (o + S d) n); [|lia]. unfold mu_keep. cbn [nz r_of option_map present rmul radd]. f_equal; f_equal; ring.
Qed.
Lemma fit_projected o d a b : (o < n)%nat -> (S d < n)%nat -> (n <= o + S d)%nat -> mu_tri m i v o d = (Some a, Some b) -> a <> 0 -> b <> 0 ->
  mu_tri m i v o (S d) = (Some (munich_step (fp d) lp (sp d) (rp d) (avg_ratio t n i p q d) a b), Some (munich_step (fi d) li (si d) (ri d) (avg_ratio t n i q p d) b a)).
Proof.
  intros Ho Hd Ln E Na Nb. rewrite tri_eq, L in *. cbn [mu_full]. rewrite E. cbn [fst snd]. destruct (step_some d a b Hd Na Nb) as (-> & ->).
  rewrite !(cell_known t ldf n i M Hi) by (auto; lia). destruct (Nat.ltb_spec (o + S d) n); [lia|]. unfold mu_keep. cbn [nz r_of option_map present rmul radd]. rewrite rv_0. f_equal; f_equal; ring.
Qed.
End Given.

(** Missing parameters. *)
Lemma next_none f l s r qq own other : f = None \/ l = None \/ s = None \/ r = None \/ own = None \/ other = None -> mu_next f l s r qq own other = None.
Proof.
  unfold mu_next. intros [-> | [-> | [-> | [-> | [-> | ->]]]]].
  - reflexivity.
  - destruct f; reflexivity.
  - destruct f, l; reflexivity.
  - destruct f, l, s; reflexivity.
  - apply rmul_none_r.
  - destruct f; [|reflexivity]. destruct (rdiv (rmul l s) r); reflexivity.
Qed.
Lemma keep_none x : mu_keep x None = None.
Proof. reflexivity. Qed.
Lemma fit_missing o d : (fst (mu_lam m i v) = None \/ sigma i p d = None \/ fst (mu_rhos m i v d) = None \/ cel ldf i p 0 d = None) -> forall e, (d < e)%nat -> fst (mu_tri m i v o e) = None.
Proof.
  intros H e He. rewrite rhos_eq in H. cbn [fst] in H.
  assert (N : fst (mu_tri m i v o (S d)) = None).
  { rewrite tri_eq. cbn [mu_full]. destruct (mu_full _ _ _ _ _ _ _ _ _ _) as (a & b). cbn [fst]. rewrite next_none; [apply keep_none|].
    destruct H as [H|[H|[H|H]]]; [auto|auto|auto|]. rewrite H. auto. }
  rewrite tri_eq in *. replace e with (S d + (e - S d))%nat by lia. generalize (e - S d)%nat. intros k. induction k as [|k IH]; [rewrite Nat.add_0_r; exact N|].
  rewrite Nat.add_succ_r. cbn [mu_full]. destruct (mu_full how t ldf sigma (mu_lam m i v) i p q o (S d + k)) as (a & b). cbn [fst] in *. rewrite next_none; [apply keep_none|]. subst a. tauto.
Qed.
End Fit.
