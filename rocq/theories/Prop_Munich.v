(** C62: the Munich chain ladder. *)
From Coq Require Import Lia Lra Qreals.
From Verif Require Import P_Core P_Mack P_Bondy P_Corr5 P_Munich1 P_Munich2 P_Munich3 P_Munich4 P_Munich5 Ex ExLabel SpecMunich.
Local Open Scope R_scope.

(** C62. A square triangle of positive amounts can be fitted with any pairs of its first columns. *)
Theorem C62_fits : forall how t ldf n names sigma, munich_input t ldf n -> pairs_ok t names -> exists m, munich_fit how (Some names) t ldf sigma = Ok m.
Proof. exact munich_fits. Qed.
Print Assumptions C62_fits.
(** The average ratios are those of the totals of all origins known at the age; they are inverse to each other. *)
Theorem C62_ratios : forall how t ldf n names sigma m v p q i d, munich_input t ldf n -> munich_fit how (Some names) t ldf sigma = Ok m -> pair_at t names v p q ->
  (i < ax0 (values t))%nat -> (d < n)%nat ->
  (exists x y, mu_qf m i v d = (Some x, Some y) /\ rv x = avg_ratio t n i p q d /\ rv y = avg_ratio t n i q p d) /\
  0 < total t n i p d /\ 0 < total t n i q d.
Proof.
  intros how t ldf n names sigma m v p q i d M F P Hi Hd. destruct (fit_facts _ _ _ _ _ _ _ _ _ _ M F P) as (lr & df & Ft). split; [exact (fit_ratios _ _ _ _ _ _ _ _ _ _ _ _ M Ft Hi d Hd)|].
  split; eapply total_pos; eauto; apply Ft.
Qed.
Print Assumptions C62_ratios.
(** The deviation of the ratios at every age with at least two origins. *)
Theorem C62_spread : forall how t ldf n names sigma m v p q i d, munich_input t ldf n -> munich_fit how (Some names) t ldf sigma = Ok m -> pair_at t names v p q ->
  (i < ax0 (values t))%nat -> (S d < n)%nat ->
  (ratio_spread t n i p q d <> 0 -> fst (mu_rhos m i v d) = Some (ratio_spread t n i p q d)) /\
  (ratio_spread t n i q p d <> 0 -> snd (mu_rhos m i v d) = Some (ratio_spread t n i q p d)).
Proof. intros how t ldf n names sigma m v p q i d M F P Hi Hd. destruct (fit_facts _ _ _ _ _ _ _ _ _ _ M F P) as (lr & df & Ft). exact (fit_rho _ _ _ _ _ _ _ _ _ _ _ _ M Ft Hi d Hd). Qed.
Print Assumptions C62_spread.
(** The coefficients are the slopes of least squares of the residuals of the link ratios against those of the ratio of the
    other amount to the own one; cells where the incurred link ratio is the factor itself are left out of both.  A slope of 0 is
    not returned. *)
Theorem C62_slopes : forall how t ldf n names sigma m v p q i fp fi sp si rp ri, munich_input t ldf n -> munich_fit how (Some names) t ldf sigma = Ok m -> pair_at t names v p q ->
  (i < ax0 (values t))%nat -> given m ldf sigma n i v p q fp fi sp si rp ri ->
  (forall l, fst (mu_lam m i v) = Some l <-> l <> 0 /\ only_best_slope n (link_resid t i q fi si) (ratio_resid t n i p q rp) (link_resid t i p fp sp) l) /\
  (forall l, snd (mu_lam m i v) = Some l <-> l <> 0 /\ only_best_slope n (link_resid t i q fi si) (ratio_resid t n i q p ri) (link_resid t i q fi si) l).
Proof.
  intros how t ldf n names sigma m v p q i fp fi sp si rp ri M F P Hi G. destruct (fit_facts _ _ _ _ _ _ _ _ _ _ M F P) as (lr & df & Ft).
  exact (fit_lambda _ _ _ _ _ _ _ _ _ _ _ _ M Ft Hi _ _ _ _ _ _ G).
Qed.
Print Assumptions C62_slopes.
(** The completed triangle holds the known amounts. *)
Theorem C62_known : forall how t ldf n names sigma m v p q i fp fi sp si rp ri lp li o d, munich_input t ldf n -> munich_fit how (Some names) t ldf sigma = Ok m -> pair_at t names v p q ->
  (i < ax0 (values t))%nat -> given m ldf sigma n i v p q fp fi sp si rp ri -> mu_lam m i v = (Some lp, Some li) -> (o + d < n)%nat ->
  mu_tri m i v o d = (Some (rv (amount t i p o d)), Some (rv (amount t i q o d))).
Proof.
  intros how t ldf n names sigma m v p q i fp fi sp si rp ri lp li o d M F P Hi G L Hd. destruct (fit_facts _ _ _ _ _ _ _ _ _ _ M F P) as (lr & df & Ft).
  exact (fit_known _ _ _ _ _ _ _ _ _ _ _ _ M Ft Hi _ _ _ _ _ _ G _ _ L o d Hd).
Qed.
Print Assumptions C62_known.
(** Every later amount is a Munich step from the two amounts before it. *)
Theorem C62_step : forall how t ldf n names sigma m v p q i fp fi sp si rp ri lp li o d a b, munich_input t ldf n -> munich_fit how (Some names) t ldf sigma = Ok m -> pair_at t names v p q ->
  (i < ax0 (values t))%nat -> given m ldf sigma n i v p q fp fi sp si rp ri -> mu_lam m i v = (Some lp, Some li) ->
  (o < n)%nat -> (S d < n)%nat -> (n <= o + S d)%nat -> mu_tri m i v o d = (Some a, Some b) -> a <> 0 -> b <> 0 ->
  mu_tri m i v o (S d) = (Some (munich_step (fp d) lp (sp d) (rp d) (avg_ratio t n i p q d) a b), Some (munich_step (fi d) li (si d) (ri d) (avg_ratio t n i q p d) b a)).
Proof.
  intros how t ldf n names sigma m v p q i fp fi sp si rp ri lp li o d a b M F P Hi G L. destruct (fit_facts _ _ _ _ _ _ _ _ _ _ M F P) as (lr & df & Ft).
  exact (fit_projected _ _ _ _ _ _ _ _ _ _ _ _ M Ft Hi _ _ _ _ _ _ G _ _ L o d a b).
Qed.
Print Assumptions C62_step.
(** Where the ratio is the average one, the step is that of the chain ladder. *)
Theorem C62_on_average : forall how t ldf n names sigma m v p q i fp fi sp si rp ri lp li o d a b, munich_input t ldf n -> munich_fit how (Some names) t ldf sigma = Ok m -> pair_at t names v p q ->
  (i < ax0 (values t))%nat -> given m ldf sigma n i v p q fp fi sp si rp ri -> mu_lam m i v = (Some lp, Some li) ->
  (o < n)%nat -> (S d < n)%nat -> (n <= o + S d)%nat -> mu_tri m i v o d = (Some a, Some b) -> a <> 0 -> b <> 0 ->
  b / a = avg_ratio t n i p q d -> mu_tri m i v o (S d) = (Some (a * fp d), Some (b * fi d)).
Proof.
  intros how t ldf n names sigma m v p q i fp fi sp si rp ri lp li o d a b M F P Hi G L Ho Hd Hn E Na Nb Q.
  rewrite (C62_step how t ldf n names sigma m v p q i fp fi sp si rp ri lp li o d a b M F P Hi G L Ho Hd Hn E Na Nb).
  destruct (fit_facts _ _ _ _ _ _ _ _ _ _ M F P) as (lr & df & Ft).
  assert (Tp : 0 < total t n i p d) by (eapply total_pos; eauto; try lia; apply Ft). assert (Tq : 0 < total t n i q d) by (eapply total_pos; eauto; try lia; apply Ft).
  assert (Q' : a / b = avg_ratio t n i q p d).
  { unfold avg_ratio in *. assert (Eb : b = a * (total t n i q d / total t n i p d)) by (rewrite <- Q; field; auto). rewrite Eb. field. repeat split; auto; lra. }
  unfold munich_step. rewrite Q, Q'. f_equal; f_equal; ring.
Qed.
Print Assumptions C62_on_average.
(** The factors of an incurred column, and of a paid column that is not the incurred column of another pair, lead from each
    amount of the completed triangle to the next, and together to the last. *)
Theorem C62_factors : forall how t ldf n names sigma m v p q i o (a b : nat -> R), munich_input t ldf n -> munich_fit how (Some names) t ldf sigma = Ok m -> pair_at t names v p q ->
  (forall e, (e < n)%nat -> mu_tri m i v o e = (Some (a e), Some (b e)) /\ a e <> 0 /\ b e <> 0) ->
  let factor c d := nzr (rt_cell (mu_ldf m) i c o d) in
  (forall d, (S d < n)%nat -> rt_cell (mu_ldf m) i q o d <> None /\ b d * factor q d = b (S d)) /\
  (forall d, (d < n)%nat -> b d * rprod_from d (n - 1) (factor q) = b (n - 1)%nat) /\
  ((forall v' y, ~ pair_at t names v' y p) ->
   (forall d, (S d < n)%nat -> rt_cell (mu_ldf m) i p o d <> None /\ a d * factor p d = a (S d)) /\
   (forall d, (d < n)%nat -> a d * rprod_from d (n - 1) (factor p) = a (n - 1)%nat)).
Proof.
  intros how t ldf n names sigma m v p q i o a b M F P T. cbv zeta. destruct (fit_facts _ _ _ _ _ _ _ _ _ _ M F P) as (lr & df & Ft).
  assert (Named : forall v p q, nth_error (mu_pairs m) v = Some (p, q) -> pair_at t names v p q).
  { destruct (munich_inv _ _ _ _ _ _ F) as (_ & pairs & ? & ? & ? & Ep & _ & _ & _ & _ & _ & _ & _ & _ & _ & _ & _ & ->). exact (proj2 (pairs_pos _ _ _ Ep)). }
  assert (Prod : forall (g : nat -> R) (f : nat -> option R), (forall e, (e < n)%nat -> g e <> 0) -> (forall d, (S d < n)%nat -> f d = Some (g (S d) / g d)) ->
    (forall d, (S d < n)%nat -> f d <> None /\ g d * nzr (f d) = g (S d)) /\ (forall d, (d < n)%nat -> g d * rprod_from d (n - 1) (fun d => nzr (f d)) = g (n - 1)%nat)).
  { intros g f Ng Ef. split.
    - intros d Hd. rewrite Ef by auto. split; [discriminate|]. cbn [nzr]. pose proof (Ng d ltac:(lia)). field. auto.
    - intros d Hd. unfold rprod_from. rewrite (rprodn_ext _ _ (fun j => g (S (d + j)) / g (d + j)%nat)) by (intros j Hj; rewrite Ef by lia; reflexivity).
      rewrite rprod_ratio by (intros; apply Ng; lia). replace (d + (n - 1 - d))%nat with (n - 1)%nat by lia. pose proof (Ng d Hd). field. auto. }
  assert (Inc := Prod b (fun d => rt_cell (mu_ldf m) i q o d) (fun e He => proj2 (proj2 (T e He)))
    (fit_incurred _ _ _ _ _ _ _ _ _ _ _ _ M Ft b o (fun e He => conj (f_equal snd (proj1 (T e He))) (proj2 (proj2 (T e He)))))).
  split; [apply Inc|]. split; [apply Inc|]. intros Np.
  apply (Prod a (fun d => rt_cell (mu_ldf m) i p o d) (fun e He => proj1 (proj2 (T e He)))).
  apply (fit_paid _ _ _ _ _ _ _ _ _ _ _ _ M Ft a o); [intros x y E; exact (Np _ _ (Named _ _ _ E))|].
  intros e He. split; [exact (f_equal fst (proj1 (T e He)))|apply T; auto].
Qed.
Print Assumptions C62_factors.
(** Columns in no pair keep their factors, for every origin. *)
Theorem C62_other_columns : forall how t ldf n names sigma m i c o d, munich_input t ldf n -> munich_fit how (Some names) t ldf sigma = Ok m -> ~ in_pair t names c ->
  is_pattern ldf = true -> is_cumulative ldf = Some false -> (forall e, (S e < n)%nat -> exists f, cel ldf i c 0 e = Some f /\ f <> 0%Qc) -> (S d < n)%nat ->
  rt_cell (mu_ldf m) i c o d = r_of (cel ldf i c 0 d).
Proof.
  intros how t ldf n names sigma m i c o d M F Nc Pt Cu Kn Hd.
  destruct (munich_inv _ _ _ _ _ _ F) as (_ & pairs & lr0 & l0 & df0 & Ep & Ne & _ & _ & _ & _ & _ & _ & _ & _ & _ & _ & Em). pose proof (proj2 (pairs_pos _ _ _ Ep)) as Named.
  assert (Pm : mu_pairs m = pairs) by (rewrite Em; reflexivity).
  destruct pairs as [|(p & q) pr] eqn:Ex; [contradiction|]. rewrite <- Ex in *. assert (P0 : pair_at t names 0 p q) by (apply Named; rewrite Ex; reflexivity).
  destruct (fit_facts _ _ _ _ _ _ _ _ _ _ M F P0) as (lr & df & Ft).
  apply (fit_other _ _ _ _ _ _ _ _ _ _ _ _ M Ft c o Pt Cu); auto. rewrite Pm. intros x y0. split; intros E; apply Nc; apply Named in E; exists x, y0; auto.
Qed.
Print Assumptions C62_other_columns.
(** The factors have a row for every origin and the ages of the link ratios. *)
Theorem C62_labels : forall how t ldf n names sigma m v p q, munich_input t ldf n -> munich_fit how (Some names) t ldf sigma = Ok m -> pair_at t names v p q ->
  odims (rt_frame (mu_ldf m)) = odims t /\ vdims (rt_frame (mu_ldf m)) = vdims ldf /\ kdims (rt_frame (mu_ldf m)) = kdims ldf /\
  ddims (rt_frame (mu_ldf m)) = dmap (firstn (n - 1)) (ddims t) /\ is_pattern (rt_frame (mu_ldf m)) = true /\ is_cumulative (rt_frame (mu_ldf m)) = Some false.
Proof. intros how t ldf n names sigma m v p q M F P. destruct (fit_facts _ _ _ _ _ _ _ _ _ _ M F P) as (lr & df & Ft). exact (fit_labels _ _ _ _ _ _ _ _ _ _ _ Ft). Qed.
Print Assumptions C62_labels.
(** A missing parameter of an age makes the paid amounts of all later ages missing, known or not. *)
Theorem C62_missing : forall how t ldf n names sigma m v p q i o d e, munich_input t ldf n -> munich_fit how (Some names) t ldf sigma = Ok m -> pair_at t names v p q -> (i < ax0 (values t))%nat ->
  (fst (mu_lam m i v) = None \/ sigma i p d = None \/ fst (mu_rhos m i v d) = None \/ cel ldf i p 0 d = None) -> (d < e)%nat -> fst (mu_tri m i v o e) = None.
Proof.
  intros how t ldf n names sigma m v p q i o d e M F P Hi H He. destruct (fit_facts _ _ _ _ _ _ _ _ _ _ M F P) as (lr & df & Ft). exact (fit_missing _ _ _ _ _ _ _ _ _ _ _ _ Ft Hi o d H e He).
Qed.
Print Assumptions C62_missing.
(** Refused: no pairs, a known amount of 0 in any column, a name that is not a column. *)
Theorem C62_refuses : forall how t ldf sigma,
  munich_fit how None t ldf sigma = Err ValueError /\
  (forall names n o0 a0 h i c o d, wf t -> square t n o0 a0 h -> (2 <= n)%nat -> in_range t i c o d -> ~ future t o d -> amount t i c o d = 0%Qc -> munich_fit how (Some names) t ldf sigma = Err ValueError) /\
  (forall names a b, In (a, b) names -> ~ In a (vdims t) \/ ~ In b (vdims t) -> munich_fit how (Some names) t ldf sigma = Err ValueError).
Proof.
  intros how t ldf sigma. split; [reflexivity|]. split; intros.
  - eapply refuses_zero; eauto.
  - eapply refuses_unknown; eauto.
Qed.
Print Assumptions C62_refuses.
(** A column before one of the pairs that is in no pair: the fit fails. *)
Theorem C62_gap : forall how t ldf n names sigma c c', munich_input t ldf n -> names <> [] -> (forall a b, In (a, b) names -> In a (vdims t) /\ In b (vdims t)) ->
  NoDup (map fst names) -> NoDup (map snd names) -> in_pair t names c -> (c' < c)%nat -> ~ in_pair t names c' -> munich_fit how (Some names) t ldf sigma = Err KeyError.
Proof. exact refuses_gap. Qed.
Print Assumptions C62_gap.

(** Three accident years, paid and incurred; factors of 5/2 and 7/4 for the first age and 1 for the second. *)
Definition mtri (vs : list string) (rows : list (list (list (option Z)))) : tri := tri4 [["Total"%string]] ["Total"%string] vs [y 2001; y 2002; y 2003] (Ages [12; 24; 36]%Z) (dec 2003) [rows].
Definition exm : tri := mtri ["paid"%string; "incurred"%string]
  [[[Some 4; Some 8; Some 8]; [Some 4; Some 12; None]; [Some 4; None; None]]; [[Some 8; Some 12; Some 12]; [Some 12; Some 24; None]; [Some 16; None; None]]]%Z.
Definition exml (vs : list string) : tri := Tri [["Total"%string]] ["Total"%string] vs [y 2001] (Ages [12; 24]%Z)
  (Arr 1 (List.length vs) 1 2 (fun _ c _ d => match d with O => Some (if (c =? 0)%nat then qc 5 / qc 2 else qc 7 / qc 4)%Qc | _ => Some 1%Qc end)) ULT_VAL (Some false) true GY GY.
Lemma mtri_input t vs : wf t -> blank_future t -> is_pattern t = false -> NoDup (vdims t) -> ax2 (values t) = 3%nat -> ax3 (values t) = 3%nat ->
  odims t = [y 2001; y 2002; y 2003] -> ddims t = Ages [12; 24; 36]%Z -> vdate t = dec 2003 ->
  forallb (fun i => forallb (fun c => forallb (fun o => forallb (fun d => negb (o + d <? 3)%nat || Qc_ltb 0%Qc (amount t i c o d)) (seq 0 3)) (seq 0 3)) (seq 0 (ax1 (values t)))) (seq 0 (ax0 (values t))) = true ->
  munich_input t (exml vs) 3.
Proof.
  intros W B Hp Nd E2 E3 Eo Ed Ev Pos.
  assert (Q : square t 3 (y 2001) 12 12). { split; [|auto]. unfold regular. rewrite E2, E3, Eo, Ed, Ev. repeat split; try (cbn; lia). intros k Hk. lia. }
  constructor; auto.
  - eauto.
  - intros i c o d (Ri & Rc & Ro & Rd) Nf. rewrite E2 in Ro. rewrite E3 in Rd. rewrite (square_future _ _ _ _ _ _ _ Q) in Nf by auto.
    rewrite forallb_forall in Pos. specialize (Pos i ltac:(apply in_seq; lia)). rewrite forallb_forall in Pos. specialize (Pos c ltac:(apply in_seq; lia)).
    rewrite forallb_forall in Pos. specialize (Pos o ltac:(apply in_seq; lia)). rewrite forallb_forall in Pos. specialize (Pos d ltac:(apply in_seq; lia)).
    destruct (Nat.ltb_spec (o + d) 3); [|lia]. cbn [negb orb] in Pos. destruct (Qc_ltb_spec 0%Qc (amount t i c o d)); [auto|discriminate].
Qed.
Ltac by_mtri := apply mtri_input; [by_wfb|by_blankb|reflexivity|repeat constructor; cbn; intuition discriminate|reflexivity..|vm_compute; reflexivity].
Lemma exm_input : munich_input exm (exml ["paid"%string; "incurred"%string]) 3.
Proof. by_mtri. Qed.
Definition nm : list (string * string) := [("paid"%string, "incurred"%string)].
Lemma nm_first t : vdims t = ["paid"%string; "incurred"%string] -> pairs_ok t nm /\ pair_at t nm 0 0 1.
Proof.
  intros E. assert (P : pair_at t nm 0 0 1) by (exists "paid"%string, "incurred"%string; rewrite E; auto). split; auto. constructor.
  - discriminate.
  - rewrite E. intros a b [H|[]]. injection H as <- <-. cbn. auto.
  - repeat constructor. intros [].
  - repeat constructor. intros [].
  - intros c c' (v & y0 & H) L. exists 0%nat. assert (c < 2)%nat. { destruct H as [(a & b & _ & Ea & Eb)|(a & b & _ & Ea & Eb)]; [assert (H : nth_error (vdims t) c <> None) by congruence|assert (H : nth_error (vdims t) c <> None) by congruence]; apply nth_error_Some in H; rewrite E in H; exact H. }
    exists 1%nat. replace c' with 0%nat by lia. auto.
Qed.
Example C62_case : munich_input exm (exml ["paid"%string; "incurred"%string]) 3 /\ pairs_ok exm nm /\ pair_at exm nm 0 0 1.
Proof. split; [exact exm_input|]. apply nm_first. reflexivity. Qed.

Lemma rv_qc z : rv (qc z) = IZR z.
Proof. unfold rv, qc. cbn [this Q2Qc]. rewrite (Qeq_eqR _ _ (Qred_correct _)). unfold Q2R, inject_Z. cbn [Qnum Qden]. field. Qed.
Lemma am c o d z : amount exm 0 c o d = qc z -> rv (amount exm 0 c o d) = IZR z.
Proof. intros ->. apply rv_qc. Qed.
Lemma used3 use g : used_sum 3 use g = (if Req_EM_T (use 0%nat 0%nat) 0 then 0 else g 0%nat 0%nat) + (if Req_EM_T (use 0%nat 1%nat) 0 then 0 else g 0%nat 1%nat) + (if Req_EM_T (use 1%nat 0%nat) 0 then 0 else g 1%nat 0%nat).
Proof. unfold used_sum. cbn [rsumn Nat.add Nat.sub Nat.ltb Nat.leb]. ring. Qed.
Lemma best3 use x y : use 0%nat 0%nat <> 0 -> use 1%nat 0%nat <> 0 -> use 0%nat 1%nat = 0 -> x 0%nat 0%nat <> 0 -> x 1%nat 0%nat = 0 -> only_best_slope 3 use x y (y 0%nat 0%nat / x 0%nat 0%nat).
Proof.
  intros U0 U1 U2 X0 X1 b Hb. rewrite !used3. destruct (Req_EM_T (use 0%nat 0%nat) 0); [contradiction|]. destruct (Req_EM_T (use 1%nat 0%nat) 0); [contradiction|]. destruct (Req_EM_T (use 0%nat 1%nat) 0); [|contradiction].
  rewrite X1. set (A := y 0%nat 0%nat) in *. set (B := x 0%nat 0%nat) in *. replace ((A - A / B * B) ^ 2) with 0 by (field; auto).
  assert (A - b * B <> 0). { intros E. apply Hb. replace A with (b * B) by lra. field. auto. }
  pose proof (Rsqr_pos_lt _ H) as P. unfold Rsqr in P. nra.
Qed.
Definition sig1 : rrow := fun _ _ _ => Some 1.
Example C62_case_given : forall how m, munich_fit how (Some nm) exm (exml ["paid"%string; "incurred"%string]) sig1 = Ok m ->
  exists fp fi sp si rp ri lp li, given m (exml ["paid"%string; "incurred"%string]) sig1 3 0 0 0 1 fp fi sp si rp ri /\ mu_lam m 0 0 = (Some lp, Some li) /\ lp = 1.
Proof.
  intros how m F. pose proof exm_input as M. destruct (nm_first exm eq_refl) as [_ P].
  assert (A000 : rv (amount exm 0 0 0 0) = 4) by (apply am; vm_compute; reflexivity). assert (A010 : rv (amount exm 0 0 1 0) = 4) by (apply am; vm_compute; reflexivity).
  assert (A020 : rv (amount exm 0 0 2 0) = 4) by (apply am; vm_compute; reflexivity). assert (A001 : rv (amount exm 0 0 0 1) = 8) by (apply am; vm_compute; reflexivity).
  assert (A011 : rv (amount exm 0 0 1 1) = 12) by (apply am; vm_compute; reflexivity).
  assert (A002 : rv (amount exm 0 0 0 2) = 8) by (apply am; vm_compute; reflexivity).
  assert (B000 : rv (amount exm 0 1 0 0) = 8) by (apply am; vm_compute; reflexivity). assert (B010 : rv (amount exm 0 1 1 0) = 12) by (apply am; vm_compute; reflexivity).
  assert (B020 : rv (amount exm 0 1 2 0) = 16) by (apply am; vm_compute; reflexivity). assert (B001 : rv (amount exm 0 1 0 1) = 12) by (apply am; vm_compute; reflexivity).
  assert (B011 : rv (amount exm 0 1 1 1) = 24) by (apply am; vm_compute; reflexivity).
  assert (B002 : rv (amount exm 0 1 0 2) = 12) by (apply am; vm_compute; reflexivity).
  assert (Sp : forall x, 0 < x -> sqrt x <> 0) by (intros x Hx; pose proof (sqrt_lt_R0 _ Hx); lra).
  assert (Rp0 : ratio_spread exm 3 0 0 1 0 = 2).
  { unfold ratio_spread, one_ratio, avg_ratio, total. cbn [rsumn Nat.sub INR]. rewrite A000, A010, A020, B000, B010, B020.
    transitivity (sqrt (2 * 2)); [f_equal; field|apply sqrt_square; lra]. }
  assert (Np : forall d, (S d < 3)%nat -> ratio_spread exm 3 0 0 1 d <> 0 /\ ratio_spread exm 3 0 1 0 d <> 0).
  { intros [|[|d]] Hd; [| |lia]; split; unfold ratio_spread, one_ratio, avg_ratio, total; cbn [rsumn Nat.sub INR]; rewrite ?A000, ?A010, ?A020, ?B000, ?B010, ?B020, ?A001, ?A011, ?B001, ?B011; apply Sp.
    - replace (_ / _) with 4 by field. lra.
    - replace (_ / (_ + 1)) with (1/6) by field. lra.
    - replace (_ / 1) with (6/5) by field. lra.
    - replace (_ / 1) with (2/9) by field. lra. }
  set (ldf := exml ["paid"%string; "incurred"%string]) in *.
  set (rp := ratio_spread exm 3 0 0 1). set (ri := ratio_spread exm 3 0 1 0).
  set (fp := fun d : nat => match d with O => 5 / 2 | _ => 1 end). set (fi := fun d : nat => match d with O => 7 / 4 | _ => 1 end).
  assert (G : given m ldf sig1 3 0 0 0 1 fp fi (fun _ => 1) (fun _ => 1) rp ri).
  { constructor.
    - intros [|[|d]] Hd; [| |lia]; (split; cbn; f_equal; unfold rv, Q2R; cbn; field).
    - intros d Hd. repeat split; auto; lra.
    - intros d Hd. destruct (C62_spread _ _ _ _ _ _ _ _ _ _ 0%nat d M F P ltac:(cbn; lia) Hd) as [S1 S2]. destruct (Np d Hd) as [N1 N2]. specialize (S1 N1). specialize (S2 N2).
      split; [|auto]. destruct (mu_rhos m 0 0 d); cbn [fst snd] in S1, S2. unfold rp, ri. congruence. }
  assert (L : forall c o d a b, amount exm 0 c o d = qc a -> amount exm 0 c o (S d) = qc b -> a <> 0%Z -> rv (SpecCorr.ratio exm 0 c o d) = IZR b / IZR a).
  { intros c o d a b Ea Eb Na. unfold SpecCorr.ratio. rewrite rv_div; [rewrite Ea, Eb, !rv_qc; reflexivity|]. rewrite Ea. intros E. apply Na. apply (f_equal rv) in E. rewrite rv_0, rv_qc in E. apply eq_IZR. exact E. }
  assert (R00 : rv (SpecCorr.ratio exm 0 0 0 0) = 8 / 4) by (apply L; [vm_compute; reflexivity|vm_compute; reflexivity|discriminate]).
  assert (Q00 : rv (SpecCorr.ratio exm 0 1 0 0) = 12 / 8) by (apply L; [vm_compute; reflexivity|vm_compute; reflexivity|discriminate]).
  assert (Q10 : rv (SpecCorr.ratio exm 0 1 1 0) = 24 / 12) by (apply L; [vm_compute; reflexivity|vm_compute; reflexivity|discriminate]).
  assert (Q01 : rv (SpecCorr.ratio exm 0 1 0 1) = 12 / 12) by (apply L; [vm_compute; reflexivity|vm_compute; reflexivity|discriminate]).
  assert (S4 : sqrt 4 = 2) by (replace 4 with (2 * 2) by ring; apply sqrt_square; lra).
  assert (S8 : sqrt 8 <> 0) by (apply Sp; lra). assert (S12 : sqrt 12 <> 0) by (apply Sp; lra).
  assert (Ri0 : ri 0%nat <> 0) by (apply Np; lia).
  set (use := link_resid exm 0 1 fi (fun _ => 1)).
  assert (U0 : use 0%nat 0%nat = - (1/4) * sqrt 8) by (unfold use, link_resid; rewrite Q00, B000; cbn [fi]; field).
  assert (U1 : use 1%nat 0%nat = 1/4 * sqrt 12) by (unfold use, link_resid; rewrite Q10, B010; cbn [fi]; field).
  assert (U2 : use 0%nat 1%nat = 0) by (unfold use, link_resid; rewrite Q01; cbn [fi]; field).
  assert (Y0 : link_resid exm 0 0 fp (fun _ => 1) 0 0 = - 1) by (unfold link_resid; rewrite R00, A000, S4; cbn [fp]; field).
  assert (X0 : ratio_resid exm 3 0 0 1 rp 0 0 = - 1) by (unfold ratio_resid, one_ratio, avg_ratio, total; cbn [rsumn Nat.sub]; unfold rp; rewrite Rp0, A000, A010, A020, B000, B010, B020, S4; field).
  assert (X1 : ratio_resid exm 3 0 0 1 rp 1 0 = 0) by (unfold ratio_resid, one_ratio, avg_ratio, total; cbn [rsumn Nat.sub]; unfold rp; rewrite Rp0, A000, A010, A020, B000, B010, B020; field).
  assert (Z0 : ratio_resid exm 3 0 1 0 ri 0 0 = 1/6 / ri 0%nat * sqrt 8) by (unfold ratio_resid, one_ratio, avg_ratio, total; cbn [rsumn Nat.sub]; rewrite A000, A010, A020, B000, B010, B020; field; auto).
  assert (Z1 : ratio_resid exm 3 0 1 0 ri 1 0 = 0) by (unfold ratio_resid, one_ratio, avg_ratio, total; cbn [rsumn Nat.sub]; rewrite A000, A010, A020, B000, B010, B020; field; auto).
  assert (U0' : use 0%nat 0%nat <> 0) by (rewrite U0; intros E; apply S8; lra). assert (U1' : use 1%nat 0%nat <> 0) by (rewrite U1; intros E; apply S12; lra).
  assert (Z0' : ratio_resid exm 3 0 1 0 ri 0 0 <> 0) by (rewrite Z0; intros E; apply S8; replace (sqrt 8) with (6 * ri 0%nat * (1 / 6 / ri 0%nat * sqrt 8)) by (field; auto); rewrite E; ring).
  assert (I0 : (0 < ax0 (values exm))%nat) by (cbn; lia).
  destruct (C62_slopes _ _ _ _ _ _ _ _ _ _ _ _ _ _ _ _ _ M F P I0 G) as [Sp1 Sp2]. fold use in Sp1, Sp2.
  exists fp, fi, (fun _ => 1), (fun _ => 1), rp, ri, 1, (use 0%nat 0%nat / ratio_resid exm 3 0 1 0 ri 0 0). split; [exact G|]. split; [|reflexivity].
  rewrite (surjective_pairing (mu_lam m 0 0)). f_equal.
  - apply Sp1. split; [lra|]. assert (E : link_resid exm 0 0 fp (fun _ => 1) 0 0 / ratio_resid exm 3 0 0 1 rp 0 0 = 1) by (rewrite Y0, X0; apply Rinv_r; lra). assert (X0' : ratio_resid exm 3 0 0 1 rp 0 0 <> 0) by (rewrite X0; lra). pose proof (best3 use _ (link_resid exm 0 0 fp (fun _ => 1)) U0' U1' U2 X0' X1) as B. rewrite E in B. exact B.
  - apply Sp2. split; [|apply best3; auto]. intros E. apply U0'. replace (use 0%nat 0%nat) with (use 0%nat 0%nat / ratio_resid exm 3 0 1 0 ri 0 0 * ratio_resid exm 3 0 1 0 ri 0 0) by (field; auto). rewrite E. ring.
Qed.

(** The pairs may name any columns: wrong, the fit fails when a column in no pair comes first. *)
Theorem C62_gap_refuted : exists how t ldf sigma names, munich_input t ldf 3 /\ names <> [] /\ (forall a b, In (a, b) names -> In a (vdims t) /\ In b (vdims t)) /\
  NoDup (map fst names) /\ NoDup (map snd names) /\ munich_fit how (Some names) t ldf sigma = Err KeyError.
Proof.
  set (t := mtri ["reported"%string; "paid"%string; "incurred"%string]
    [[[Some 1; Some 1; Some 1]; [Some 1; Some 1; None]; [Some 1; None; None]]; [[Some 4; Some 8; Some 8]; [Some 4; Some 12; None]; [Some 4; None; None]]; [[Some 8; Some 12; Some 12]; [Some 12; Some 24; None]; [Some 16; None; None]]]%Z).
  assert (M : munich_input t (exml ["reported"%string; "paid"%string; "incurred"%string]) 3) by by_mtri.
  assert (A : forall a b, In (a, b) nm -> In a (vdims t) /\ In b (vdims t)) by (intros a b [H|[]]; injection H as <- <-; cbn; auto).
  assert (N1 : NoDup (map fst nm)) by (repeat constructor; intros []). assert (N2 : NoDup (map snd nm)) by (repeat constructor; intros []).
  exists LogLinear, t, (exml ["reported"%string; "paid"%string; "incurred"%string]), sig1, nm. repeat (split; [assumption || discriminate|]).
  apply (C62_gap LogLinear t (exml ["reported"%string; "paid"%string; "incurred"%string]) 3 nm sig1 1 0 M); auto; try discriminate.
  - exists 0%nat, 2%nat. left. exists "paid"%string, "incurred"%string. auto.
  - intros (v & z & [(a & b & E1 & E2 & E3)|(a & b & E1 & E2 & E3)]); (destruct v as [|[|v]]; [|discriminate E1|discriminate E1]); injection E1 as <- <-; discriminate.
Qed.
Print Assumptions C62_gap_refuted.
(** With the default interpolation, an age at which the two amounts agree for every origin loses the paid amounts of all later ages. *)
Theorem C62_settled : forall t ldf n names sigma m v p q i d o e, munich_input t ldf n -> munich_fit LogLinear (Some names) t ldf sigma = Ok m -> pair_at t names v p q ->
  (i < ax0 (values t))%nat -> (S d < n)%nat -> (forall o, (o + d < n)%nat -> amount t i p o d = amount t i q o d) -> (d < e)%nat -> fst (mu_tri m i v o e) = None.
Proof.
  intros t ldf n names sigma m v p q i d o e M F P Hi Hd Same He. destruct (fit_facts _ _ _ _ _ _ _ _ _ _ M F P) as (lr & df & Ft).
  apply (C62_missing _ _ _ _ _ _ _ _ _ _ _ o d e M F P Hi); auto. right. right. left. rewrite (rhos_eq _ _ _ _ _ _ _ _ _ _ _ _ Ft). cbn [fst].
  assert (Ep : (p < ax1 (values t))%nat) by apply Ft. assert (Eq : (q < ax1 (values t))%nat) by apply Ft.
  apply (rho_none _ _ _ _ M Hi p q Ep Eq d Hd). unfold ratio_spread.
  assert (T : total t n i p d = total t n i q d) by (unfold total; apply rsumn_ext; intros k Hk; rewrite Same by lia; reflexivity).
  assert (Tp : 0 < total t n i p d) by (eapply total_pos; eauto; lia).
  rewrite (rsumn_ext _ _ (fun _ => 0)).
  - rewrite rsumn_zero; [|auto]. unfold Rdiv. rewrite Rmult_0_l. apply sqrt_0.
  - intros k Hk. unfold one_ratio, avg_ratio. rewrite <- T, <- (Same k) by lia. assert (rv (amount t i p k d) <> 0) by (eapply rv_nz; eauto; lia).
    replace (rv (amount t i p k d) / rv (amount t i p k d)) with 1 by (field; auto). replace (total t n i p d / total t n i p d) with 1 by (field; lra). ring.
Qed.
Print Assumptions C62_settled.
(** The completed triangle keeps the known amounts: wrong then. *)
Theorem C62_known_refuted : exists t ldf sigma m o d, munich_input t ldf 3 /\ pairs_ok t nm /\ munich_fit LogLinear (Some nm) t ldf sigma = Ok m /\
  (o + d < 3)%nat /\ amount t 0 0 o d = qc 8 /\ fst (mu_tri m 0 0 o d) = None /\ (forall i c d, sigma i c d <> None).
Proof.
  set (t := mtri ["paid"%string; "incurred"%string]
    [[[Some 4; Some 8; Some 8]; [Some 4; Some 12; None]; [Some 4; None; None]]; [[Some 8; Some 8; Some 8]; [Some 12; Some 12; None]; [Some 16; None; None]]]%Z).
  assert (M : munich_input t (exml ["paid"%string; "incurred"%string]) 3) by by_mtri. destruct (nm_first t eq_refl) as [Pk P].
  destruct (C62_fits LogLinear t _ 3 nm sig1 M Pk) as (m & F). exists t, (exml ["paid"%string; "incurred"%string]), sig1, m, 0%nat, 2%nat.
  split; [exact M|]. split; [exact Pk|]. split; [exact F|]. split; [lia|]. split; [vm_compute; reflexivity|]. split; [|discriminate].
  apply (C62_settled t (exml ["paid"%string; "incurred"%string]) 3 nm sig1 m 0 0 1 0 1 0 2 M F P); [cbn; lia|lia| |lia].
  intros o Ho. destruct o as [|[|o]]; [vm_compute; reflexivity|vm_compute; reflexivity|lia].
Qed.
Print Assumptions C62_known_refuted.
