(** Proofs about the Munich chain ladder: its factors, and what it refuses. *)
From Coq Require Import Lia Lra.
From Verif Require Import Spec TriFacts ArrFacts ConvFacts DevFacts P_Core P_Align2 P_Mack P_Bondy P_Corr4 P_Corr5 P_Munich1 P_Munich2 P_Munich3 P_Munich4 NumFacts SpecMunich.
Local Open Scope R_scope.

Lemma last_pair_none f l : forall k, (forall x, In x l -> f x = false) -> last_pair f k l = None.
Proof.
  induction l as [|x l IH]; intros k H; auto. cbn [last_pair]. rewrite IH by (intros; apply H; right; auto). rewrite H by (left; auto). reflexivity.
Qed.
Lemma last_pair_at f l : forall k v x, nth_error l v = Some x -> f x = true -> (forall v' x', nth_error l v' = Some x' -> f x' = true -> v' = v) -> last_pair f k l = Some (k + v)%nat.
Proof.
  induction l as [|y l IH]; intros k v x E Fx U; [destruct v; discriminate E|]. cbn [last_pair]. destruct v as [|v].
  - injection E as ->. rewrite last_pair_none, Fx; [f_equal; lia|]. intros z Hz. destruct (f z) eqn:Fz; auto. apply In_nth_error in Hz. destruct Hz as (j & Hj). specialize (U (S j) z Hj Fz). lia.
  - rewrite (IH (S k) v x); auto; [f_equal; lia|]. intros v' x' E' F'. specialize (U (S v') x' E' F'). lia.
Qed.
Lemma second_pair l v p q : NoDup (map snd l) -> nth_error l v = Some (p, q) -> last_pair (fun x => (snd x =? q)%nat) 0 l = Some v.
Proof.
  intros N E. apply (last_pair_at _ l 0%nat v (p, q)); auto; [apply Nat.eqb_refl|]. intros v' (p' & q') E' F. cbn [snd] in F. apply Nat.eqb_eq in F. subst q'.
  rewrite NoDup_nth_error in N. apply N; [rewrite map_length; apply nth_error_Some; congruence|]. rewrite (map_nth_error snd _ _ E), (map_nth_error snd _ _ E'). reflexivity.
Qed.
Lemma first_pair l v p q : NoDup (map fst l) -> nth_error l v = Some (p, q) -> last_pair (fun x => (fst x =? p)%nat) 0 l = Some v.
Proof.
  intros N E. apply (last_pair_at _ l 0%nat v (p, q)); auto; [apply Nat.eqb_refl|]. intros v' (p' & q') E' F. cbn [fst] in F. apply Nat.eqb_eq in F. subst p'.
  rewrite NoDup_nth_error in N. apply N; [rewrite map_length; apply nth_error_Some; congruence|]. rewrite (map_nth_error fst _ _ E), (map_nth_error fst _ _ E'). reflexivity.
Qed.
Lemma ratio_factor k (a : nat -> R) cdf d : (forall e, (e <= k)%nat -> a e <> 0) -> (forall e, (e < k)%nat -> cdf e = rdiv (Some (a k)) (Some (a e))) -> (d < k)%nat -> mu_factor k cdf d = Some (a (S d) / a d).
Proof.
  intros N C Hd. unfold mu_factor. rewrite (C d Hd), rdiv_some by (apply N; lia). assert (Nk := N k ltac:(lia)). assert (Nd := N d ltac:(lia)). assert (Ns := N (S d) ltac:(lia)).
  destruct (Nat.ltb_spec (S d) k) as [L|L].
  - rewrite (C (S d) L), rdiv_some by auto.
    assert (a k / a (S d) <> 0) by (intros E; apply Nk; transitivity (a k / a (S d) * a (S d)); [field; auto|rewrite E; ring]).
    rewrite rdiv_some by auto. f_equal. field. auto.
  - replace (S d) with k by lia. rewrite rdiv_some by lra. f_equal. field. auto.
Qed.
Lemma rprod_ratio (a : nat -> R) d k : (forall e, (e <= d + k)%nat -> a e <> 0) -> rprodn k (fun j => a (S (d + j)) / a (d + j)%nat) = a (d + k)%nat / a d.
Proof.
  intros N. induction k as [|k IH]; [cbn [rprodn]; rewrite Nat.add_0_r; field; apply N; lia|]. cbn [rprodn]. rewrite IH by (intros; apply N; lia). rewrite Nat.add_succ_r.
  pose proof (N d ltac:(lia)). pose proof (N (d + k)%nat ltac:(lia)). field. auto.
Qed.

Section Fit.
Variables (how : interpolation) (t lr ldf df : tri) (sigma : rrow) (n v p q : nat) (m : munich) (i : nat).
Hypothesis M : munich_input t ldf n.
Hypothesis F : fitted how t lr ldf df sigma n v p q m.
Lemma ldf_ages : ax3 (values ldf) = (n - 1)%nat.
Proof. destruct (mi_ldf _ _ _ M). lia. Qed.
Lemma cell_factor c o d : rt_cell (mu_ldf m) i c o d = mu_factor (n - 1) (mu_acc how t lr ldf df sigma (mu_pairs m) i c o) d.
Proof. rewrite (ft_m _ _ _ _ _ _ _ _ _ _ _ F) at 1. cbn [mu_result mu_ldf rt_cell mu_pairs]. rewrite ldf_ages. reflexivity. Qed.
Lemma tri_of_pair o d : (let x := nth v (mu_pairs m) (0, 0)%nat in mu_full how t ldf sigma (mu_lambda how t lr ldf df sigma i (fst x) (snd x)) i (fst x) (snd x) o d) = mu_tri m i v o d.
Proof. pose proof (ft_m _ _ _ _ _ _ _ _ _ _ _ F) as Em. transitivity (mu_tri (mu_result how t lr ldf df sigma (mu_pairs m)) i v o d); [reflexivity|rewrite <- Em; reflexivity]. Qed.
Lemma fit_incurred (b : nat -> R) o : (forall e, (e < n)%nat -> snd (mu_tri m i v o e) = Some (b e) /\ b e <> 0) ->
  forall d, (S d < n)%nat -> rt_cell (mu_ldf m) i q o d = Some (b (S d) / b d).
Proof.
  intros T d Hd. rewrite cell_factor. apply (ratio_factor (n - 1) b); [|intros e He|lia].
  - intros e He. apply T. lia.
  - unfold mu_acc. rewrite (second_pair _ v p q) by apply F. pose proof (tri_of_pair o e) as E1. pose proof (tri_of_pair o (n - 1)) as E2. cbv zeta in *. rewrite ldf_ages, E1, E2.
    destruct (T e ltac:(lia)) as (-> & _). destruct (T (n - 1)%nat ltac:(lia)) as (-> & _). reflexivity.
Qed.
Lemma fit_paid (a : nat -> R) o : (forall x y, nth_error (mu_pairs m) x <> Some (y, p)) -> (forall e, (e < n)%nat -> fst (mu_tri m i v o e) = Some (a e) /\ a e <> 0) ->
  forall d, (S d < n)%nat -> rt_cell (mu_ldf m) i p o d = Some (a (S d) / a d).
Proof.
  intros Np T d Hd. rewrite cell_factor. apply (ratio_factor (n - 1) a); [|intros e He|lia].
  - intros e He. apply T. lia.
  - unfold mu_acc. rewrite last_pair_none. 2:{ intros (x & y) Hx. cbn [snd]. apply Nat.eqb_neq. intros ->. apply In_nth_error in Hx. destruct Hx as (k & Hk). exact (Np _ _ Hk). }
    rewrite (first_pair _ v p q) by apply F. pose proof (tri_of_pair o e) as E1. pose proof (tri_of_pair o (n - 1)) as E2. cbv zeta in *. rewrite ldf_ages, E1, E2.
    destruct (T e ltac:(lia)) as (-> & _). destruct (T (n - 1)%nat ltac:(lia)) as (-> & _). reflexivity.
Qed.
Lemma fit_other c o : is_pattern ldf = true -> is_cumulative ldf = Some false -> (forall x y, nth_error (mu_pairs m) x <> Some (y, c) /\ nth_error (mu_pairs m) x <> Some (c, y)) ->
  (forall e, (S e < n)%nat -> exists f, cel ldf i c 0 e = Some f /\ f <> 0%Qc) -> forall d, (S d < n)%nat -> rt_cell (mu_ldf m) i c o d = r_of (cel ldf i c 0 d).
Proof.
  intros Pt Cu Nc Kn d Hd. rewrite cell_factor.
  set (f := fun e => nz (cel ldf i c 0 e)).
  assert (Kf : forall e, (S e < n)%nat -> cel ldf i c 0 e = Some (f e) /\ f e <> 0%Qc). { intros e He. destruct (Kn e He) as (x & E & N). unfold f. rewrite E. auto. }
  assert (Cd : forall e, (e < n - 1)%nat -> mu_acc how t lr ldf df sigma (mu_pairs m) i c o e = Some (rv (prodn (n - 1 - e) (fun k => f (e + k)%nat)))).
  { intros e He. unfold mu_acc. rewrite !last_pair_none.
    2:{ intros (x & y) Hx. cbn [fst]. apply Nat.eqb_neq. intros ->. apply In_nth_error in Hx. destruct Hx as (k & Hk). exact (proj2 (Nc _ _) Hk). }
    2:{ intros (x & y) Hx. cbn [snd]. apply Nat.eqb_neq. intros ->. apply In_nth_error in Hx. destruct Hx as (k & Hk). exact (proj1 (Nc _ _) Hk). }
    unfold incr_to_cum. rewrite Cu, Pt. unfold cel. cbn [set_cumulative set_values values av]. rewrite ldf_ages.
    assert (Nt : nan_triangle ldf 0 e = Some 1%Qc). { unfold nan_triangle. destruct (mi_ldf _ _ _ M) as (-> & E). pose proof (mi_n _ _ _ M). rewrite ldf_ages, Nat.min_l by lia. reflexivity. }
    rewrite Nt. cbn [cmul r_of option_map]. f_equal. f_equal. rewrite Qcmult_1_r. apply prodn_ext. intros k Hk.
    destruct (Kf (e + k)%nat ltac:(lia)) as (E & N). unfold cel in E. rewrite E. cbn [nz n2v]. destruct (Qc_eqb_spec (f (e + k)%nat) 0%Qc); [contradiction|reflexivity]. }
  assert (Np : forall e, rv (prodn (n - 1 - e) (fun k => f (e + k)%nat)) <> 0).
  { intros e E. apply rv_eq0 in E. revert E. apply prodn_ne. intros k Hk. apply Kf. lia. }
  unfold mu_factor. rewrite Cd by lia. destruct (Kf d Hd) as (-> & Nd). cbn [r_of option_map]. destruct (Nat.ltb_spec (S d) (n - 1)) as [L|L].
  - rewrite Cd by lia. rewrite rdiv_some by apply Np. f_equal. specialize (Np (S d)). replace (n - 1 - d)%nat with (S (n - 1 - S d)) by lia. rewrite prodn_S_l, rv_mult, Nat.add_0_r.
    rewrite (prodn_ext _ (fun i0 => f (d + S i0)%nat) (fun k => f (S d + k)%nat)) by (intros; f_equal; lia). field. exact Np.
  - rewrite rdiv_some by lra. f_equal. replace (n - 1 - d)%nat with 1%nat by lia. cbn [prodn]. rewrite Nat.add_0_r, Qcmult_1_l. field.
Qed.
Lemma fit_labels : odims (rt_frame (mu_ldf m)) = odims t /\ vdims (rt_frame (mu_ldf m)) = vdims ldf /\ kdims (rt_frame (mu_ldf m)) = kdims ldf /\
  ddims (rt_frame (mu_ldf m)) = dmap (firstn (n - 1)) (ddims t) /\ is_pattern (rt_frame (mu_ldf m)) = true /\ is_cumulative (rt_frame (mu_ldf m)) = Some false.
Proof.
  rewrite (ft_m _ _ _ _ _ _ _ _ _ _ _ F). cbn [mu_result mu_ldf rt_frame]. unfold mu_frame, set_vdate, set_cumulative, set_pattern, set_dims, set_values. cbn [odims vdims kdims ddims is_pattern is_cumulative].
  rewrite (ft_lrd _ _ _ _ _ _ _ _ _ _ _ F). repeat split.
Qed.
End Fit.

(** * What is refused *)
Lemma refuses_none how t ldf sigma : munich_fit how None t ldf sigma = Err ValueError.
Proof. reflexivity. Qed.
Lemma refuses_zero how names t ldf sigma n o0 a0 h i c o d : wf t -> square t n o0 a0 h -> (2 <= n)%nat -> in_range t i c o d -> ~ future t o d -> amount t i c o d = 0%Qc ->
  munich_fit how (Some names) t ldf sigma = Err ValueError.
Proof.
  intros W Q Hn Rg Nf Z. unfold munich_fit. fold (observed_zero t). assert (E : observed_zero t = true).
  { apply observed_zero_iff. exists i, c, o, d. split; auto. split; auto. pose proof Q as (_ & E2 & E3). destruct Rg as (_ & _ & Ro & Rd). rewrite (square_nan t n o0 a0 h) by (auto; lia).
    rewrite (square_future _ _ _ _ _ _ _ Q) in Nf by lia. apply negb_false_iff, Nat.ltb_lt. lia. }
  rewrite E. reflexivity.
Qed.
Lemma refuses_unknown how names t ldf sigma a b : In (a, b) names -> ~ In a (vdims t) \/ ~ In b (vdims t) -> munich_fit how (Some names) t ldf sigma = Err ValueError.
Proof.
  intros I N. unfold munich_fit. fold (observed_zero t). destruct (observed_zero t); auto.
  change (mapm (fun x : string * string => do p <- find_str (fst x) (vdims t); do q <- find_str (snd x) (vdims t); Ok (p, q)) names) with (mapm (pair_pos t) names).
  assert (E : mapm (pair_pos t) names = Err ValueError); [|rewrite E; reflexivity].
  assert (Er : forall x, pair_pos t x = Err ValueError \/ exists y, pair_pos t x = Ok y).
  { intros (x & y). unfold pair_pos. cbn [fst snd]. destruct (in_dec string_dec x (vdims t)) as [Ix|Nx]; [|left; rewrite find_str_err by auto; reflexivity].
    destruct (find_str_In x _ Ix) as (k & -> & _). cbn [rbind]. destruct (in_dec string_dec y (vdims t)) as [Iy|Ny]; [|left; rewrite find_str_err by auto; reflexivity].
    destruct (find_str_In y _ Iy) as (k' & -> & _). right. eexists. reflexivity. }
  assert (Eab : pair_pos t (a, b) = Err ValueError).
  { destruct (Er (a, b)) as [|((p & q) & E)]; auto. apply pair_pos_ok in E. cbn [fst snd] in E. destruct E as (Ea & Eb). apply nth_error_In in Ea, Eb. tauto. }
  induction names as [|x names IH]; [destruct I|]. cbn [mapm]. destruct I as [->|I]; [rewrite Eab; reflexivity|].
  destruct (Er x) as [->|(y & ->)]; [reflexivity|]. cbn [rbind]. rewrite IH by auto. reflexivity.
Qed.
Lemma refuses_gap how t ldf n names sigma c c' : munich_input t ldf n -> names <> [] -> (forall a b, In (a, b) names -> In a (vdims t) /\ In b (vdims t)) ->
  NoDup (map fst names) -> NoDup (map snd names) -> in_pair t names c -> (c' < c)%nat -> ~ in_pair t names c' -> munich_fit how (Some names) t ldf sigma = Err KeyError.
Proof.
  intros M Ns Ni P1 P2 Ic Lc Nc. destruct (mi_square _ _ _ M) as (o0 & a0 & h & Q). pose proof Q as (R & E2 & E3). pose proof (mi_n _ _ _ M) as Hn.
  unfold munich_fit. fold (observed_zero t). rewrite (no_zero_seen _ _ _ M).
  change (mapm (fun x : string * string => do p <- find_str (fst x) (vdims t); do q <- find_str (snd x) (vdims t); Ok (p, q)) names) with (mapm (pair_pos t) names).
  destruct (mapm_fwd (pair_pos t) names) as (pairs & Ep).
  { intros (a & b) I. destruct (Ni a b I) as (Ia & Ib). destruct (find_str_In a _ Ia) as (p & Fp & _). destruct (find_str_In b _ Ib) as (q & Fq & _).
    exists (p, q). unfold pair_pos. cbn [fst snd]. rewrite Fp, Fq. reflexivity. }
  rewrite Ep. cbn [rbind]. destruct (pairs_pos _ _ _ Ep) as (L & Pp).
  assert (Ne : pairs <> []) by (intros ->; destruct names; [contradiction|discriminate L]).
  destruct pairs as [|x0 pr] eqn:Ex; [contradiction|]. rewrite <- Ex in *.
  destruct (pairs_nodup _ _ _ Ep P1 P2) as (N1 & N2). apply nodupb_ok in N1, N2. rewrite N1, N2. cbn [andb negb].
  pose proof (mi_wf _ _ _ M) as W. pose proof (mi_blank _ _ _ M) as B. pose proof (positive_complete _ (mi_pos _ _ _ M)) as Cm.
  destruct (square_links t n o0 a0 h W B (mi_plain _ _ _ M) Q Cm ltac:(lia)) as (lr & El & _ & _ & _ & _ & _ & L3 & _).
  destruct (square_link_rows t n o0 a0 h W B (mi_plain _ _ _ M) Q Hn) as (lr' & El' & L2). assert (lr' = lr) by congruence. subst lr'. rewrite El. cbn [rbind].
  destruct (less_latest t n o0 a0 h W B Q Cm ltac:(lia)) as (l & df & -> & Ed & _). cbn [rbind]. rewrite Ed. cbn [rbind].
  destruct (mi_ldf _ _ _ M) as (F2 & F3). rewrite L2, L3, F2, F3, E2, E3. replace (S (n - 1)) with n by lia. rewrite !Nat.eqb_refl. cbn [andb negb]. cbv zeta. fold (covered pairs).
  destruct (covered pairs) eqn:Cv; [exfalso|reflexivity].
  unfold covered in Cv. rewrite forallb_forall in Cv. set (used := nodup Nat.eq_dec (flat_map (fun x => [fst x; snd x]) pairs)) in *.
  assert (Iff : forall c, In c used <-> in_pair t names c).
  { intros x. unfold used. rewrite nodup_In, in_used. split.
    - intros (v & y & [E|E]); exists v, y; [left|right]; apply Pp; auto.
    - intros (v & y & [E|E]); exists v, y; [left|right]; eapply pairs_pos_fun; eauto; apply (mi_names _ _ _ M). }
  assert (Inc : incl (seq 0 (List.length used)) used). { intros k Hk. specialize (Cv k Hk). apply existsb_exists in Cv. destruct Cv as (y & Hy & E). apply Nat.eqb_eq in E. subst. auto. }
  assert (Inc' : incl used (seq 0 (List.length used))) by (apply NoDup_length_incl; [apply seq_NoDup|rewrite seq_length; lia|exact Inc]).
  apply Iff in Ic. apply Inc' in Ic. apply in_seq in Ic. apply Nc, Iff, Inc, in_seq. lia.
Qed.
