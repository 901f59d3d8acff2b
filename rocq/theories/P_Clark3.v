(** Proofs about ClarkLDF: the fit succeeds, and its factors, fitted increments, scale and residuals. *)
From Coq Require Import Reals Lra Lia.
From Verif Require Import Spec TriFacts ArrFacts NumFacts P_Mack P_Clark1 P_Clark2 SpecClark.
Local Open Scope nat_scope.

Lemma stores_r x q : stores x q -> q <> 0%Qc -> r_of x = Some (rv q).
Proof. intros (_ & B) N. rewrite (B N). reflexivity. Qed.
Lemma rmul_none x : rmul x None = None.
Proof. destruct x; reflexivity. Qed.
Lemma rv_neq q : q <> 0%Qc -> rv q <> 0%R.
Proof. intros N E. apply N, rv_eq0, E. Qed.
Lemma rsumn_cut n m f : m <= n -> (forall k, m <= k -> k < n -> f k = 0%R) -> rsumn n f = rsumn m f.
Proof. induction n as [|n IH]; intros L H; [replace m with 0 by lia; reflexivity|]. destruct (Nat.eq_dec m (S n)) as [->|]; [reflexivity|]. cbn [rsumn]. rewrite IH, H by (intros; try apply H; lia). ring. Qed.
Lemma rsumn_const n c : rsumn n (fun _ => c) = (INR n * c)%R.
Proof. induction n as [|n IH]; [cbn; ring|]. cbn [rsumn]. rewrite IH, S_INR. ring. Qed.

(** A sum over the whole triangle of what is there only in the known cells. *)
Lemma known_cells t n (I : clark_input t n) (f : nat -> nat -> option R) (x : nat -> nat -> R) :
  (forall o d, o < n -> d < n -> nzr (f o d) = if o + d <? n then x o d else 0%R) ->
  rsumn (ax2 (values t)) (fun o => rnansum (ax3 (values t)) (f o)) = known_sum n x.
Proof.
  intros H. pose proof (cl_dims _ _ I) as (E2 & E3). rewrite E2, E3. unfold known_sum. apply rsumn_ext. intros o Ho. unfold rnansum.
  rewrite (rsumn_cut n (n - o)) by (try lia; intros k A B; rewrite H by lia; destruct (Nat.ltb_spec (o + k) n); auto; lia).
  apply rsumn_ext. intros d Hd. rewrite H by lia. destruct (Nat.ltb_spec (o + d) n); auto; lia.
Qed.
Lemma known_sum_ext n x y : (forall o d, o + d < n -> x o d = y o d) -> known_sum n x = known_sum n y.
Proof. intros H. apply rsumn_ext. intros o Ho. apply rsumn_ext. intros d Hd. apply H. lia. Qed.
Lemma known_sum_one n : known_sum n (fun _ _ => 1%R) = (INR (n * (n + 1)) / 2)%R.
Proof.
  assert (A : forall m k, rsumn k (fun o => rsumn (m + k - o) (fun _ => 1%R)) = (INR (k * (2 * m + k + 1)) / 2)%R).
  { intros m k. revert m. induction k as [|k IH]; intros m; [cbn; lra|]. cbn [rsumn]. rewrite (rsumn_ext k _ (fun o => rsumn (S m + k - o) (fun _ => 1%R))) by (intros o Ho; f_equal; lia).
    rewrite IH, rsumn_const. replace (m + S k - k) with (S m) by lia. rewrite !mult_INR, !plus_INR, !S_INR, !mult_INR, !S_INR. cbn. lra. }
  specialize (A 0 n). cbn [Nat.add] in A. unfold known_sum. rewrite A. replace (2 * 0 + n + 1) with (n + 1) by lia. reflexivity.
Qed.

Section Fit.
Variables (t : tri) (n : nat) (g : growth) (om th : nat -> nat -> R) (weights : bool).
Hypothesis I : clark_input t n.
Hypothesis N : named_growth g.
Hypothesis Hom : forall i c, (0 < om i c)%R.
Hypothesis Hth : forall i c, (0 < th i c)%R.

(** The expected increment. *)
Definition expected i c o d : R := (grown_ultimate g t n (om i c) (th i c) i c o * period_share g t (om i c) (th i c) d)%R.
Definition free_cells : R := (INR (n * (n + 1)) / 2 - 2 - (if weights then 1 else INR n))%R.

Lemma age_share_period i c d : d < n -> age_share g t (th i c) (om i c) d = period_share g t (om i c) (th i c) d.
Proof using I N Hom Hth.
  intros Hd. unfold age_share, period_share, start_age. rewrite known_share_at by auto. rewrite end_average, interval_months.
  pose proof (average_pos t n I d Hd). rewrite growth_at_curve, (share_curve g _ _ (average_age t d)) by auto. reflexivity.
Qed.
Lemma period_share_pos i c d : d < n -> (0 < period_share g t (om i c) (th i c) d)%R.
Proof using I Hom Hth. intros Hd. unfold period_share. pose proof (months_pos t n I). pose proof (known_share_mono g _ _ (Hom i c) (Hth i c) (average_age t d - IZR (grain_months (dgrain t))) (average_age t d) ltac:(lra) (average_pos t n I d Hd)). lra. Qed.
Lemma curve_pos i c d : d < n -> (0 < growth_curve g (om i c) (th i c) (average_age t d) < 1)%R.
Proof using I Hom Hth. intros Hd. apply growth_range; auto. apply (average_pos t n I); auto. Qed.

Record fit_facts (r : clark) : Prop := {
  ff_k : kdims (rt_frame (ck_ldf r)) = kdims t; ff_v : vdims (rt_frame (ck_ldf r)) = vdims t;
  ff_o : odims (rt_frame (ck_ldf r)) = firstn 1 (odims t); ff_d : ddims (rt_frame (ck_ldf r)) = dmap (firstn (n - 1)) (ddims t);
  ff_2 : ax2 (values (rt_frame (ck_ldf r))) = 1; ff_3 : ax3 (values (rt_frame (ck_ldf r))) = n - 1;
  ff_p : is_pattern (rt_frame (ck_ldf r)) = true; ff_c : is_cumulative (rt_frame (ck_ldf r)) = Some false; ff_vd : vdate (rt_frame (ck_ldf r)) = ULT_VAL;
  ff_ldf : forall i c o d, S d < n -> rt_cell (ck_ldf r) i c o d = Some (growth_curve g (om i c) (th i c) (average_age t (S d)) / growth_curve g (om i c) (th i c) (average_age t d))%R;
  ff_ff : rt_frame (ck_fits r) = set_cumulative t (Some false); ff_fr : rt_frame (ck_resid r) = set_cumulative t (Some false);
  ff_fits : forall i c o d, i < ax0 (values t) -> c < ax1 (values t) -> o < n -> d < n -> amount t i c o (n - 1 - o) <> 0%Qc ->
    rt_cell (ck_fits r) i c o d = if o + d <? n then Some (expected i c o d) else None;
  ff_none : forall i c o d, i < ax0 (values t) -> c < ax1 (values t) -> o < n -> d < n -> amount t i c o (n - 1 - o) = 0%Qc ->
    rt_cell (ck_fits r) i c o d = None;
  ff_scale : forall i c, i < ax0 (values t) -> c < ax1 (values t) -> (forall o, o < n -> amount t i c o (n - 1 - o) <> 0%Qc) -> free_cells <> 0%R ->
    ck_scale r i c = Some (known_sum n (fun o d => (rv (increment_of t i c o d) - expected i c o d) ^ 2 / expected i c o d) / free_cells)%R;
  ff_resid : forall i c o d s, i < ax0 (values t) -> c < ax1 (values t) -> o + d < n -> amount t i c o (n - 1 - o) <> 0%Qc -> increment_of t i c o d <> 0%Qc ->
    ck_scale r i c = Some s -> (0 < s * expected i c o d)%R ->
    rt_cell (ck_resid r) i c o d = Some ((rv (increment_of t i c o d) - expected i c o d) / sqrt (s * expected i c o d))%R;
  ff_known : forall i c o d, o < n -> d < n -> n <= o + d -> rt_cell (ck_resid r) i c o d = None }.

Lemma clark_ok : exists r, clark_fit g om th weights t = Ok r /\ fit_facts r.
Proof using I N Hom Hth.
  pose proof (cl_wf _ _ I) as W. pose proof (cl_n _ _ I) as Hn. pose proof (cl_dims _ _ I) as (E2 & E3).
  destruct (clark_parts t n I) as (ld & inc & s & lat & lr & Eld & Einc & Es & Elat & Elr & P).
  unfold clark_fit. rewrite Eld, Einc, Es. cbn [rbind]. rewrite Elat. cbn [rbind].
  assert (G : forall A (x y : A), match g with OtherGrowth => x | _ => y end = y) by (intros; destruct N as [-> | ->]; reflexivity).
  rewrite G. rewrite (pa_lat _ _ _ _ _ _ P), (cl_len _ _ I), E2, E3, Nat.eqb_refl. cbn [andb].
  assert (F : forallb (fun x => if Rlt_dec (age_offset (dgrain t)) (IZR x) then true else false) (dlist (ddims t)) = true).
  { apply forallb_forall. intros x Hx. apply (In_nth _ _ 0%Z) in Hx. destruct Hx as (d & Hd & <-). rewrite (cl_len _ _ I) in Hd.
    pose proof (average_pos t n I d Hd) as A. rewrite <- end_average in A. unfold end_age in A. destruct (Rlt_dec (age_offset (dgrain t)) (IZR (nth d (dlist (ddims t)) 0%Z))); auto. lra. }
  rewrite F. cbn [negb]. rewrite Elr. cbn [rbind].
  assert (Cdf : forall i c k, k < n -> inv_growth g (th i c) (om i c) (IZR (nth k (dlist (ddims t)) 0%Z) - age_offset (dgrain t)) = Some (/ growth_curve g (om i c) (th i c) (average_age t k))%R).
  { intros i c k Hk. rewrite <- (end_average t k). unfold end_age. apply inv_growth_curve; auto. pose proof (average_pos t n I k Hk) as A. rewrite <- end_average in A. exact A. }
  assert (Nz : forall i c k, k < n -> growth_curve g (om i c) (th i c) (average_age t k) <> 0%R) by (intros i c k Hk; pose proof (curve_pos i c k Hk); lra).
  set (fit := fun i c o d => rmul (rmul (Some (age_share g t (th i c) (om i c) d)) (rmul (inv_growth g (th i c) (om i c) (IZR (nth (n - 1 - o) (dlist (ddims t)) 0%Z) - age_offset (dgrain t))) (r_of (cel ld i c o 0)))) (nan_r t o d)).
  assert (Fit : forall i c o d, i < ax0 (values t) -> c < ax1 (values t) -> o < n -> d < n -> amount t i c o (n - 1 - o) <> 0%Qc -> fit i c o d = if o + d <? n then Some (expected i c o d) else None).
  { intros i c o d Hi Hc Ho Hd Na. unfold fit. rewrite Cdf by lia. rewrite (stores_r _ _ (pa_ld _ _ _ _ _ _ P i c o Hi Hc Ho) Na), (nan_r_known t n I) by auto. cbn [rmul]. destruct (Nat.ltb_spec (o + d) n); [|reflexivity].
    cbn [rmul]. f_equal. unfold expected, grown_ultimate. rewrite age_share_period by auto. unfold Rdiv. ring. }
  assert (FitN : forall i c o d, o < n -> d < n -> n <= o + d -> fit i c o d = None).
  { intros i c o d Ho Hd L. unfold fit. rewrite (nan_r_known t n I) by auto. destruct (Nat.ltb_spec (o + d) n); [lia|]. apply rmul_none. }
  assert (Df : (rsumn n (fun o => rnansum n (fun d => nan_r t o d)) - 2 - (if weights then 1 else INR n))%R = free_cells).
  { pose proof (known_cells t n I (fun o d => nan_r t o d) (fun _ _ => 1%R)) as Kc. rewrite E2, E3 in Kc. cbv beta in Kc. unfold free_cells. rewrite <- known_sum_one, <- Kc; [reflexivity|].

    intros o d Ho Hd. rewrite (nan_r_known t n I) by auto. destruct (o + d <? n); reflexivity. }
  eexists. split; [reflexivity|]. rewrite Df. fold fit.
  set (sc := fun i c => rdiv (Some (rsumn n (fun o => rnansum n (fun d => rdiv (Some ((nzr (fit i c o d) - nzr (r_of (cel inc i c o d))) ^ 2)%R) (rn2n (fit i c o d)))))) (Some free_cells)).
  constructor; cbn [ck_ldf ck_fits ck_scale ck_resid rt_frame rt_cell]; try reflexivity.
  - exact (pa_lr _ _ _ _ _ _ P).
  - intros i c o d Hd. rewrite !Cdf by lia. cbn [rdiv]. pose proof (Nz i c d ltac:(lia)) as N1. pose proof (Nz i c (S d) Hd) as N2.
    destruct (Req_EM_T _ 0) as [E|E]; [exfalso; revert E; apply Rinv_neq_0_compat; auto|]. f_equal. field. auto.
  - exact Fit.
  - intros i c o d Hi Hc Ho Hd Za. change (fit i c o d = None). unfold fit. rewrite (proj1 (pa_ld _ _ _ _ _ _ P i c o Hi Hc Ho) Za). rewrite Cdf by lia. reflexivity.
  - intros i c Hi Hc Na Fn. change (sc i c = Some (known_sum n (fun o d => (rv (increment_of t i c o d) - expected i c o d) ^ 2 / expected i c o d) / free_cells)%R). unfold sc. cbn [rdiv].
    destruct (Req_EM_T free_cells 0) as [E|E]; [contradiction|]. f_equal. f_equal.
    pose proof (known_cells t n I (fun o d => rdiv (Some ((nzr (fit i c o d) - nzr (r_of (cel inc i c o d))) ^ 2)%R) (rn2n (fit i c o d))) (fun o d => ((rv (increment_of t i c o d) - expected i c o d) ^ 2 / expected i c o d)%R)) as Kc.
    rewrite E2, E3 in Kc. apply Kc. intros o d Ho Hd. rewrite Fit by auto. destruct (Nat.ltb_spec (o + d) n) as [L|L]; [|reflexivity].
    assert (Ne : expected i c o d <> 0%R).
    { unfold expected, grown_ultimate. pose proof (period_share_pos i c d Hd). pose proof (Nz i c (n - 1 - o) ltac:(lia)). pose proof (rv_neq _ (Na o Ho)).
      apply Rmult_integral_contrapositive_currified; [|lra]. unfold Rdiv. apply Rmult_integral_contrapositive_currified; auto. apply Rinv_neq_0_compat; auto. }
    cbn [nzr]. rewrite nzr_of, (pa_inc _ _ _ _ _ _ P) by auto. cbn [rn2n]. destruct (Req_EM_T (expected i c o d) 0); [contradiction|]. cbn [rdiv]. destruct (Req_EM_T (expected i c o d) 0); [contradiction|]. cbn [nzr]. field. auto.
  - intros i c o d x Hi Hc Ho Na Ni Sx Px. change (sc i c = Some x) in Sx. change (rdiv (rsub (r_of (cel inc i c o d)) (fit i c o d)) (rsqrt (rmul (sc i c) (fit i c o d))) = Some ((rv (increment_of t i c o d) - expected i c o d) / sqrt (x * expected i c o d))%R).
    rewrite Sx, Fit by (auto; lia). destruct (Nat.ltb_spec (o + d) n) as [L|L]; [|lia]. cbn [rmul rsqrt].
    assert (Ri : r_of (cel inc i c o d) = Some (rv (increment_of t i c o d))).
    { pose proof (pa_inc _ _ _ _ _ _ P i c o d Hi Hc Ho) as A. destruct (cel inc i c o d) as [q|]; cbn [nz] in A; [rewrite A; reflexivity|]. congruence. }
    rewrite Ri. destruct (Rlt_dec (x * expected i c o d) 0); [lra|]. cbn [rsub rdiv]. pose proof (sqrt_lt_R0 _ Px). destruct (Req_EM_T (sqrt (x * expected i c o d)) 0); [lra|]. reflexivity.
  - intros i c o d Ho Hd L. change (rdiv (rsub (r_of (cel inc i c o d)) (fit i c o d)) (rsqrt (rmul (sc i c) (fit i c o d))) = None). rewrite FitN by auto. destruct (r_of _); reflexivity.
Qed.
End Fit.
