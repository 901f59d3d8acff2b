(** Proofs about Berquist-Sherman: adjusted paid amounts and the whole triangle. *)
From Coq Require Import Lia Lra.
From Verif Require Import Spec TriFacts ArrFacts ConvFacts SliceFacts P_Core P_Filter P_Arith P_Agg P_Corr5 P_Additive2 P_Methods P_Select2 BcastFacts NumFacts SpecLoc P_Mack SpecBerq P_Berq1 P_Berq2 P_Berq3.
Local Open Scope nat_scope.

Lemma zpos_map (f : nat -> Z) m : forall s k, (forall a b, f a = f b -> a = b) -> s <= k -> zpos (f k) (map f (seq s m)) = if k <? s + m then Some (k - s) else None.
Proof.
  induction m as [|m IH]; intros s k I L; cbn [seq map zpos].
  - destruct (Nat.ltb_spec k (s + 0)); [lia|reflexivity].
  - destruct (Z.eqb_spec (f k) (f s)) as [E|E].
    + apply I in E. subst k. destruct (Nat.ltb_spec s (s + S m)); [|lia]. f_equal. lia.
    + assert (k <> s) by congruence. rewrite IH by (auto; lia). replace (S s + m) with (s + S m) by lia. destruct (k <? s + S m); cbn [option_map]; auto. f_equal. lia.
Qed.
Lemma partner_many f s m z : 2 <= m -> partner (map f (seq s m)) z = z.
Proof. intros. destruct m as [|[|m]]; [lia|lia|]. reflexivity. Qed.
Lemma incl_seq (f : nat -> Z) a b : a <= b -> forallb (fun z => existsb (Z.eqb z) (map f (seq 0 b))) (map f (seq 0 a)) = true.
Proof.
  intros L. apply forallb_forall. intros z Hz. apply in_map_iff in Hz. destruct Hz as (k & <- & Hk). apply in_seq in Hk. apply existsb_exists. exists (f k). split; [|apply Z.eqb_refl].
  apply in_map. apply in_seq. lia.
Qed.

Section Paid.
Variables (t : tri) (n h : nat) (o0 a0 : Z).
Hypotheses (W : wf t) (B : blank_future t) (Q : square t n o0 a0 h) (Hn : 2 <= n) (H0 : 1 <= ax0 (values t)).

(** The labels of the cells before the valuation date. *)
Lemma before_labels u f : part t n true true (vdate t) u f ->
  exists l, getitem_valuation u (fun o d => valuation u o d <? vdate u)%Z = Ok l /\
    odims l = map (fun k => (o0 + Z.of_nat (h * 1 * k))%Z) (seq 0 (n - 1)) /\ dlist (ddims l) = map (fun k => (a0 + Z.of_nat (h * k))%Z) (seq 0 (n - 1)).
Proof using W B Q Hn H0.
  intros P. pose proof (vd_ult t n h o0 a0 W Q Hn H0) as VU. assert (V : (vdate t <= vdate t <= ULT_VAL)%Z) by lia.
  pose proof (part_wf t n h o0 a0 W Q Hn H0 _ _ _ P V) as Wu. pose proof (part_square t n h o0 a0 Q _ _ P) as Qu. pose proof Qu as (R & E2 & E3). set (key := fun o d => (valuation u o d <? vdate u)%Z).
  assert (H1 : 1 <= h) by apply R.
  assert (K : forall o d, o < n -> d < n -> (key o d = true <-> o + d <= n - 2)).
  { intros o d Ho Hd. unfold key. rewrite valuation_month by (auto; lia). rewrite (square_month _ _ _ _ _ _ _ Qu Ho Hd), (square_vdate _ _ _ _ _ Qu), Z.ltb_lt. nia. }
  assert (Rw : kept_rows u key = seq 0 (n - 1)).
  { unfold kept_rows. rewrite E2. replace (seq 0 n) with (seq 0 (n - 1) ++ [n - 1]) by (replace n with (S (n - 1)) at 3 by lia; rewrite seq_S; reflexivity).
    rewrite filter_app. cbn [filter]. destruct (existsb _ _) eqn:E.
    - exfalso. apply existsb_exists in E. destruct E as (d & Hd & Kd). apply in_seq in Hd. apply K in Kd; lia.
    - rewrite app_nil_r. apply filter_all. intros o Ho. apply in_seq in Ho. apply existsb_exists. exists 0. split; [apply in_seq; lia|]. apply K; lia. }
  assert (Cl : kept_cols u key = seq 0 (n - 1)).
  { unfold kept_cols. rewrite E3. replace (seq 0 n) with (seq 0 (n - 1) ++ [n - 1]) by (replace n with (S (n - 1)) at 3 by lia; rewrite seq_S; reflexivity).
    rewrite filter_app. cbn [filter]. destruct (existsb _ _) eqn:E.
    - exfalso. apply existsb_exists in E. destruct E as (o & Ho & Kd). apply in_seq in Ho. apply K in Kd; lia.
    - rewrite app_nil_r. apply filter_all. intros d Hd. apply in_seq in Hd. apply existsb_exists. exists 0. split; [apply in_seq; lia|]. apply K; lia. }
  destruct (getitem_valuation_ok u key Wu ltac:(lia)) as (l & El & Su).
  - exists 0, 0. split; [lia|]. split; [lia|]. apply K; lia.
  - apply (evenly_interval _ _ 0 (n - 1)). intros o Ho. split; [intros (d & Hd & Kd); apply K in Kd; lia|]. intros L. exists 0. split; [lia|]. apply K; lia.
  - apply (evenly_interval _ _ 0 (n - 1)). intros d Hd. split; [intros (o & Ho & Kd); apply K in Kd; lia|]. intros L. exists 0. split; [lia|]. apply K; lia.
  - destruct R as (_ & _ & Ro & Rd & _). exists l. split; [exact El|]. split.
    + rewrite (sl_o _ _ _ Su), Rw, Ro, E2. unfold sel. apply map_ext_in. intros k Hk. apply in_seq in Hk. rewrite nth_map_seq by lia. reflexivity.
    + rewrite (sl_d _ _ _ Su), Cl, Rd, E3. cbn [dmap dlist]. unfold sel. apply map_ext_in. intros k Hk. apply in_seq in Hk. rewrite nth_map_seq by lia. reflexivity.
Qed.

Lemma paid_ok p adj fp fa a b : part t n true true (vdate t) p fp -> part t n true true (vdate t) adj fa ->
  exists g, bs_paid p adj a b = Ok g /\
    (3 <= n -> forall i o d, i < ax0 (values t) -> o < n -> d < n ->
      nzr (g i o d) = (if (o + d =? n - 1)%nat then rv (nz (fp i o d)) else if (o + d <? n - 1)%nat then nzr (rmul (rexp (rmul (r_of (fa i o d)) (b i o d))) (a i o d)) else 0)%R) /\
    (n = 2 -> forall i o d, i < ax0 (values t) -> o + d < n ->
      nzr (g i o d) = ((if (o + d =? n - 1)%nat then rv (nz (fp i o d)) else 0) + nzr (rmul (rexp (rmul (r_of (fa i 0%nat 0%nat)) (b i 0%nat 0%nat))) (a i 0%nat 0%nat)))%R).
Proof using W B Q Hn H0.
  intros Pp Pa. pose proof (vd_ult t n h o0 a0 W Q Hn H0) as VU. assert (V : (vdate t <= vdate t <= ULT_VAL)%Z) by lia.
  pose proof Q as (R & E2 & E3). destruct R as (H1 & _ & Ro & Rd & _). rewrite E2 in Ro. rewrite E3 in Rd.
  unfold bs_paid. destruct (part_diagonal t n h o0 a0 W B Q Hn H0 _ _ _ Pp V) as (lat & El & Pl & _). rewrite (pt_vd _ _ _ _ _ _ _ Pp), El. cbn [rbind].
  destruct (before_labels _ _ Pa) as (bef & Eb & Bo & Bd). rewrite Eb. cbn [rbind]. cbv zeta. rewrite Bo, Bd, (pt_o _ _ _ _ _ _ _ Pl), (pt_d _ _ _ _ _ _ _ Pl), Ro, Rd. cbn [dlist].
  rewrite !incl_seq by lia. cbn [andb negb]. rewrite (pt_2 _ _ _ _ _ _ _ Pl), (pt_3 _ _ _ _ _ _ _ Pl), (pt_2 _ _ _ _ _ _ _ Pp), (pt_3 _ _ _ _ _ _ _ Pp), !Nat.eqb_refl. cbn [andb negb].
  assert (Lt : forall o d, o < n -> d < n -> (month_of t o d <? vdate t)%Z = (o + d <? n - 1)).
  { intros o d Ho Hd. rewrite (square_month _ _ _ _ _ _ _ Q Ho Hd), (square_vdate _ _ _ _ _ Q). destruct (Nat.ltb_spec (o + d) (n - 1)); [apply Z.ltb_lt|apply Z.ltb_ge]; nia. }
  assert (Z : forall i o d (x : option R), x = None -> ((nzr (r_of (n2n (fp i o d))) + nzr x) * 1 = rv (nz (fp i o d)))%R).
  { intros i o d x ->. cbn [nzr]. rewrite nzr_of. replace (nz (n2n (fp i o d))) with (nz (fp i o d)); [ring|]. unfold n2n. destruct (fp i o d) as [q|]; auto. cbn [nz]. destruct (Qc_eqb_spec q 0%Qc); auto. }
  eexists. split; [reflexivity|]. split.
  { intros Hn3 i o d Hi Ho Hd. cbv beta.
    rewrite !partner_many by lia. rewrite (pt_o _ _ _ _ _ _ _ Pa), (pt_d _ _ _ _ _ _ _ Pa), Ro, Rd. cbn [dlist]. rewrite !nth_map_seq by lia. cbn [Nat.add].
    rewrite !(zpos_map (fun k => (o0 + Z.of_nat (h * 1 * k))%Z)), !(zpos_map (fun k => (a0 + Z.of_nat (h * k))%Z)) by (try lia; intros x y E; nia).
    cbn [Nat.add]. rewrite !Nat.sub_0_r. destruct (Nat.ltb_spec o n); [|lia]. destruct (Nat.ltb_spec d n); [|lia].
    rewrite nzr_rn2n. unfold nan_r. rewrite (part_nan t n h o0 a0 W Q Hn H0 _ _ _ o d Pl V Ho Hd), (part_nan t n h o0 a0 W Q Hn H0 _ _ _ o d Pa V Ho Hd).
    rewrite (seen_now t n h o0 a0 Q Hn H0) by auto. rewrite (pt_cell _ _ _ _ _ _ _ Pl) by auto. rewrite (part_valuation t n h o0 a0 W Q Hn H0 _ _ _ o d Pa V Ho Hd), (pt_vd _ _ _ _ _ _ _ Pa).
    rewrite (Lt o d) by auto. destruct (Nat.eqb_spec (o + d) (n - 1)) as [E|E].
    - destruct (Nat.ltb_spec (o + d) n); [|lia]. destruct (Nat.ltb_spec (o + d) (n - 1)); [lia|]. cbn [rmul nzr].
      apply (Z i o d); destruct (o <? n - 1), (d <? n - 1); reflexivity.
    - destruct (Nat.ltb_spec (o + d) (n - 1)) as [L|L].
      + destruct (Nat.ltb_spec (o + d) n); [|lia]. destruct (Nat.ltb_spec o (n - 1)); [|lia]. destruct (Nat.ltb_spec d (n - 1)); [|lia]. cbn [r_of option_map nzr]. cbn [rmul nzr]. rewrite (pt_cell _ _ _ _ _ _ _ Pa) by auto. rewrite nzr_rn2n. cbn [nzr]. ring.
      + destruct (Nat.ltb_spec (o + d) n); [lia|]. cbn [rmul nzr]. ring. }
  { intros En i o d Hi L. cbv beta. assert (Ho : o < n) by lia. assert (Hd : d < n) by lia. replace (n - 1) with 1 by lia. cbn [seq map partner].
    rewrite (pt_o _ _ _ _ _ _ _ Pa), (pt_d _ _ _ _ _ _ _ Pa), Ro, Rd. cbn [dlist].
    replace (seq 0 n) with [0; 1] by (rewrite En; reflexivity). cbn [map zpos]. rewrite !Z.eqb_refl. cbn [dlist].
    rewrite nzr_rn2n. unfold nan_r. rewrite (part_nan t n h o0 a0 W Q Hn H0 _ _ _ o d Pl V Ho Hd), (part_nan t n h o0 a0 W Q Hn H0 _ _ _ 0 0 Pa V) by lia.
    rewrite !(seen_now t n h o0 a0 Q Hn H0) by (auto; lia). rewrite (pt_cell _ _ _ _ _ _ _ Pl) by auto. rewrite (part_valuation t n h o0 a0 W Q Hn H0 _ _ _ 0 0 Pa V), (pt_vd _ _ _ _ _ _ _ Pa) by lia.
    rewrite (Lt 0 0) by lia. destruct (Nat.ltb_spec (0 + 0) (n - 1)); [|lia]. destruct (Nat.ltb_spec (o + d) n); [|lia]. destruct (Nat.ltb_spec (0 + 0) n); [|lia].
    rewrite (pt_cell _ _ _ _ _ _ _ Pa) by (auto; lia). cbn [rmul nzr]. rewrite !nzr_rn2n. cbn [nzr].
    replace (n - 1) with 1 by lia. destruct (Nat.eqb_spec (o + d) 1) as [E|E].
    - specialize (Z i o d None eq_refl). cbn [nzr] in Z. rewrite Rplus_0_r, Rmult_1_r in Z. rewrite Z. ring.
    - cbn [r_of option_map nzr]. ring. }
Qed.
End Paid.
