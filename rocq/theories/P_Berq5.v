(** Proofs about Berquist-Sherman: the fitted adjustment. *)
From Coq Require Import Lia Lra.
From Verif Require Import Spec TriFacts ArrFacts ConvFacts SliceFacts P_Core P_Filter P_Arith P_Agg P_Corr5 P_Additive2 P_Methods P_Select2 BcastFacts NumFacts SpecLoc P_Mack SpecBerq P_Berq1 P_Berq2 P_Berq3 P_Berq4.
Local Open Scope nat_scope.

(** All cells up to the valuation date are all rows and columns. *)
Lemma all_known t n o0 a0 h : wf t -> square t n o0 a0 h -> 2 <= n ->
  exists u, getitem_valuation t (fun o d => valuation t o d <=? vdate t)%Z = Ok u /\
    kdims u = kdims t /\ key_labels u = key_labels t /\ vdims u = vdims t /\ odims u = odims t /\ ddims u = ddims t /\ vdate u = vdate t /\
    ograin u = ograin t /\ dgrain u = dgrain t /\ is_cumulative u = is_cumulative t /\ is_pattern u = is_pattern t /\
    ax0 (values u) = ax0 (values t) /\ ax1 (values u) = ax1 (values t) /\ ax2 (values u) = n /\ ax3 (values u) = n.
Proof.
  intros W Q Hn. pose proof Q as (R & E2 & E3). set (key := fun o d => (valuation t o d <=? vdate t)%Z).
  assert (H1 : 1 <= h) by apply R.
  assert (K : forall o d, o < n -> d < n -> (key o d = true <-> o + d <= n - 1)).
  { intros o d Ho Hd. unfold key. rewrite valuation_month by (auto; lia). rewrite (square_month _ _ _ _ _ _ _ Q Ho Hd), (square_vdate _ _ _ _ _ Q), Z.leb_le. nia. }
  assert (Rw : kept_rows t key = seq 0 n).
  { unfold kept_rows. rewrite E2. apply filter_all. intros o Ho. apply in_seq in Ho. apply existsb_exists. exists 0. split; [apply in_seq; lia|]. apply K; lia. }
  assert (Cl : kept_cols t key = seq 0 n).
  { unfold kept_cols. rewrite E3. apply filter_all. intros o Ho. apply in_seq in Ho. apply existsb_exists. exists 0. split; [apply in_seq; lia|]. apply K; lia. }
  destruct (getitem_valuation_ok t key W ltac:(lia)) as (l & El & Sl).
  - exists 0, 0. split; [lia|]. split; [lia|]. apply K; lia.
  - apply (evenly_interval _ _ 0 n). intros o Ho. split; [lia|]. intros L. exists 0. split; [lia|]. apply K; lia.
  - apply (evenly_interval _ _ 0 n). intros d Hd. split; [lia|]. intros L. exists 0. split; [lia|]. apply K; lia.
  - exists l. split; [exact El|]. repeat split; try apply Sl.
    + rewrite (sl_o _ _ _ Sl), Rw. apply sel_seq_all. rewrite <- (wf_o _ W). auto.
    + rewrite (sl_d _ _ _ Sl), Cl. pose proof (wf_d _ W) as Wd. destruct (ddims t) as [x|x]; cbn [dmap dlist] in *; f_equal; apply sel_seq_all; congruence.
    + pose proof (sl_vle _ _ _ Sl). pose proof (sl_vge _ _ _ Sl 0 (n - 1) ltac:(lia) ltac:(lia) ltac:(apply K; lia)) as G.
      rewrite (square_month _ _ _ _ _ _ _ Q) in G by lia. rewrite (square_vdate _ _ _ _ _ Q) in *. cbn [Nat.add] in G. lia.
    + rewrite (sl_2 _ _ _ Sl), Rw. apply seq_length.
    + rewrite (sl_3 _ _ _ Sl), Cl. apply seq_length.
Qed.

(** The adjusted closed count of a known cell. *)
Definition closed_cell (t ult : tri) (n : nat) (k : columns) (i o d : nat) : cell :=
  match n2n (cel t i (cc k) (n - 1 - d) d) with Some q => Some (q / amount ult i 0 (n - 1 - d) 0 * amount ult i 0 o 0)%Qc | None => None end.
(** The first of the two ages. *)
Definition look_at (t ult : tri) (n : nat) (k : columns) (i o d : nat) : nat :=
  Nat.min (Nat.max (List.length (filter (fun m => above (closed_cell t ult n k i o d) (cel t i (cc k) o m)) (seq 0 n))) 1 - 1) (n - o - 2).
Definition b_at (t : tri) (k : columns) (i o m : nat) : option R :=
  curve_b (r_of (cel t i (cc k) o m)) (r_of (cel t i (cc k) o (S m))) (rlog (r_of (cel t i (cp k) o m))) (rlog (r_of (cel t i (cp k) o (S m)))).
Definition a_at (t : tri) (k : columns) (i o m : nat) : option R :=
  curve_a (b_at t k i o m) (r_of (cel t i (cc k) o m)) (r_of (cel t i (cc k) o (S m))) (rlog (r_of (cel t i (cp k) o m))) (rlog (r_of (cel t i (cp k) o (S m)))).

Record berq_facts (pw : Qc -> Z -> Qc) (rate : Qc) (t ult : tri) (n : nat) (k : columns) (r : berq) : Prop := {
  bf_labels : let u := rt_frame (bq_tri r) in
    kdims u = kdims t /\ key_labels u = key_labels t /\ vdims u = vdims t /\ odims u = odims t /\ ddims u = ddims t /\ vdate u = vdate t /\
    ograin u = ograin t /\ dgrain u = dgrain t /\ is_cumulative u = is_cumulative t /\ is_pattern u = is_pattern t /\
    ax0 (values u) = ax0 (values t) /\ ax1 (values u) = ax1 (values t) /\ ax2 (values u) = n /\ ax3 (values u) = n;
  bf_future : forall i c o d, o < n -> d < n -> n <= o + d -> rt_cell (bq_tri r) i c o d = None;
  bf_zero : forall i c o d, rt_cell (bq_tri r) i c o d <> Some 0%R;
  bf_other : forall i c o d, i < ax0 (values t) -> o + d < n -> c <> cp k -> c <> ci k -> c <> cc k -> rt_cell (bq_tri r) i c o d = rn2n (r_of (cel t i c o d));
  bf_incurred : forall i o d, i < ax0 (values t) -> o + d < n ->
    adjusted r i (ci k) o d = rv (amount t i (cp k) o d + level_add t n pw rate (case_at t k i) (open_at t k i) o d)%Qc;
  bf_closed : forall i o d, i < ax0 (values t) -> o + d < n -> adjusted r i (cc k) o d = rv (nz (closed_cell t ult n k i o d));
  bf_latest : 3 <= n -> forall i o d, i < ax0 (values t) -> o + d = n - 1 -> adjusted r i (cp k) o d = rv (amount t i (cp k) o d);
  bf_a : forall i o d, i < ax0 (values t) -> o + d < n - 1 -> bq_a r i o d = rmul (a_at t k i o (look_at t ult n k i o d)) (Some 1%R);
  bf_b : forall i o d, i < ax0 (values t) -> o + d < n - 1 -> bq_b r i o d = rmul (b_at t k i o (look_at t ult n k i o d)) (Some 1%R);
  bf_paid : 3 <= n -> forall i o d, i < ax0 (values t) -> o + d < n - 1 ->
    adjusted r i (cp k) o d = nzr (rmul (rexp (rmul (r_of (closed_cell t ult n k i o d)) (bq_b r i o d))) (bq_a r i o d));
  bf_two : n = 2 -> forall i o d, i < ax0 (values t) -> o + d < n ->
    adjusted r i (cp k) o d = ((if (o + d =? 1)%nat then rv (amount t i (cp k) o d) else 0) + nzr (rmul (rexp (rmul (r_of (closed_cell t ult n k i 0%nat 0%nat)) (bq_b r i 0%nat 0%nat))) (bq_a r i 0%nat 0%nat)))%R;
  bf_rate : forall i o d, i < ax0 (values t) -> o < n -> d < n -> cel (bq_rate r) i 0 o d = cdiv (cel t i (cc k) o d) (Some (amount ult i 0 o 0)) }.

Lemma in_mem x l : In x l -> mem_str x l = true.
Proof. intros H. apply existsb_exists. exists x. split; auto. apply String.eqb_refl. Qed.
Lemma put_ok (a : arr) c (b : arr) : ax0 b = ax0 a -> ax1 b = 1 -> ax2 b = ax2 a -> ax3 b = ax3 a ->
  exists v, put_column a c b = Ok v /\ ax0 v = ax0 a /\ ax1 v = ax1 a /\ ax2 v = ax2 a /\ ax3 v = ax3 a /\
    forall i c' o d, i < ax0 a -> o < ax2 a -> d < ax3 a -> av v i c' o d = if c' =? c then av b i 0 o d else av a i c' o d.
Proof.
  intros E0 E1 E2 E3. unfold put_column. rewrite E0, E1, E2, E3. assert (F : forall m, fits m m = true) by (intros m; unfold fits; rewrite Nat.eqb_refl; try apply orb_true_r; reflexivity).
  rewrite !F. cbn [andb]. eexists. split; [reflexivity|]. repeat split. intros i c' o d Hi Ho Hd. cbn [av]. rewrite !bidx_lt by auto. reflexivity.
Qed.
Lemma count_upto (p : nat -> bool) n : (forall m, 0 < m < n -> p m = false) -> List.length (filter p (seq 0 n)) <= 1.
Proof.
  intros H. destruct n as [|n]; [cbn; lia|]. cbn [seq filter]. rewrite (filter_none p (seq 1 n)) by (intros x Hx; apply in_seq in Hx; apply H; lia). destruct (p 0); cbn; lia.
Qed.
Lemma filter_ext_len (p q : nat -> bool) l : (forall m, In m l -> p m = q m) -> List.length (filter p l) = List.length (filter q l).
Proof. intros H. rewrite (filter_ext_in _ _ _ H). reflexivity. Qed.

Lemma berq_ok nm pw rate t ult n k : berq_input nm t ult n k -> exists r, berq_fit pw rate nm t ult = Ok r /\ berq_facts pw rate t ult n k r.
Proof.
  intros [W Bl (o0 & a0 & h & Q) Hn H0 Nd Ep Ei Er Ec Nk Df Uk Ukl Uv Uo Ud Uog Uvd U0 U1 U2 U3 Up].
  pose proof Hn as Hn2. pose proof Q as (_ & E2 & E3).
  assert (Pu : part t n true false (vdate ult) ult (fun i o _ => Some (amount ult i 0 o 0))).
  { constructor; auto; [discriminate|]. intros i o d Hi Ho Hd. assert (d = 0) by lia. subst d. specialize (Up i o Hi Ho). unfold amount in *. destruct (cel ult i 0 o 0) as [q|]; auto. cbn in Up. exfalso. revert Up. apply Qclt_irrefl || (intros X; discriminate X). }
  unfold berq_fit.
  rewrite (in_mem (bn_paid nm)), (in_mem (bn_incurred nm)), (in_mem (bn_reported nm)), (in_mem (bn_closed nm)) by (eapply nth_error_In; eauto). cbn [andb negb].
  destruct (column_part t n h o0 a0 W Q Hn2 H0 _ _ Nd Er ltac:(apply Nk; cbn; auto)) as (rp & Erp & Pr & _). rewrite Erp. cbn [rbind].
  destruct (column_part t n h o0 a0 W Q Hn2 H0 _ _ Nd Ec ltac:(apply Nk; cbn; auto 6)) as (cl & Ecl & Pc & _). rewrite Ecl. cbn [rbind].
  destruct (column_part t n h o0 a0 W Q Hn2 H0 _ _ Nd Ei ltac:(apply Nk; cbn; auto)) as (iv & Eiv & Pi & _). rewrite Eiv. cbn [rbind].
  destruct (column_part t n h o0 a0 W Q Hn2 H0 _ _ Nd Ep ltac:(apply Nk; cbn; auto)) as (p & Epd & Pp & _). rewrite Epd. cbn [rbind].
  destruct (incurred_ok t n h o0 a0 W Bl Q Hn2 H0 pw rate p iv rp cl _ _ _ _ Pp Pi Pr Pc) as (ai & Eai & Pai). rewrite Eai. cbn [rbind].
  destruct (closed_ok t n h o0 a0 W Bl Q Hn2 H0 cl ult _ _ _ Pc Pu Uvd) as (rt & adj & Ecd & Prt & Pad).
  { intros i o Hi Ho. eexists. split; [reflexivity|]. intros E. specialize (Up i o Hi Ho). rewrite E in Up. revert Up. clear. intros X; discriminate X. }
  rewrite Ecd. cbn [rbind fst snd]. cbv zeta.
  rewrite (pt_2 _ _ _ _ _ _ _ Pad), (pt_3 _ _ _ _ _ _ _ Pad), (pt_2 _ _ _ _ _ _ _ Pc), (pt_3 _ _ _ _ _ _ _ Pc), !Nat.eqb_refl. cbn [andb negb].
  assert (Sn : forall o d, o + d < n -> seen t (vdate ult) o d = true).
  { intros o d L. unfold seen. pose proof (square_future _ _ _ _ _ o d Q ltac:(lia) ltac:(lia)) as F. unfold future in F. destruct (Z.ltb_spec (vdate ult) (month_of t o d)); auto. lia. }
  assert (Ca : forall i o d, i < ax0 (values t) -> o + d < n -> cel adj i 0 o d = closed_cell t ult n k i o d).
  { intros i o d Hi L. rewrite (pt_cell _ _ _ _ _ _ _ Pad) by (auto; lia). rewrite Sn by auto. reflexivity. }
  assert (Lk : forall i o d, i < ax0 (values t) -> o + d < n - 1 -> bs_lookup cl adj i o d = look_at t ult n k i o d).
  { intros i o d Hi L. unfold bs_lookup, look_at. rewrite (pt_2 _ _ _ _ _ _ _ Pad), (pt_3 _ _ _ _ _ _ _ Pad), (pt_3 _ _ _ _ _ _ _ Pc), Nat.min_id. destruct (Nat.ltb_spec o (n - 1)); [|lia].
    do 3 f_equal. apply filter_ext_len. intros m Hm. apply in_seq in Hm. rewrite Ca by (auto; lia). rewrite (pt_cell _ _ _ _ _ _ _ Pc) by (auto; lia). reflexivity. }
  assert (Lb : forall i o d, i < ax0 (values t) -> o < n -> bs_lookup cl adj i o d < n - 1).
  { intros i o d Hi Ho. unfold bs_lookup. rewrite (pt_2 _ _ _ _ _ _ _ Pad), (pt_3 _ _ _ _ _ _ _ Pad), (pt_3 _ _ _ _ _ _ _ Pc), Nat.min_id. destruct (Nat.ltb_spec o (n - 1)); [lia|].
    assert (X : List.length (filter (fun m => above (cel adj i 0 o d) (cel cl i 0 o m)) (seq 0 n)) <= 1); [|lia].
    apply count_upto. intros m Hm. rewrite (pt_cell _ _ _ _ _ _ _ Pc) by (auto; lia). rewrite (Bl i (cc k) o m).
    - unfold above. destruct (cel adj i 0 o d); reflexivity.
    - repeat split; try lia. rewrite (wf_v _ W). apply nth_error_Some. congruence.
    - rewrite (square_future _ _ _ _ _ _ _ Q); lia. }
  destruct (existsb _ (seq 0 (ax0 (values adj)))) eqn:Ex.
  { exfalso. apply existsb_exists in Ex. destruct Ex as (i & Hi & Ex). apply existsb_exists in Ex. destruct Ex as (o & Ho & Ex). apply existsb_exists in Ex. destruct Ex as (d & Hd & Ex).
    apply in_seq in Hi. apply in_seq in Ho. rewrite (pt_0 _ _ _ _ _ _ _ Pad) in Hi. apply Nat.leb_le in Ex. specialize (Lb i o d ltac:(lia) ltac:(lia)). lia. }
  set (a := fun i o d : nat => rmul (bs_a p cl i o (bs_lookup cl adj i o d)) (nan_r adj o d)). set (b := fun i o d : nat => rmul (bs_b p cl i o (bs_lookup cl adj i o d)) (nan_r adj o d)).
  destruct (paid_ok t n h o0 a0 W Bl Q Hn H0 p adj _ _ a b Pp Pad) as (g & Eg & Pg & Pg2). rewrite Eg. cbn [rbind].
  rewrite !(pos_of_at _ _ _ Nd Ep), !(pos_of_at _ _ _ Nd Ei), !(pos_of_at _ _ _ Nd Ec).
  destruct (put_ok (values t) (ci k) (values ai)) as (v1 & E1 & A0 & A1 & A2 & A3 & C1); rewrite ?(pt_0 _ _ _ _ _ _ _ Pai), ?(pt_1 _ _ _ _ _ _ _ Pai), ?(pt_2 _ _ _ _ _ _ _ Pai), ?(pt_3 _ _ _ _ _ _ _ Pai); auto.
  rewrite E1. cbn [rbind].
  destruct (put_ok v1 (cc k) (values adj)) as (v2 & Ev2 & B0 & B1 & B2 & B3 & C2); rewrite ?(pt_0 _ _ _ _ _ _ _ Pad), ?(pt_1 _ _ _ _ _ _ _ Pad), ?(pt_2 _ _ _ _ _ _ _ Pad), ?(pt_3 _ _ _ _ _ _ _ Pad); auto; try congruence.
  rewrite Ev2. cbn [rbind]. rewrite A0, A2, A3, E2, E3 in C2. rewrite E2, E3 in C1.
  destruct (all_known t n o0 a0 h W Q Hn2) as (u & Eu & Fu). rewrite Eu. cbn [rbind]. destruct Fu as (F1 & F2 & F3 & F4 & F5 & F6 & F7 & F8 & F9 & F10 & F11 & F12 & F13 & F14).
  rewrite F13, F14, E2, E3, !Nat.eqb_refl. cbn [andb negb].
  assert (D1 : cp k <> ci k /\ cp k <> cr k /\ cp k <> cc k /\ ci k <> cc k /\ ci k <> cr k /\ cr k <> cc k).
  { inversion Df as [|x1 l1 X1 Df1]; subst. inversion Df1 as [|x2 l2 X2 Df2]; subst. inversion Df2 as [|x3 l3 X3 Df3]; subst. cbn in X1, X2, X3. clear - X1 X2 X3; lia. }
  destruct D1 as (D1 & _ & D3 & D4 & _ & _).
  assert (Rep : (cp k =? ci k) || (cp k =? cc k) = false) by (destruct (Nat.eqb_spec (cp k) (ci k)), (Nat.eqb_spec (cp k) (cc k)); auto; contradiction).
  rewrite Rep. eexists. split; [reflexivity|].
  assert (Kn : forall o d, o < n -> d < n -> (valuation t o d <=? vdate t)%Z = (o + d <? n)).
  { intros o d Ho Hd. rewrite valuation_month by (auto; lia). pose proof (square_future _ _ _ _ _ o d Q Ho Hd) as F. unfold future in F. destruct (Z.leb_spec (month_of t o d) (vdate t)), (Nat.ltb_spec (o + d) n); auto; lia. }
  assert (VU := vd_ult t n h o0 a0 W Q Hn2 H0).
  assert (Na : forall o d, o + d < n -> nan_r adj o d = Some 1%R).
  { intros o d L. unfold nan_r. rewrite (part_nan t n h o0 a0 W Q Hn2 H0 _ _ _ o d Pad) by lia. rewrite (seen_now t n h o0 a0 Q Hn2 H0) by lia. destruct (Nat.ltb_spec (o + d) n); [reflexivity|lia]. }
  assert (Bb : forall i o m, i < ax0 (values t) -> o < n -> S m < n -> bs_b p cl i o m = b_at t k i o m).
  { intros i o m Hi Ho Hm. unfold bs_b, b_at. rewrite !(pt_cell _ _ _ _ _ _ _ Pc), !(pt_cell _ _ _ _ _ _ _ Pp) by (auto; lia). reflexivity. }
  assert (Ba : forall i o m, i < ax0 (values t) -> o < n -> S m < n -> bs_a p cl i o m = a_at t k i o m).
  { intros i o m Hi Ho Hm. unfold bs_a, a_at. rewrite Bb, !(pt_cell _ _ _ _ _ _ _ Pc), !(pt_cell _ _ _ _ _ _ _ Pp) by (auto; lia). reflexivity. }
  assert (Ll : forall i o d, o + d < n - 1 -> S (look_at t ult n k i o d) < n) by (intros; unfold look_at; lia).
  constructor; cbn [bq_tri bq_rate bq_a bq_b rt_frame rt_cell]; auto.
  - repeat split; auto.
  - intros i c o d Ho Hd L. rewrite Kn by auto. destruct (Nat.ltb_spec (o + d) n); [lia|reflexivity].
  - intros i c o d. destruct (valuation t o d <=? vdate t)%Z; [|discriminate]. match goal with |- context[rn2n ?y] => generalize y; intros x end. unfold rn2n. destruct x as [v|]; [|discriminate]. destruct (Req_EM_T v 0); congruence.
  - intros i c o d Hi L Np Ni Nc. rewrite Kn by lia. destruct (Nat.ltb_spec (o + d) n); [|lia]. destruct (Nat.eqb_spec c (cp k)); [contradiction|]. cbn [andb].
    rewrite C2 by lia. destruct (Nat.eqb_spec c (cc k)); [contradiction|]. rewrite C1 by lia. destruct (Nat.eqb_spec c (ci k)); [contradiction|]. reflexivity.
  - intros i o d Hi L. unfold adjusted. cbn [bq_tri rt_cell]. rewrite Kn by lia. destruct (Nat.ltb_spec (o + d) n); [|lia]. destruct (Nat.eqb_spec (ci k) (cp k)); [congruence|]. cbn [andb].
    rewrite C2 by lia. destruct (Nat.eqb_spec (ci k) (cc k)); [contradiction|]. rewrite C1 by lia. rewrite Nat.eqb_refl. rewrite nzr_rn2n, nzr_of. f_equal.
    change (av (values ai) i 0 o d) with (cel ai i 0 o d). rewrite (pt_cell _ _ _ _ _ _ _ Pai) by (auto; lia). destruct (Nat.ltb_spec (o + d) n); [|lia].
    set (q := (nz (cel t i (cp k) o d) + _)%Qc). transitivity q; [|reflexivity]. unfold n2n. destruct (Qc_eqb_spec q 0%Qc); auto.
  - intros i o d Hi L. unfold adjusted. cbn [bq_tri rt_cell]. rewrite Kn by lia. destruct (Nat.ltb_spec (o + d) n); [|lia]. destruct (Nat.eqb_spec (cc k) (cp k)); [congruence|]. cbn [andb].
    rewrite C2 by lia. rewrite Nat.eqb_refl. rewrite nzr_rn2n, nzr_of. f_equal. change (av (values adj) i 0 o d) with (cel adj i 0 o d). rewrite Ca by auto. reflexivity.
  - intros N3 i o d Hi L. unfold adjusted. cbn [bq_tri rt_cell]. rewrite Kn by lia. destruct (Nat.ltb_spec (o + d) n); [|lia]. rewrite Nat.eqb_refl. cbn [andb negb]. rewrite nzr_rn2n, (Pg N3) by (auto; lia).
    destruct (Nat.eqb_spec (o + d) (n - 1)); [reflexivity|lia].
  - intros i o d Hi L. unfold a. rewrite Lk, Na, Ba by (auto; lia). reflexivity.
  - intros i o d Hi L. unfold b. rewrite Lk, Na, Bb by (auto; lia). reflexivity.
  - intros N3 i o d Hi L. unfold adjusted. cbn [bq_tri rt_cell]. rewrite Kn by lia. destruct (Nat.ltb_spec (o + d) n); [|lia]. rewrite Nat.eqb_refl. cbn [andb negb]. rewrite nzr_rn2n, (Pg N3) by (auto; lia).
    destruct (Nat.eqb_spec (o + d) (n - 1)); [lia|]. destruct (Nat.ltb_spec (o + d) (n - 1)); [|lia]. rewrite Sn by lia. reflexivity.
  - intros N2 i o d Hi L. unfold adjusted. cbn [bq_tri rt_cell]. rewrite Kn by lia. destruct (Nat.ltb_spec (o + d) n); [|lia]. rewrite Nat.eqb_refl. cbn [andb negb]. rewrite nzr_rn2n, (Pg2 N2) by (auto; lia).
    rewrite Sn by lia. replace (o + d =? n - 1) with (o + d =? 1) by (f_equal; lia). reflexivity.
  - intros i o d Hi Ho Hd. rewrite (pt_cell _ _ _ _ _ _ _ Prt) by auto. reflexivity.
Qed.
