(** The weights of a fit, in terms of labels and ratios. *)
From Coq Require Import Lia Field.
From Verif Require Export P_Dev UnionFacts.
Local Open Scope Z_scope.

Definition wat (a : arr) (i c o d : nat) : cell := av a (bidx (ax0 a) i) (bidx (ax1 a) c) o d.

Lemma pos_mul a b : cell01 a -> cell01 b -> pos_weight (cmul a b) = pos_weight a && pos_weight b.
Proof. intros [-> | [-> | ->]] [-> | [-> | ->]]; reflexivity. Qed.

Lemma mul_step t a b : wshape t a -> wshape t b -> all01 a -> all01 b -> exists r, bmap2 cmul a b = Ok r /\ wshape t r /\ all01 r /\
  forall i c o d, in_range t i c o d -> (S d < ax3 (values t))%nat -> pos_weight (wat r i c o d) = pos_weight (wat a i c o d) && pos_weight (wat b i c o d).
Proof.
  intros Wa Wb Aa Ab. destruct (wshape_ok cmul t a b Wa Wb) as [r E]. exists r. split; [auto|]. split; [exact (wshape_mul _ _ _ _ _ Wa Wb E)|].
  split; [exact (all01_bmap2 _ _ _ E Aa Ab)|]. intros i c o d (R0 & R1 & R2 & R3) Hd. unfold wat.
  destruct (bmap2_inv _ _ _ _ E) as (B0 & B1 & B2 & B3 & V). rewrite V, pos_mul by auto.
  destruct Wa as (A0 & A1 & A2 & A3), Wb as (C0 & C1 & C2 & C3).
  apply bdim_cases in B0, B1, B2, B3. 
  f_equal; f_equal; f_equal; unfold bidx; repeat match goal with |- context [Nat.eqb ?x ?y] => destruct (Nat.eqb_spec x y) end; try lia.
Qed.

(** ** Counting *)
Lemma count_ext n f g : (forall q, (q < n)%nat -> f q = g q) -> count_true n f = count_true n g.
Proof.
  intros H. unfold count_true. f_equal. apply filter_ext_in. intros q Hq. apply H. apply in_seq in Hq. lia.
Qed.
Lemma count_S n f : count_true (S n) f = (count_true n f + if f n then 1 else 0)%nat.
Proof. unfold count_true. rewrite seq_S, filter_app, app_length. cbn. destruct (f n); reflexivity. Qed.
Lemma count_3 n (f g h k : nat -> bool) : (forall q, (q < n)%nat -> (if f q then 1 else 0) = (if g q then 1 else 0) + (if h q then 1 else 0) + (if k q then 1 else 0))%nat ->
  count_true n f = (count_true n g + count_true n h + count_true n k)%nat.
Proof.
  induction n as [|n IH]; intros H; [reflexivity|]. rewrite !count_S, IH by (intros; apply H; lia). specialize (H n ltac:(lia)). lia.
Qed.
Lemma count_eq1 n o : (o < n)%nat -> count_true n (fun q => (q =? o)%nat) = 1%nat.
Proof.
  induction n as [|n IH]; intros H; [lia|]. rewrite count_S. destruct (Nat.eqb_spec n o).
  - subst. rewrite (count_ext o _ (fun _ => false)); [|intros q Hq; apply Nat.eqb_neq; lia].
    assert (Z0 : forall m, count_true m (fun _ => false) = 0%nat) by (induction m as [|m I]; [reflexivity|rewrite count_S, I; reflexivity]).
    rewrite Z0. reflexivity.
  - rewrite IH by lia. reflexivity.
Qed.
Lemma count_le n f : (count_true n f <= n)%nat.
Proof. induction n as [|n IH]; [reflexivity|]. rewrite count_S. destruct (f n); lia. Qed.
Lemma how_many_count n f : how_many n f = Z.of_nat (count_true n f).
Proof. reflexivity. Qed.

(** ** The order of the ratios *)
Lemma Qc_ltb_false_eq a b : Qc_ltb a b = false -> Qc_ltb b a = false -> a = b.
Proof.
  destruct (Qc_ltb_spec a b); [discriminate|]. destruct (Qc_ltb_spec b a); [discriminate|]. intros _ _.
  apply Qcnot_lt_le in n. apply Qcnot_lt_le in n0. apply Qcle_antisym; auto.
Qed.
Lemma Qc_ltb_irrefl a : Qc_ltb a a = false.
Proof. destruct (Qc_ltb_spec a a); auto. exfalso. apply (Qclt_not_eq _ _ q); auto. Qed.
Lemma Qc_ltb_asym a b : Qc_ltb a b = true -> Qc_ltb b a = false.
Proof. destruct (Qc_ltb_spec a b); [|discriminate]. intros _. destruct (Qc_ltb_spec b a); auto. exfalso. apply (Qclt_not_eq a a); auto. eapply Qclt_trans; eauto. Qed.
Lemma Qc_eqb_sym a b : Qc_eqb a b = Qc_eqb b a.
Proof. destruct (Qc_eqb_spec a b), (Qc_eqb_spec b a); congruence. Qed.
Lemma Qc_ltb_neq a b : Qc_ltb a b = true -> Qc_eqb a b = false.
Proof. destruct (Qc_eqb_spec a b); auto. subst. rewrite Qc_ltb_irrefl. auto. Qed.

Lemma lower_tri t i c d p q : p <> q -> lower t i c d p q = negb (lower t i c d q p).
Proof.
  intros N. unfold lower. rewrite (Qc_eqb_sym (ratio t i c d q)), (Qc_eqb_sym (amount t i c q d)).
  set (r1 := ratio t i c d p). set (r2 := ratio t i c d q). set (x1 := amount t i c p d). set (x2 := amount t i c q d).
  destruct (Qc_ltb r1 r2) eqn:A.
  { rewrite (Qc_ltb_asym _ _ A), (Qc_ltb_neq _ _ A). reflexivity. }
  destruct (Qc_ltb r2 r1) eqn:B.
  { rewrite Qc_eqb_sym, (Qc_ltb_neq _ _ B). reflexivity. }
  rewrite (proj1 (reflect_iff _ _ (Qc_eqb_spec r1 r2)) (Qc_ltb_false_eq _ _ A B)). cbn [orb andb].
  destruct (Qc_ltb x1 x2) eqn:C.
  { rewrite (Qc_ltb_asym _ _ C), (Qc_ltb_neq _ _ C). reflexivity. }
  destruct (Qc_ltb x2 x1) eqn:D.
  { rewrite Qc_eqb_sym, (Qc_ltb_neq _ _ D). reflexivity. }
  rewrite (proj1 (reflect_iff _ _ (Qc_eqb_spec x1 x2)) (Qc_ltb_false_eq _ _ C D)). cbn [orb andb].
  destruct (Nat.ltb_spec p q), (Nat.ltb_spec q p); auto; lia.
Qed.
Lemma lower_irrefl t i c d p : lower t i c d p p = false.
Proof. unfold lower. rewrite !Qc_ltb_irrefl, Nat.ltb_irrefl, !andb_false_r. reflexivity. Qed.

Lemma above_below t E i c d o n : (o < n)%nat -> E o = true ->
  count_true n E = (count_true n (fun q => E q && lower t i c d q o) + 1 + count_true n (fun q => E q && lower t i c d o q))%nat.
Proof.
  intros Ho Eo. rewrite <- (count_eq1 n o Ho). apply count_3. intros q Hq.
  destruct (Nat.eqb_spec q o) as [->|N]; [rewrite Eo, lower_irrefl; reflexivity|].
  destruct (E q); [|reflexivity]. cbn [andb]. rewrite (lower_tri t i c d o q) by auto. destruct (lower t i c d q o); reflexivity.
Qed.

(** ** n_periods on regular triangles *)
Lemma sort_distinct_sorted l : StronglySorted Z.lt (sort_distinct l).
Proof. induction l; cbn; [constructor|apply zinsert_sorted; auto]. Qed.

Lemma ap_sorted_Z b h n : 0 < h -> StronglySorted Z.lt (map (fun k => b + h * Z.of_nat k) (seq 0 n)).
Proof.
  intros Hh. enough (G : forall s, StronglySorted Z.lt (map (fun k => b + h * Z.of_nat k) (seq s n))) by apply G.
  induction n as [|n IH]; intros s; [constructor|]. cbn [seq map]. constructor; [apply IH|].
  apply Forall_forall. intros x Hx. apply in_map_iff in Hx. destruct Hx as (k & <- & Hk). apply in_seq in Hk. nia.
Qed.

Lemma regular_offset dg og h m : grain_months dg = Z.of_nat h -> grain_months og = Z.of_nat (h * m) -> (1 <= m)%nat -> val_offset dg og = Ok (Z.of_nat m).
Proof.
  intros H1 H2 Hm.
  assert (E : grain_months og = grain_months dg * Z.of_nat m) by lia. clear H1 H2.
  destruct dg, og; cbn [grain_months val_offset] in *; try lia; do 2 f_equal; lia.
Qed.

Lemma regular_cut t o0 a0 h m dl n : wf t -> regular t o0 a0 h m dl -> (dl < m)%nat ->
  grain_months (dgrain t) = Z.of_nat h -> grain_months (ograin t) = Z.of_nat (h * m) -> np_all t n = false ->
  np_cut t n = Ok (vdate t - n * grain_months (ograin t)).
Proof.
  intros W R Hdl Gd Go Hn. pose proof R as (Hh & Hm & Eo & Ed & H9 & Ev & Hd).
  unfold np_cut. rewrite (regular_offset _ _ h m Gd Go Hm). cbn [rbind].
  apply orb_false_iff in Hn. destruct Hn as [N1 N2]. apply Z.ltb_ge in N1. apply Z.leb_gt in N2.
  set (K := (dl + m * (ax2 (values t) - 1))%nat) in *.
  assert (EL : sort_distinct (filter (fun v => v <=? vdate t) (valuations t)) = map (fun k => (o0 + a0 - 1) + Z.of_nat h * Z.of_nat k) (seq 0 (S K))).
  { apply sorted_Z_ext; [apply sort_distinct_sorted|apply ap_sorted_Z; lia|]. intros v. rewrite sort_distinct_in, filter_In, in_valuations, Z.leb_le, in_map_iff.
    split.
    - intros [(o & d & Lo & Ld & V) Hv]. rewrite <- (wf_o _ W) in Lo. rewrite <- (wf_d _ W) in Ld.
      rewrite valuation_month in V by auto. rewrite (regular_month t _ _ _ _ _ o d R) in V by auto.
      exists (m * o + d)%nat. split; [rewrite <- V; nia|]. apply in_seq. unfold K. subst v. rewrite Ev in Hv.
      assert (h * (m * o + d) <= h * K)%nat by (unfold K; nia). assert (m * o + d <= K)%nat by nia. unfold K in *; lia.
    - intros (k & <- & Hk). apply in_seq in Hk. split.
      + exists 0%nat, k. rewrite <- (wf_o _ W), <- (wf_d _ W). pose proof (wf_o1 _ W). repeat split; [lia|lia|].
        rewrite valuation_month by (auto; lia). rewrite (regular_month t _ _ _ _ _ 0%nat k R) by lia. lia.
      + rewrite Ev. assert (h * k <= h * K)%nat by nia. unfold K in *. nia. }
  rewrite EL. unfold py_nth. rewrite map_length, seq_length.
  assert (B : n * Z.of_nat m <= Z.of_nat K) by (unfold K; nia).
  assert (0 <= n * Z.of_nat m) by nia.
  destruct (Z.ltb_spec (- n * Z.of_nat m - 1) (- Z.of_nat (S K))); [lia|]. destruct (Z.leb_spec (Z.of_nat (S K)) (- n * Z.of_nat m - 1)); [lia|].
  cbn [orb]. destruct (Z.ltb_spec (- n * Z.of_nat m - 1) 0); [|lia].
  rewrite nth_map_seq by lia. f_equal. rewrite Ev, Go.
  rewrite Z2Nat.id by lia. unfold K in *. nia.
Qed.

Lemma filter_true_id {A} (f : A -> bool) l : (forall x, In x l -> f x = true) -> filter f l = l.
Proof. induction l as [|x l IH]; intros H; [reflexivity|]. cbn [filter]. rewrite H by (left; auto). f_equal. apply IH. intros; apply H; right; auto. Qed.

Lemma div_self_cell w q : wf w -> tri_op ODiv w w = Ok q -> forall i c o d, in_range w i c o d ->
  av (values q) i c o d = if Qc_eqb (nz (cel w i c o d)) 0%Qc then None else Some 1%Qc.
Proof.
  intros W H i c o d (R0 & R1 & R2 & R3). unfold tri_op in H. rewrite validate_same in H by (auto; constructor; auto).
  cbn [rbind op_arr] in H. unfold div_arr in H. inv_do H. injection H as <-. cbn [values set_values].
  destruct (lhs_fields w w) as (_ & _ & _ & _ & _ & L & _). rewrite L in E.
  destruct (bmap2_same cdiv (values w) (values w)) as (r & Er & _ & _ & _ & _ & C); auto. rewrite Er in E. injection E as <-. rewrite C by auto.
  change (av (values w) i c o d) with (cel w i c o d).
  destruct (cel w i c o d) as [x|]; [|reflexivity]. cbn [nz]. destruct (Qc_eqb_spec x 0%Qc) as [->|N]; [reflexivity|].
  rewrite cdiv_Some by auto. f_equal. field; auto.
Qed.
Lemma div_self_ok w : wf w -> exists q, tri_op ODiv w w = Ok q.
Proof.
  intros W. unfold tri_op. rewrite validate_same by (auto; constructor; auto). cbn [rbind op_arr]. unfold div_arr.
  destruct (lhs_fields w w) as (_ & _ & _ & _ & _ & L & _). rewrite L.
  destruct (bmap2_same cdiv (values w) (values w)) as (r & Er & _); auto. rewrite Er. cbn [rbind]. eauto.
Qed.

Lemma np_int_pos t n : wf t -> blank_future t -> (2 <= ax3 (values t))%nat -> unrestricted t n \/ regular_grains t ->
  exists a, n_periods_int t n = Ok a /\
    forall i c o d, in_range t i c o d -> nz (cel t i c o d) <> 0%Qc -> pos_weight (av a i c o d) = in_window t n o d.
Proof.
  intros W B Hn Hu. rewrite np_int_unfold. unfold in_window. fold (np_all t n). destruct (np_all t n) eqn:En.
  - eexists. split; [reflexivity|]. intros i c o d R Hc. cbn [map_arr av orb].
    change (av (values t) i c o d) with (cel t i c o d). destruct (cel t i c o d); [rewrite known_cases; reflexivity|]. cbn in Hc. congruence.
  - destruct Hu as [Hu|(o0 & a0 & h & m & dl & R & Hdl & Gd & Go)].
    { apply orb_false_iff in En. destruct En as [N1 N2]. apply Z.ltb_ge in N1. apply Z.leb_gt in N2. unfold unrestricted in Hu. lia. }
    rewrite (regular_cut t o0 a0 h m dl n W R Hdl Gd Go En). cbn [rbind].
    pose proof (regular_cut t o0 a0 h m dl n W R Hdl Gd Go En) as Ec. apply np_cut_in in Ec. destruct Ec as [Hin _].
    set (v := vdate t - n * grain_months (ograin t)) in *.
    destruct (slice_from t v W Hn Hin) as (u & Eu & Su). rewrite Eu. cbn [rbind].
    pose proof (sl_wf _ _ _ Su) as Wu. destruct (div_self_ok u Wu) as [q Eq]. rewrite Eq. cbn [rbind].
    destruct (div_self_dims u q Wu Eq) as (D0 & D1 & D2 & D3).
    pose proof R as (Hh & Hm & Eo & Ed & H9 & Ev & Hd).
    apply orb_false_iff in En. destruct En as [N1 N2]. apply Z.ltb_ge in N1. apply Z.leb_gt in N2.
    pose proof (wf_o1 _ W) as Ho1.
    assert (Hd2 : (dl + m * (ax2 (values t) - 1) < ax3 (values t))%nat) by (exact Hd). clear Hd.
    assert (KR : kept_rows t (fun o d => v <=? valuation t o d) = seq 0 (ax2 (values t))).
    { unfold kept_rows. apply filter_true_id.
      intros o Ho. apply in_seq in Ho. apply existsb_exists. exists (dl + m * (ax2 (values t) - 1))%nat. split; [apply in_seq; split; [apply Nat.le_0_l|exact Hd2]|].
      apply Z.leb_le. rewrite valuation_month by (auto; lia). rewrite (regular_month t _ _ _ _ _ o _ R) by (exact Hd2 || lia). unfold v. rewrite Ev, Go.
      assert (Z.of_nat (h * (dl + m * (ax2 (values t) - 1))) = Z.of_nat (h * dl) + Z.of_nat (h * m * (ax2 (values t) - 1))) by (rewrite <- Nat2Z.inj_add; f_equal; ring).
      assert (0 <= n * Z.of_nat (h * m)) by nia. lia. }
    assert (KC : kept_cols t (fun o d => v <=? valuation t o d) = seq 0 (ax3 (values t))).
    { unfold kept_cols. apply filter_true_id.
      intros d Hd'. apply in_seq in Hd'. apply existsb_exists. exists (ax2 (values t) - 1)%nat. split; [apply in_seq; lia|].
      apply Z.leb_le. rewrite valuation_month by (auto; lia). rewrite (regular_month t _ _ _ _ _ _ d R) by lia. unfold v. rewrite Ev, Go.
      assert (h * dl <= h * m)%nat by nia. assert (Z.of_nat (h * m) <= n * Z.of_nat (h * m)) by nia. lia. }
    rewrite (sl_0 _ _ _ Su) in D0. rewrite (sl_1 _ _ _ Su) in D1. rewrite (sl_2 _ _ _ Su), KR, seq_length in D2. rewrite (sl_3 _ _ _ Su), KC, seq_length in D3.
    destruct (bmap2_l cmul (map_arr (fun x => Some (nz x)) (values q)) (nan_arr t)) as (r & -> & _ & _ & V).
    { unfold sub_dims. cbn [map_arr nan_arr ax0 ax1 ax2 ax3]. repeat split; auto. }
    exists r. split; [reflexivity|]. intros i c o d Rg Hc. pose proof Rg as (R0 & R1 & R2 & R3).
    cbn [map_arr nan_arr ax0 ax1 ax2 ax3 av] in V. rewrite V by lia. rewrite (bidx_lt _ o), (bidx_lt _ d) by lia.
    rewrite (div_self_cell u q Wu Eq).
    2:{ unfold in_range. rewrite (sl_0 _ _ _ Su), (sl_1 _ _ _ Su), (sl_2 _ _ _ Su), KR, (sl_3 _ _ _ Su), KC, !seq_length. auto. }
    rewrite (sl_cell _ _ _ Su) by (rewrite ?KR, ?KC, ?seq_length; auto). rewrite KR, KC, !seq_nth by lia. cbn [Nat.add].
    rewrite nan_triangle_cases, valuation_month by auto. cbn [orb].
    assert (NF : (vdate t <? month_of t o d) = false).
    { apply Z.ltb_ge. destruct (Z.le_gt_cases (month_of t o d) (vdate t)) as [|G]; auto. exfalso. apply Hc. rewrite (B i c o d Rg G). reflexivity. }
    rewrite NF. destruct (v <=? month_of t o d).
    + rewrite nz_n2n, Qc_eqb_ne by auto. destruct (_ =? 1)%nat; reflexivity.
    + cbn [nz]. rewrite Qc_eqb_00. cbn [nz]. destruct (_ =? 1)%nat; reflexivity.
Qed.

(** ** Drop rules *)
Lemma zfind_ok x l : In x l -> exists k, zfind x l = Ok k /\ (k < List.length l)%nat /\ nth k l 0 = x.
Proof.
  induction l as [|y l IH]; intros H; [destruct H|]. cbn [zfind]. destruct (Z.eqb_spec x y) as [->|N].
  - exists 0%nat. cbn. repeat split; lia.
  - destruct IH as (k & -> & Hk & E); [destruct H; [congruence|auto]|]. cbn [rbind]. exists (S k). cbn [List.length nth]. repeat split; auto; lia.
Qed.

Lemma nonblank_past t i c o d : wf t -> blank_future t -> in_range t i c o d -> nz (cel t i c o d) <> 0%Qc -> nan_triangle t o d = Some 1%Qc.
Proof.
  intros W B R Hc. pose proof R as (R0 & R1 & R2 & R3). rewrite nan_triangle_cases by auto.
  assert (NF : (vdate t <? month_of t o d) = false).
  { apply Z.ltb_ge. destruct (Z.le_gt_cases (month_of t o d) (vdate t)) as [|G]; auto. exfalso. apply Hc. rewrite (B i c o d R G). reflexivity. }
  rewrite NF. destruct (_ =? 1)%nat; reflexivity.
Qed.

Lemma drop_cells_ok t items : wf t -> (forall o a, In (o, a) items -> In o (odims t) /\ In a (dlist (ddims t))) ->
  exists r, drop_cells t items = Ok r /\
    forall i c o d, (o < ax2 (values t))%nat -> (d < ax3 (values t))%nat ->
     av r i c o d = if existsb (fun it => (fst it =? nth o (odims t) 0) && (snd it =? nth d (dlist (ddims t)) 0)) items
                    then Some 0%Qc else nan_triangle t o d.
Proof.
  intros W H. unfold drop_cells.
  set (f := fun it : Z * Z => do o <- zfind (fst it) (odims t); do d <- zfind (snd it) (dlist (ddims t)); Ok (o, d)).
  assert (G : exists ps, mapm f items = Ok ps /\ forall o d, (o < ax2 (values t))%nat -> (d < ax3 (values t))%nat ->
     existsb (fun p => (fst p =? o)%nat && (snd p =? d)%nat) ps =
     existsb (fun it => (fst it =? nth o (odims t) 0) && (snd it =? nth d (dlist (ddims t)) 0)) items).
  { induction items as [|[x y] items IH]; [exists []; split; reflexivity|].
    destruct IH as (ps & Eps & V); [intros; apply H; right; auto|].
    destruct (H x y) as [Hx Hy]; [left; auto|].
    destruct (zfind_ok _ _ Hx) as (k & Ek & Lk & Nk). destruct (zfind_ok _ _ Hy) as (l & El & Ll & Nl).
    exists ((k, l) :: ps). cbn [mapm]. unfold f at 1. cbn [fst snd]. rewrite Ek, El. cbn [rbind]. rewrite Eps. cbn [rbind].
    split; [reflexivity|]. intros o d Ho Hd. cbn [existsb fst snd]. rewrite V by auto. f_equal. rewrite (wf_o _ W) in Ho. rewrite (wf_d _ W) in Hd. f_equal.
    - destruct (Nat.eqb_spec k o) as [->|N]; [symmetry; apply Z.eqb_eq; auto|]. symmetry. apply Z.eqb_neq. intros E. apply N.
      apply (sorted_nth_inj (odims t) k o 0 (wf_osort _ W)); congruence.
    - destruct (Nat.eqb_spec l d) as [->|N]; [symmetry; apply Z.eqb_eq; auto|]. symmetry. apply Z.eqb_neq. intros E. apply N.
      apply (sorted_nth_inj _ l d 0 (wf_dsort _ W)); congruence. }
  destruct G as (ps & -> & V). cbn [rbind]. eexists. split; [reflexivity|]. intros i c o d Ho Hd. cbn [init3 av]. rewrite V by auto. reflexivity.
Qed.

Lemma period_end_close g m : g <> GS -> period_end g m = Some (period_close g m).
Proof. intros H. unfold period_close. destruct g; cbn [period_end grain_months]; [f_equal; lia|congruence|f_equal; lia|]. rewrite Z.div_1_r. f_equal; lia. Qed.

Lemma drop_valuation_ok t vs : wf t -> (2 <= ax3 (values t))%nat -> valuations_droppable t vs ->
  exists r, drop_valuation t vs = Ok r /\
    forall i c o d, (o < ax2 (values t))%nat -> (S d < ax3 (values t))%nat ->
     av r i c o d = if existsb (fun v => period_close (ograin t) v =? month_of t o d) vs then Some 0%Qc else Some 1%Qc.
Proof.
  intros W Hn (Hne & Hg & (o0 & a0 & h & R) & Hk & H0 & H1 & Hz). unfold drop_valuation.
  pose proof R as (Hh & _ & _ & _ & _ & _ & Hl).
  set (key := fun o d => isin_val (ograin t) vs (valuation t o d)).
  set (lst := fun o d => existsb (fun v => period_close (ograin t) v =? month_of t o d) vs).
  assert (KEY : forall o d, (o < ax2 (values t))%nat -> (d < ax3 (values t))%nat -> key o d = lst o d).
  { intros o d Ho Hd. unfold key, lst, isin_val. rewrite valuation_month by auto. generalize vs as l.
    induction l as [|v l IH]; [reflexivity|]. cbn [existsb]. rewrite period_end_close by auto. f_equal. exact IH. }
  assert (MO : forall o d, (o < ax2 (values t))%nat -> (d < ax3 (values t))%nat -> month_of t o d = o0 + a0 - 1 + Z.of_nat h * Z.of_nat (o + d)).
  { intros o d Ho Hd. rewrite (regular_month t _ _ _ _ _ o d R) by auto. nia. }
  pose proof (wf_o1 _ W) as Ho1. assert (Hl' : (ax2 (values t) <= ax3 (values t))%nat) by lia.
  assert (L1 : forall o d, (o < ax2 (values t))%nat -> (d < ax3 (values t))%nat -> lst o d = true -> (o + d < ax2 (values t))%nat /\ lst 0%nat (o + d)%nat = true).
  { intros o d Ho Hd HL. apply existsb_exists in HL. destruct HL as (v & Hv & Ev). apply Z.eqb_eq in Ev. destruct (Hk v Hv) as (k & Lk & Ek).
    rewrite Ev, (MO o d), (MO 0%nat k) in Ek by lia. assert (k = o + d)%nat by nia. split; [lia|]. apply existsb_exists. exists v. split; auto. apply Z.eqb_eq.
    rewrite Ev, (MO o d), (MO 0%nat) by lia. reflexivity. }
  assert (L2 : forall o d, (o + d < ax2 (values t))%nat -> lst 0%nat (o + d)%nat = true -> lst o d = true).
  { intros o d Hod HL. unfold lst in *. rewrite (MO o d) by lia. rewrite (MO 0%nat) in HL by lia. exact HL. }
  assert (KM : exists km, (km < ax2 (values t))%nat /\ lst 0%nat km = true /\ forall k, (k < ax2 (values t))%nat -> lst 0%nat k = true -> (k <= km)%nat).
  { destruct vs as [|v0 vs0]; [congruence|]. destruct (Hk v0 (or_introl eq_refl)) as (k0 & Lk0 & Ek0).
    assert (E0 : lst 0%nat k0 = true) by (unfold lst; cbn [existsb]; rewrite <- Ek0, Z.eqb_refl; reflexivity).
    revert Lk0 E0. clearbody lst. clear. generalize (ax2 (values t)). intros n. induction n as [|n IH]; intros Lk E0; [lia|].
    destruct (lst 0%nat n) eqn:En; [exists n; repeat split; auto; lia|]. assert (k0 <> n) by congruence.
    destruct IH as (km & A & B & C); [lia|auto|]. exists km. repeat split; auto. intros k Hk Ek. apply C; auto. assert (k <> n) by congruence. lia. }
  destruct KM as (km & Lkm & Ekm & Mkm).
  assert (RO : forall o, (o < ax2 (values t))%nat -> ((exists d, (d < ax3 (values t))%nat /\ key o d = true) <-> (o <= km)%nat)).
  { intros o Ho. split.
    - intros (d & Hd & E). rewrite KEY in E by auto. destruct (L1 o d Ho Hd E) as [A B]. specialize (Mkm _ A B). lia.
    - intros Hle. exists (km - o)%nat. split; [lia|]. rewrite KEY by lia. apply L2; replace (o + (km - o))%nat with km by lia; auto. }
  assert (CO : forall d, (d < ax3 (values t))%nat -> ((exists o, (o < ax2 (values t))%nat /\ key o d = true) <-> (d <= km)%nat)).
  { intros d Hd. split.
    - intros (o & Ho & E). rewrite KEY in E by auto. destruct (L1 o d Ho Hd E) as [A B]. specialize (Mkm _ A B). lia.
    - intros Hle. exists (km - d)%nat. split; [lia|]. rewrite KEY by lia. apply L2; replace (km - d + d)%nat with km by lia; auto. }
  destruct (getitem_valuation_ok t key W Hn) as (u & Eu & Su).
  { exists 0%nat, km. split; [lia|]. split; [lia|]. rewrite KEY by lia. auto. }
  { exists 0%nat, 1%nat, (S km). split; [lia|]. intros x Hx. rewrite (RO x Hx). split; [intros; exists x; lia|intros (k & A & B); lia]. }
  { exists 0%nat, 1%nat, (S km). split; [lia|]. intros x Hx. rewrite (CO x Hx). split; [intros; exists x; lia|intros (k & A & B); lia]. }
  assert (PR : forall n (f : nat -> bool), (km < n)%nat -> (forall x, (x < n)%nat -> (f x = true <-> (x <= km)%nat)) -> filter f (seq 0 n) = seq 0 (S km)).
  { intros n f Hkn Hf. replace n with (S km + (n - S km))%nat by lia. rewrite seq_app, filter_app, filter_true_id; [|intros x Hx; apply in_seq in Hx; apply Hf; lia].
    rewrite <- (app_nil_r (seq 0 (S km))) at 2. f_equal. 
    assert (G : forall l, (forall x, In x l -> (km < x < n)%nat) -> filter f l = []).
    { induction l as [|x l IH]; intros Hi; [reflexivity|]. cbn [filter]. specialize (Hf x). pose proof (Hi x (or_introl eq_refl)). destruct (f x); [exfalso; assert (x <= km)%nat by (apply Hf; auto; lia); lia|]. apply IH. intros; apply Hi; right; auto. }
    apply G. intros x Hx. apply in_seq in Hx. lia. }
  assert (KR : kept_rows t key = seq 0 (S km)).
  { apply PR; [lia|]. intros x Hx. rewrite existsb_exists, <- (RO x Hx). split; intros (d & A & B); exists d; (split; [apply in_seq in A || apply in_seq; lia|auto]). }
  assert (KC : kept_cols t key = seq 0 (S km)).
  { apply PR; [lia|]. intros x Hx. rewrite existsb_exists, <- (CO x Hx). split; intros (d & A & B); exists d; (split; [apply in_seq in A || apply in_seq; lia|auto]). }
  rewrite Eu. cbn [rbind]. eexists. split; [reflexivity|]. intros i c o d Ho Hd. cbn [init3 av].
  rewrite (sl_2 _ _ _ Su), (sl_3 _ _ _ Su), KR, KC, !seq_length. change (av (values u)) with (cel u).
  change (existsb (fun v => period_close (ograin t) v =? month_of t o d) vs) with (lst o d).
  destruct (Nat.ltb_spec o (S km)), (Nat.ltb_spec d (S km)); cbn [andb].
  - rewrite (sl_cell _ _ _ Su) by (rewrite ?KR, ?KC, ?seq_length; auto). rewrite KR, KC, !seq_nth by lia. cbn [Nat.add]. rewrite KEY by lia.
    destruct (lst o d) eqn:El; [|reflexivity]. apply existsb_exists in El. destruct El as (v & Hv & Ev). apply Z.eqb_eq in Ev.
    pose proof (Hz v o d Hv Ho ltac:(lia) (eq_sym Ev)) as NZ. unfold amount in NZ. destruct (n2n_cases (cel t 0 0 o d)) as [[_ E]|[-> _]]; [congruence|]. rewrite known_cases. reflexivity.
  - destruct (lst o d) eqn:El; [|reflexivity]. destruct (L1 o d Ho ltac:(lia) El) as [A B]. specialize (Mkm _ A B). lia.
  - destruct (lst o d) eqn:El; [|reflexivity]. destruct (L1 o d Ho ltac:(lia) El) as [A B]. specialize (Mkm _ A B). lia.
  - destruct (lst o d) eqn:El; [|reflexivity]. destruct (L1 o d Ho ltac:(lia) El) as [A B]. specialize (Mkm _ A B). lia.
Qed.

Lemma int_param_ok t n v : (ax3 (values t) = S n)%nat -> (forall w, v = Some w -> not_by_age t w) ->
  exists l, int_param n v = Ok l /\ forall d, (d < n)%nat -> nth d l 0 = count_at v d.
Proof.
  intros Hn H. destruct v as [[a|m|f]|]; cbn [int_param count_at].
  - eexists. split; [reflexivity|]. intros d Hd. rewrite (nth_indep _ 0 a) by (rewrite repeat_length; auto). apply nth_repeat.
  - specialize (H _ eq_refl). cbn in H. destruct (Nat.leb_spec (List.length m) n); [|lia]. eexists. split; [reflexivity|]. intros d Hd.
    destruct (Nat.lt_ge_cases d (List.length m)); [apply app_nth1; auto|]. rewrite app_nth2, nth_repeat by auto. symmetry. apply nth_overflow; auto.
  - destruct (H _ eq_refl).
  - eexists. split; [reflexivity|]. intros d Hd. apply nth_repeat.
Qed.
Lemma bound_param_ok {A} t n (dflt : A) v : (ax3 (values t) = S n)%nat -> not_by_age t v ->
  exists l, bound_param n dflt v = Ok l /\ forall d, (d < n)%nat -> nth d l dflt = limit_at dflt v d.
Proof.
  intros Hn H. destruct v as [a|m|f]; cbn [bound_param limit_at].
  - eexists. split; [reflexivity|]. intros d Hd. rewrite (nth_indep _ dflt a) by (rewrite repeat_length; auto). apply nth_repeat.
  - cbn in H. destruct (Nat.leb_spec (List.length m) n); [|lia]. eexists. split; [reflexivity|]. intros d Hd.
    destruct (Nat.lt_ge_cases d (List.length m)); [apply app_nth1; auto|]. rewrite app_nth2, nth_repeat by auto. symmetry. apply nth_overflow; auto.
  - destruct H.
Qed.

Lemma has_ratio_cell t i c d o : has_ratio t i c d o = true -> nz (cel t i c o d) <> 0%Qc /\ nz (cel t i c o (S d)) <> 0%Qc.
Proof.
  unfold has_ratio, amount. intros H. apply andb_true_iff in H. destruct H as [A B].
  destruct (Qc_eqb_spec (nz (cel t i c o d)) 0%Qc); [discriminate|]. destruct (Qc_eqb_spec (nz (cel t i c o (S d))) 0%Qc); [discriminate|]. auto.
Qed.
Lemma ratio_cell t i c o d : cdiv (n2n (cel t i c o (S d))) (n2n (cel t i c o d)) = if has_ratio t i c d o then Some (ratio t i c d o) else None.
Proof.
  unfold has_ratio, ratio, amount. destruct (n2n_cases (cel t i c o d)) as [[-> ->]|[-> Hx]].
  { rewrite Qc_eqb_00. cbn [negb andb]. destruct (n2n _); reflexivity. }
  rewrite (Qc_eqb_ne (nz (cel t i c o d))) by auto. cbn [negb andb].
  destruct (n2n_cases (cel t i c o (S d))) as [[-> ->]|[-> Hy]]; [rewrite Qc_eqb_00; reflexivity|].
  rewrite (Qc_eqb_ne (nz (cel t i c o (S d)))) by auto. cbn [negb]. apply cdiv_Some; auto.
Qed.

Lemma drop_n_ok p t n lrw (E : nat -> nat -> nat -> nat -> bool) : wf t -> (2 <= ax3 (values t))%nat -> wshape t lrw ->
  ax0 lrw = ax0 (values t) -> ax1 lrw = ax1 (values t) ->
  (forall v, p_high p = Some v -> not_by_age t v) -> (forall v, p_low p = Some v -> not_by_age t v) -> p_n_periods p = One n ->
  (forall d, 0 <= count_at (p_high p) d) ->
  (forall i c o d, in_range t i c o d -> (S d < ax3 (values t))%nat -> av lrw i c o d = if E i c d o then Some (ratio t i c d o) else None) ->
  (forall i c o d, E i c d o = true -> has_ratio t i c d o = true) ->
  (forall i c d, (i < ax0 (values t))%nat -> (c < ax1 (values t))%nat -> (S d < ax3 (values t))%nat ->
     how_many (ax2 (values t)) (E i c d) <= if n =? -1 then Z.of_nat (ax3 (values t)) - 1 else n) ->
  exists r, drop_n p t lrw = Ok r /\ wshape t r /\ all01 r /\ ax0 r = ax0 lrw /\ ax1 r = ax1 lrw /\
   forall i c o d, in_range t i c o d -> (S d < ax3 (values t))%nat -> E i c d o = true ->
     pos_weight (av r i c o d) = survives_high_low p t (E i c d) i c d o.
Proof.
  intros W Hn Wl Z0 Z1 Hh Hl Hp Hh0 V HE Hc.
  pose proof Wl as (_ & _ & Z2 & Z3).
  destruct (int_param_ok t (ax3 lrw) (p_high p)) as (hi & Ehi & Vhi); [lia|auto|].
  destruct (int_param_ok t (ax3 lrw) (p_low p)) as (lo & Elo & Vlo); [lia|auto|].
  destruct (int_param_ok t (ax3 lrw) (Some (p_n_periods p))) as (np & Enp & Vnp); [lia|intros w [= <-]; rewrite Hp; exact I|].
  assert (Ed : exists r, drop_n p t lrw = Ok r) by (unfold drop_n; rewrite Ehi, Elo, Enp; cbn [rbind]; eauto).
  destruct Ed as [r Er]. exists r. split; [auto|]. destruct (drop_n_facts p t lrw r Wl Er) as [Wr Ar]. split; [auto|]. split; [auto|].
  unfold drop_n in Er. rewrite Ehi, Elo, Enp in Er. cbn [rbind] in Er. injection Er as <-. cbn [ax0 ax1 av].
  split; [auto|]. split; [auto|]. intros i c o d R Hd Eo. pose proof R as (R0 & R1 & R2 & R3).
  rewrite Vhi, Vlo, Vnp by lia. rewrite Hp. cbn [count_at].
  assert (C : count_true (ax2 lrw) (fun o => negb (is_nan (av lrw i c o d))) = count_true (ax2 (values t)) (E i c d)).
  { rewrite Z2. apply count_ext. intros q Hq. rewrite V by (unfold in_range; auto). destruct (E i c d q); reflexivity. }
  rewrite C.
  assert (RK : rank (ax2 lrw) (fun o => av lrw i c o d) (fun o => av (values t) i c o d) o = count_true (ax2 (values t)) (fun q => E i c d q && lower t i c d q o)).
  { unfold rank. rewrite Z2. apply count_ext. intros q Hq. unfold before. rewrite (V i c q d), (V i c o d) by (unfold in_range; auto). rewrite Eo.
    destruct (E i c d q) eqn:Eq; [|reflexivity]. cbn [nan_ltb nan_eqb andb]. unfold lower.
    destruct (has_ratio_cell _ _ _ _ _ (HE _ _ _ _ Eq)) as [Xq _]. destruct (has_ratio_cell _ _ _ _ _ (HE _ _ _ _ Eo)) as [Xo _].
    unfold amount at 1 2 3 4. change (av (values t) i c q d) with (cel t i c q d). change (av (values t) i c o d) with (cel t i c o d).
    destruct (cel t i c q d); [|cbn in Xq; congruence]. destruct (cel t i c o d); [|cbn in Xo; congruence]. reflexivity. }
  rewrite RK. pose proof (above_below t (E i c d) i c d o (ax2 (values t)) R2 Eo) as AB.
  specialize (Hc i c d R0 R1 Hd). specialize (Hh0 d). unfold survives_high_low. rewrite !how_many_count in *.
  replace (Z.of_nat (ax3 lrw)) with (Z.of_nat (ax3 (values t)) - 1) by lia.
  set (cnt := Z.of_nat (count_true (ax2 (values t)) (E i c d))) in *.
  set (b := count_true (ax2 (values t)) (fun q => E i c d q && lower t i c d q o)) in *.
  set (a := count_true (ax2 (values t)) (fun q => E i c d q && lower t i c d o q)) in *.
  set (h := count_at (p_high p) d) in *. set (l := count_at (p_low p) d) in *.
  assert (CN : (if (if n =? -1 then Z.of_nat (ax3 (values t)) - 1 else n) <? cnt then if n =? -1 then Z.of_nat (ax3 (values t)) - 1 else n else cnt) = cnt).
  { destruct (Z.ltb_spec (if n =? -1 then Z.of_nat (ax3 (values t)) - 1 else n) cnt); lia. }
  rewrite CN. destruct (Z.ltb_spec (cnt - h - l) (p_preserve p)); cbn [orb].
  - destruct (Z.ltb_spec (Z.of_nat b) cnt); [|lia]. destruct (Z.ltb_spec (0 - 1) (Z.of_nat b)); [reflexivity|lia].
  - destruct (Z.ltb_spec (Z.of_nat b) (cnt - h)), (Z.ltb_spec (l - 1) (Z.of_nat b)), (Z.leb_spec l (Z.of_nat b)), (Z.leb_spec h (Z.of_nat a)); try reflexivity; lia.
Qed.

Lemma drop_x_ok p t lr : wf t -> (2 <= ax3 (values t))%nat -> dims lr (ax0 (values t)) (ax1 (values t)) (ax2 (values t)) (ax3 (values t) - 1) ->
  not_by_age t (p_above p) -> not_by_age t (p_below p) -> limits_given p = true ->
  (forall i c o d, in_range t i c o d -> (S d < ax3 (values t))%nat -> av lr i c o d = if has_ratio t i c d o then Some (ratio t i c d o) else None) ->
  exists r, drop_x p lr = Ok r /\ wshape t r /\ all01 r /\ ax0 r = ax0 lr /\ ax1 r = ax1 lr /\
   forall i c o d, in_range t i c o d -> (S d < ax3 (values t))%nat -> has_ratio t i c d o = true ->
     pos_weight (av r i c o d) = survives_above_below p t i c d o.
Proof.
  intros W Hn (Z0 & Z1 & Z2 & Z3) Ha Hb Hg V.
  destruct (bound_param_ok t (ax3 lr) None (p_above p)) as (hi & Ehi & Vhi); [lia|auto|].
  destruct (bound_param_ok t (ax3 lr) 0%Qc (p_below p)) as (lo & Elo & Vlo); [lia|auto|].
  assert (Wl : wshape t lr) by (unfold wshape; auto).
  assert (Ed : exists r, drop_x p lr = Ok r) by (unfold drop_x; rewrite Ehi, Elo; cbn [rbind]; eauto).
  destruct Ed as [r Er]. exists r. split; [auto|]. destruct (drop_x_facts p t lr r Wl Er) as [Wr Ar]. split; [auto|]. split; [auto|].
  unfold drop_x in Er. rewrite Ehi, Elo in Er. cbn [rbind] in Er. injection Er as <-. cbn [ax0 ax1 av].
  split; [auto|]. split; [auto|]. intros i c o d R Hd Eo. pose proof R as (R0 & R1 & R2 & R3).
  rewrite Vhi, Vlo by lia.
  assert (IN : forall q, (q < ax2 (values t))%nat -> inside (limit_at 0%Qc (p_below p) d) (limit_at None (p_above p) d) (av lr i c q d) = has_ratio t i c d q && within_limits p t i c d q).
  { intros q Hq. rewrite V by (unfold in_range; auto). destruct (has_ratio t i c d q); reflexivity. }
  rewrite (IN o R2), (V i c o d R Hd), Eo. cbn [andb is_nan negb]. unfold survives_above_below. rewrite Hg. cbn [negb orb]. rewrite how_many_count, Z2.
  rewrite (count_ext (ax2 (values t)) _ (fun q => has_ratio t i c d q && within_limits p t i c d q)) by (intros; apply IN; auto).
  destruct (_ <? p_preserve p); [reflexivity|]. cbn [orb]. destruct (within_limits p t i c d o); reflexivity.
Qed.

(** ** The whole fit *)
Lemma np_weight_ok t ns : wf t -> blank_future t -> (2 <= ax3 (values t))%nat -> (1 <= List.length ns <= ax3 (values t))%nat ->
  (forall n, In n ns -> unrestricted t n \/ regular_grains t) ->
  exists w, n_periods_weight t ns = Ok w.
Proof.
  intros W B Hn Hl H. unfold n_periods_weight.
  destruct (mapm_fwd (fun p => do a <- n_periods_int t (snd p); Ok (col3 a (fst p))) (combine (seq 0 (List.length ns)) ns)) as [r Er].
  { intros [k n] Hk. apply in_combine_r in Hk. destruct (np_int_pos t n W B Hn (H n Hk)) as (a & Ea & _). cbn [snd fst]. rewrite Ea. cbn [rbind]. eauto. }
  rewrite Er. cbn [rbind]. destruct (mapm_inv _ _ _ Er) as [Lr Vr]. rewrite combine_length, seq_length, Nat.min_id in Lr, Vr.
  assert (D : forall b, In b r -> dims b (ax0 (values t)) (ax1 (values t)) (ax2 (values t)) 1).
  { intros b Hb. destruct (In_nth _ _ b Hb) as (k & Hk & Ek). rewrite Lr in Hk. specialize (Vr k (0%nat, 0) b Hk). rewrite Ek in Vr.
    rewrite combine_nth in Vr by apply seq_length. rewrite seq_nth in Vr by auto. cbn [fst snd Nat.add] in Vr. inv_do Vr. injection Vr as <-.
    destruct (np_int_facts _ _ _ W Hn E) as [(D0 & D1 & D2 & D3) _]. unfold dims. cbn [col3 ax0 ax1 ax2 ax3]. rewrite D3.
    destruct (Nat.ltb_spec k (ax3 (values t))); [auto|lia]. }
  destruct r as [|a r]; [cbn in Lr; lia|]. destruct (cat_cols (ax0 (values t)) (ax1 (values t)) (ax2 (values t)) r a) as (x & -> & _); [apply D; left; auto|intros; apply D; right; auto|].
  eauto.
Qed.

Lemma np_weight_pos t ns w : wf t -> blank_future t -> (2 <= ax3 (values t))%nat -> (List.length ns <= ax3 (values t))%nat ->
  (forall n, In n ns -> unrestricted t n \/ regular_grains t) -> n_periods_weight t ns = Ok w ->
  forall i c o d, in_range t i c o d -> (d < List.length ns)%nat -> nz (cel t i c o d) <> 0%Qc ->
    pos_weight (av w i c o d) = in_window t (nth d ns 0) o d.
Proof.
  intros W B Hn Hl H Ew i c o d R Hd Hc. destruct (np_weight_facts t ns w W Hn Hl Ew) as (_ & _ & G).
  destruct (G d Hd) as (a & Ea & _ & _ & V). rewrite V. destruct (np_int_pos t (nth d ns 0) W B Hn) as (a' & Ea' & P); [apply H; apply nth_In; auto|].
  rewrite Ea in Ea'. injection Ea' as <-. apply P; auto.
Qed.

Lemma n_active_iff p : n_active p = true <-> p_high p <> None \/ p_low p <> None.
Proof. unfold n_active. destruct (p_high p), (p_low p); split; intros H; auto; try discriminate; try (left; discriminate); try (right; discriminate). destruct H as [H|H]; congruence. Qed.
Lemma x_active_limits p : x_active p = limits_given p.
Proof. reflexivity. Qed.

Lemma inactive_high_low p t E i c d o : n_active p = false -> survives_high_low p t E i c d o = true.
Proof.
  unfold n_active, survives_high_low. intros H. destruct (p_high p), (p_low p); try discriminate H. cbn [count_at]. rewrite !how_many_count. apply orb_true_iff. right. apply andb_true_iff. split; apply Z.leb_le; lia.
Qed.

Lemma removelast_repeat {A} (a : A) n : removelast (repeat a n) = repeat a (n - 1).
Proof. induction n as [|n IH]; [reflexivity|]. cbn [repeat]. destruct n; [reflexivity|]. cbn [repeat] in *. change (a :: removelast (a :: repeat a n) = repeat a (S (S n) - 1)). rewrite IH. cbn. rewrite Nat.sub_0_r. reflexivity. Qed.

Lemma drop_adj_ok p t lr : wf t -> blank_future t -> (2 <= ax3 (values t))%nat -> fittable p t ->
  dims lr (ax0 (values t)) (ax1 (values t)) (ax2 (values t)) (ax3 (values t) - 1) ->
  (forall i c o d, in_range t i c o d -> (S d < ax3 (values t))%nat -> av lr i c o d = if has_ratio t i c d o then Some (ratio t i c d o) else None) ->
  exists r, drop_adjustment p t lr = Ok r /\ wshape t r /\ all01 r /\
   forall i c o d n, in_range t i c o d -> (S d < ax3 (values t))%nat -> param_at t (p_n_periods p) d = Some n ->
     has_ratio t i c d o = true -> in_window t n o d = true ->
     pos_weight (wat r i c o d) = negb (listed p t o d) && negb (val_listed p t o d) &&
       survives_high_low p t (fun q => has_ratio t i c d q && in_window t n q d) i c d o && survives_above_below p t i c d o.
Proof.
  intros W B Hn F Dl V. destruct Dl as (L0 & L1 & L2 & L3). assert (Wl : wshape t lr) by (unfold wshape; auto). unfold drop_adjustment.
  assert (S1 : exists r, (match p_drop p with None => Ok (init3 (nan_arr t)) | Some items => do a <- drop_cells t items; bmap2 cmul (init3 (nan_arr t)) a end) = Ok r
     /\ wshape t r /\ all01 r /\ forall i c o d, in_range t i c o d -> (S d < ax3 (values t))%nat -> has_ratio t i c d o = true -> pos_weight (wat r i c o d) = negb (listed p t o d)).
  { assert (NP : forall i c o d, in_range t i c o d -> has_ratio t i c d o = true -> pos_weight (wat (init3 (nan_arr t)) i c o d) = true).
    { intros i c o d R E. unfold wat. cbn [init3 nan_arr av]. rewrite (nonblank_past t i c o d W B R); [reflexivity|apply has_ratio_cell; auto]. }
    unfold listed. destruct (p_drop p) as [items|] eqn:Ep.
    - destruct (drop_cells_ok t items W) as (a & Ea & Va); [intros x y Hi; apply (fp_drop _ _ F items x y Ep Hi)|].
      destruct (drop_cells_facts _ _ _ Ea) as [Wa Aa]. rewrite Ea. cbn [rbind].
      destruct (mul_step t _ a (wshape_nan t) Wa (all01_nan t) Aa) as (r & Er & Wr & Ar & Pr). exists r. split; [auto|]. split; [auto|]. split; [auto|].
      intros i c o d R Hd E. rewrite Pr, NP by auto. cbn [andb]. unfold wat. pose proof R as (_ & _ & R2 & R3). rewrite Va by auto.
      destruct (existsb _ _); [reflexivity|]. rewrite (nonblank_past t i c o d W B R); [reflexivity|apply has_ratio_cell; auto].
    - exists (init3 (nan_arr t)). split; [auto|]. split; [apply wshape_nan|]. split; [apply all01_nan|]. intros. rewrite NP by auto. reflexivity. }
  destruct S1 as (w0 & -> & W0 & A0 & P0). cbn [rbind].
  assert (S1 : exists r, (match p_drop_val p with None => Ok w0 | Some vs => do a <- drop_valuation t vs; bmap2 cmul w0 a end) = Ok r
     /\ wshape t r /\ all01 r /\ forall i c o d, in_range t i c o d -> (S d < ax3 (values t))%nat -> has_ratio t i c d o = true ->
        pos_weight (wat r i c o d) = negb (listed p t o d) && negb (val_listed p t o d)).
  { unfold val_listed. destruct (p_drop_val p) as [vs|] eqn:Ep.
    - destruct (drop_valuation_ok t vs W Hn (fp_val _ _ F vs Ep)) as (a & Ea & Va). destruct (drop_valuation_facts _ _ _ W Hn Ea) as [Wa Aa]. rewrite Ea. cbn [rbind].
      destruct (mul_step t w0 a W0 Wa A0 Aa) as (r & Er & Wr & Ar & Pr). exists r. split; [auto|]. split; [auto|]. split; [auto|].
      intros i c o d R Hd E. rewrite Pr, P0 by auto. f_equal. unfold wat. pose proof R as (_ & _ & R2 & R3). rewrite Va by auto.
      destruct (existsb _ vs); reflexivity.
    - exists w0. split; [auto|]. split; [auto|]. split; [auto|]. intros. rewrite P0 by auto. cbn [negb]. rewrite andb_true_r. reflexivity. }
  destruct S1 as (w1 & -> & W1 & A1 & P1). cbn [rbind].
  assert (S2 : exists r, (if n_active p then
              do w <- n_periods_weight t (removelast (validate_assumption t (p_n_periods p)));
              do lrw <- bmap2 cmul lr (map_arr n2n w);
              do a <- drop_n p t lrw; bmap2 cmul w1 a
            else Ok w1) = Ok r /\ wshape t r /\ all01 r /\
      forall i c o d n, in_range t i c o d -> (S d < ax3 (values t))%nat -> param_at t (p_n_periods p) d = Some n ->
      has_ratio t i c d o = true -> in_window t n o d = true ->
      pos_weight (wat r i c o d) = negb (listed p t o d) && negb (val_listed p t o d) && survives_high_low p t (fun q => has_ratio t i c d q && in_window t n q d) i c d o).
  { destruct (n_active p) eqn:Ea.
    - destruct (fp_hl _ _ F (proj1 (n_active_iff p) Ea)) as (n & Ep & Hh & Hcap). rewrite Ep. cbn [validate_assumption].
      rewrite removelast_repeat.
      assert (HU : forall m, In m (repeat n (ax3 (values t) - 1)) -> unrestricted t m \/ regular_grains t).
      { intros m Hm. apply repeat_spec in Hm. subst m. apply (fp_win _ _ F 0%nat n); [lia|]. rewrite Ep. reflexivity. }
      assert (HL : (1 <= List.length (repeat n (ax3 (values t) - 1)) <= ax3 (values t))%nat) by (rewrite repeat_length; lia).
      destruct (np_weight_ok t _ W B Hn HL HU) as (w & Ew). rewrite Ew. cbn [rbind].
      assert (HL' : (List.length (repeat n (ax3 (values t) - 1)) <= ax3 (values t))%nat) by lia.
      destruct (np_weight_facts t _ w W Hn HL' Ew) as (_ & (D0 & D1 & D2 & D3) & _). rewrite repeat_length in D3.
      destruct (bmap2_same cmul lr (map_arr n2n w)) as (lrw & Elr & Q0 & Q1 & Q2 & Q3 & Qv); [cbn [map_arr ax0 ax1 ax2 ax3]; congruence..|].
      rewrite Elr. cbn [rbind].
      assert (VW : forall i c o d, in_range t i c o d -> (S d < ax3 (values t))%nat ->
         av lrw i c o d = if has_ratio t i c d o && in_window t n o d then Some (ratio t i c d o) else None).
      { intros i c o d R Hd. pose proof R as (R0 & R1 & R2 & R3). rewrite Qv by lia. rewrite V by auto. destruct (has_ratio t i c d o) eqn:Eh; [|reflexivity]. cbn [andb map_arr av].
        pose proof (np_weight_pos t _ w W B Hn HL' HU Ew i c o d R) as PW. rewrite repeat_length in PW. specialize (PW ltac:(lia) (proj1 (has_ratio_cell _ _ _ _ _ Eh))).
        rewrite (nth_indep _ 0 n), nth_repeat in PW by (rewrite repeat_length; lia).
        assert (C01 : cell01 (av w i c o d)) by (apply (all01_np t _ w W Hn HL' Ew); rewrite repeat_length; lia).
        rewrite <- PW. destruct C01 as [-> | [-> | ->]]; [reflexivity|reflexivity|]. change (n2n (Some 1%Qc)) with (Some 1%Qc). cbn [cmul pos_weight]. rewrite Qcmult_1_r. reflexivity. }
      destruct (drop_n_ok p t n lrw (fun i c d o => has_ratio t i c d o && in_window t n o d)) as (a & Edn & Wa & Aa & Z0 & Z1 & Pa); auto.
      { unfold wshape. repeat split; [right|right| |]; congruence. }
      { congruence. } { congruence. } { apply (fp_high _ _ F). } { apply (fp_low _ _ F). } 
      { intros i c o d E. apply andb_true_iff in E. tauto. }
      rewrite Edn. cbn [rbind]. destruct (mul_step t w1 a W1 Wa A1 Aa) as (r & Er & Wr & Ar & Pr). exists r. split; [auto|]. split; [auto|]. split; [auto|].
      intros i c o d n' R Hd En Hr Hw. rewrite Pr, P1 by auto. injection En as <-. f_equal. unfold wat.
      pose proof R as (R0 & R1 & R2 & R3). rewrite (bidx_lt (ax0 a)), (bidx_lt (ax1 a)) by congruence.
      apply Pa; auto. rewrite Hr, Hw. reflexivity.
    - exists w1. split; [auto|]. split; [auto|]. split; [auto|]. intros. rewrite P1, inactive_high_low, andb_true_r by auto. reflexivity. }
  destruct S2 as (w2 & -> & W2 & A2 & P2). cbn [rbind]. rewrite x_active_limits.
  destruct (limits_given p) eqn:El.
  - destruct (drop_x_ok p t lr W Hn) as (a & Ea & Wa & Aa & Z0 & Z1 & Pa); auto; [unfold dims; auto|apply (fp_above _ _ F)|apply (fp_below _ _ F)|].
    rewrite Ea. cbn [rbind]. destruct (mul_step t w2 a W2 Wa A2 Aa) as (r & Er & Wr & Ar & Pr). exists r. split; [auto|]. split; [auto|]. split; [auto|].
    intros i c o d n R Hd En Hr Hw. rewrite Pr, (P2 i c o d n) by auto. f_equal. unfold wat. pose proof R as (R0 & R1 & R2 & R3). rewrite (bidx_lt (ax0 a)), (bidx_lt (ax1 a)) by congruence.
    apply Pa; auto.
  - exists w2. split; [auto|]. split; [auto|]. split; [auto|]. intros i c o d n R Hd En Hr Hw. rewrite (P2 i c o d n) by auto. unfold survives_above_below. rewrite El. cbn [negb orb]. rewrite andb_true_r. reflexivity.
Qed.

Lemma slice_first t : wf t -> slice_origin t (fun o => nth o (odims t) 0 =? zminl (odims t) (nth 0 (odims t) 0)) =
  Ok (sel_tri t (seq 0 (ax0 (values t))) (seq 0 (ax1 (values t))) [0%nat] (seq 0 (ax3 (values t)))).
Proof.
  intros W. pose proof (wf_o1 _ W) as H1. pose proof (wf_o _ W) as Lo.
  assert (M : zminl (odims t) (nth 0 (odims t) 0) = nth 0 (odims t) 0).
  { apply Z.le_antisymm; [apply zminl_le; left; auto|]. destruct (zminl_in (odims t) (nth 0 (odims t) 0)) as [<- | H]; [lia|].
    destruct (In_nth _ _ 0 H) as (k & Hk & <-). apply sorted_nth_le; [apply (wf_osort _ W)|lia]. }
  rewrite M. unfold slice_origin.
  assert (E : filter (fun o => nth o (odims t) 0 =? nth 0 (odims t) 0) (seq 0 (ax2 (values t))) = [0%nat]).
  { destruct (ax2 (values t)) as [|n] eqn:E2; [lia|]. cbn [seq filter]. rewrite Z.eqb_refl. f_equal.
    assert (G : forall l, (forall x, In x l -> (1 <= x < List.length (odims t))%nat) -> filter (fun o => nth o (odims t) 0 =? nth 0 (odims t) 0) l = []).
    { induction l as [|x l IH]; intros Hl; [reflexivity|]. cbn [filter]. destruct (Z.eqb_spec (nth x (odims t) 0) (nth 0 (odims t) 0)) as [Ee|].
      - specialize (Hl x (or_introl eq_refl)). apply (sorted_nth_inj _ _ _ 0 (wf_osort _ W)) in Ee; lia.
      - apply IH. intros; apply Hl; right; auto. }
    apply G. intros x Hx. apply in_seq in Hx. lia. }
  rewrite E. cbn [map]. 
  change (contig_slice [Z.of_nat 0]) with (Ok (Slice (Some (Z.of_nat 0)) (Some (Z.of_nat 0 + 1)) None)). cbn [rbind].
  rewrite positions_1 by lia. cbn [rbind]. reflexivity.
Qed.

Lemma param_property_ok t v : wf t -> blank_future t -> is_pattern t = false -> (2 <= ax3 (values t))%nat -> oldest_complete t ->
  dims v (ax0 (values t)) (ax1 (values t)) 1 (ax3 (values t) - 1) ->
  exists u, param_property t v = Ok u /\
    kdims u = kdims t /\ key_labels u = key_labels t /\ vdims u = vdims t /\ odims u = [nth 0 (odims t) 0] /\
    ddims u = dmap (firstn (ax3 (values t) - 1)) (ddims t) /\ dims (values u) (ax0 (values t)) (ax1 (values t)) 1 (ax3 (values t) - 1) /\
    is_pattern u = true /\ is_cumulative u = Some false /\ vdate u = ULT_VAL /\ ograin u = ograin t /\ dgrain u = dgrain t /\
    forall i c d, (i < ax0 (values t))%nat -> (c < ax1 (values t))%nat -> (S d < ax3 (values t))%nat -> cel u i c 0 d = av v i c 0 d.
Proof.
  intros W B Hp Hn Oc (D0 & D1 & D2 & D3). unfold param_property. rewrite slice_first by auto. cbn [rbind].
  set (s := sel_tri t _ _ _ _).
  assert (Es : dims (values s) (ax0 (values t)) (ax1 (values t)) 1 (ax3 (values t))).
  { unfold dims, s. cbn [sel_tri values sel_arr ax0 ax1 ax2 ax3]. rewrite !seq_length. auto. }
  destruct Es as (S0 & S1 & S2 & S3).
  destruct (bmap2_same cmul (Arr (ax0 (values s)) (ax1 (values s)) (ax2 (values s)) (ax3 (values s) - 1) (fun _ _ _ _ => Some 1%Qc)) v)
    as (r & -> & R0 & R1 & R2 & R3 & Rv); [cbn [ax0 ax1 ax2 ax3]; congruence..|]. cbn [rbind].
  cbn [ax0 ax1 ax2 ax3 av] in R0, R1, R2, R3, Rv. rewrite S0, S1, S2, S3 in *.
  pose proof (wf_o1 _ W) as H1. unfold oldest_complete in Oc.
  destruct (link_ratio_ok t W B Hp) as (u & no & nd & -> & _ & _ & _ & Ud & Hno & Hnd & _ & _ & _ & _ & _ & _ & Hout).
  { exists 0%nat, (ax3 (values t) - 2)%nat. split; [lia|]. split; [lia|]. replace (S (ax3 (values t) - 2)) with (ax3 (values t) - 1)%nat by lia. exact Oc. }
  cbn [rbind]. eexists. split; [reflexivity|]. cbn [set_cumulative set_pattern set_vdate set_ddims set_values kdims key_labels vdims odims ddims values is_pattern is_cumulative vdate].
  unfold s. unfold set_ddims. cbn [set_values sel_tri set_dims kdims key_labels vdims odims ddims values is_pattern vdate ograin dgrain]. rewrite !sel_seq_all by (apply (wf_k _ W) || apply (wf_v _ W)).
  assert (nd = (ax3 (values t) - 1)%nat).
  { destruct (Nat.eq_dec nd (ax3 (values t) - 1)); auto. exfalso.
    assert (F : future t 0 (S (ax3 (values t) - 2))) by (apply Hout; lia).
    replace (S (ax3 (values t) - 2)) with (ax3 (values t) - 1)%nat in F by lia. unfold future in F. lia. }
  subst nd. repeat split; auto; try congruence.
  intros i c d Hi Hc Hd. unfold cel. cbn [values]. rewrite Rv by lia. destruct (av v i c 0%nat d); [|reflexivity]. cbn [cmul]. rewrite Qcmult_1_l. reflexivity.
Qed.

Theorem dev_fit_ok p t : wf t -> blank_future t -> is_pattern t = false -> (2 <= ax3 (values t))%nat -> oldest_complete t -> fittable p t ->
  exists r, dev_fit p t = Ok r /\ fit_result p t (f_ldf r) /\
   (forall i c o d n, in_range t i c o d -> (S d < ax3 (values t))%nat -> param_at t (p_n_periods p) d = Some n ->
     used t (f_w r) i c d o = selected p t n i c d o).
Proof.
  intros W B Hp Hn Oc F.
  pose proof (fp_avg _ _ F) as Ca. pose proof (fp_np _ _ F) as Cn. pose proof (fp_fit _ _ F) as Fn. pose proof (fp_fill _ _ F) as Hf.
  destruct (param_at_spec t _ W Ca Hn) as [La Pa]. destruct (param_at_spec t _ W Cn Hn) as [Ln Pn].
  set (x := init3 (map_arr n2n (values t))). set (y := tail3 (map_arr n2n (values t))).
  set (avg := firstn (ax3 (values t) - 1) (validate_assumption t (p_average p))) in *.
  set (ns := firstn (ax3 (values t) - 1) (validate_assumption t (p_n_periods p))) in *.
  destruct (bmap2_same cdiv y x) as (lr & Elr & L0 & L1 & L2 & L3 & Lv); try reflexivity.
  cbn [y tail3 map_arr ax0 ax1 ax2 ax3] in L0, L1, L2, L3.
  assert (Dl : dims lr (ax0 (values t)) (ax1 (values t)) (ax2 (values t)) (ax3 (values t) - 1)) by (unfold dims; auto).
  assert (Vl : forall i c o d, in_range t i c o d -> (S d < ax3 (values t))%nat -> av lr i c o d = if has_ratio t i c d o then Some (ratio t i c d o) else None).
  { intros i c o d (R0 & R1 & R2 & R3) Hd. rewrite Lv by (cbn [y tail3 map_arr ax0 ax1 ax2 ax3]; lia). rewrite <- ratio_cell. reflexivity. }
  assert (HU : forall n, In n ns -> unrestricted t n \/ regular_grains t).
  { intros n Hi. destruct (In_nth _ _ 0 Hi) as (k & Hk & Ek). apply (fp_win _ _ F k n); [lia|]. rewrite (Pn k 0) by lia. congruence. }
  destruct (np_weight_ok t ns W B Hn ltac:(lia) HU) as [w1 Ew1].
  destruct (drop_adj_ok p t lr W B Hn F Dl Vl) as (w2 & Ew2 & Ww2 & Aw2 & Pw2).
  assert (Hns : (List.length ns <= ax3 (values t))%nat) by lia.
  destruct (np_weight_facts t ns w1 W Hn Hns Ew1) as (_ & (D0 & D1 & D2 & D3) & _). rewrite Ln in D3.
  destruct (bmap2_l cmul w1 w2) as (w & Ew & (Q0 & Q1 & Q2 & Q3) & _ & Qv).
  { destruct Ww2 as (S0 & S1 & S2 & S3). unfold sub_dims. repeat split; lia. }
  rewrite D0, D1, D2, D3 in *.
  destruct (bmap2_r cmul (Arr 1 1 1 (List.length avg) (fun _ _ _ d => Some (qc (Z.of_nat (exponent (nth d avg Regression)))))) (map_arr known y))
    as (ex & Eex & (X0 & X1 & X2 & X3) & _ & _).
  { unfold sub_dims. cbn [ax0 ax1 ax2 ax3 map_arr y tail3]. rewrite La. auto. }
  cbn [map_arr y tail3 ax0 ax1 ax2 ax3] in X0, X1, X2, X3.
  destruct (bmap2_same (fun a e => cpow a (if Qc_eqb (nz e) 0%Qc then 0 else if Qc_eqb (nz e) 1%Qc then 1 else 2)) x ex)
    as (xe & Exe & Y0 & Y1 & Y2 & Y3 & _); try (cbn [x init3 map_arr ax0 ax1 ax2 ax3]; congruence).
  cbn [x init3 map_arr ax0 ax1 ax2 ax3] in Y0, Y1, Y2, Y3.
  destruct (bmap2_same cdiv w xe) as (wx & Ewx & Z0 & Z1 & Z2 & Z3 & _); try congruence.
  destruct (thru_orig_ok x y (map_arr n2n wx) (ax0 (values t)) (ax1 (values t)) (ax2 (values t)) (ax3 (values t) - 1))
    as (reg & Ereg & S0 & _); try (unfold dims; cbn [x y init3 tail3 map_arr ax0 ax1 ax2 ax3]; repeat split; congruence).
  destruct (param_property_ok t (wls_slope reg) W B Hp Hn Oc S0) as (u & Eu & Uk & Ukl & Uv & Uo & Ud & (U0 & U1 & U2 & U3) & Up & Ucu & Uvd & Uog & Udg & Uc).
  assert (E : dev_fit p t = Ok (DevFitted u w reg)).
  { unfold dev_fit. rewrite Hf. cbn [rbind]. fold x y avg ns. rewrite Eex. cbn [rbind]. rewrite Elr. cbn [rbind]. rewrite Ew1. cbn [rbind].
    rewrite Ew2. cbn [rbind]. rewrite Ew. cbn [rbind]. rewrite Exe. cbn [rbind]. rewrite Ewx. cbn [rbind]. rewrite Ereg. cbn [rbind]. rewrite Eu. reflexivity. }
  exists (DevFitted u w reg). split; [auto|].
  assert (SEL : forall i c o d n, in_range t i c o d -> (S d < ax3 (values t))%nat -> param_at t (p_n_periods p) d = Some n ->
     used t w i c d o = selected p t n i c d o).
  { intros i c o d n R Hd En. pose proof R as (R0 & R1 & R2 & R3). unfold used, selected.
    rewrite <- andb_assoc. fold (has_ratio t i c d o). destruct (has_ratio t i c d o) eqn:Eh; [|rewrite andb_false_r; reflexivity].
    rewrite andb_true_r. cbn [andb]. rewrite Qv by lia.
    rewrite (bidx_lt (ax2 w2)), (bidx_lt (ax3 w2)) by (destruct Ww2 as (? & ? & ? & ?); lia).
    rewrite pos_mul; [|apply (all01_np t ns w1 W Hn Hns Ew1); lia|apply Aw2].
    rewrite (np_weight_pos t ns w1 W B Hn Hns HU Ew1 i c o d R ltac:(lia) (proj1 (has_ratio_cell _ _ _ _ _ Eh))).
    rewrite (Pn d 0 Hd) in En. injection En as En. rewrite En. destruct (in_window t n o d) eqn:Ewi; [|reflexivity]. cbn [andb].
    change (av w2 (bidx (ax0 w2) i) (bidx (ax1 w2) c) o d) with (wat w2 i c o d). apply (Pw2 i c o d n); auto. rewrite (Pn d 0 Hd). congruence. }
  split; [|exact SEL]. cbn [f_ldf]. constructor; auto.
  intros i c d a n Hi Hc Hd Ha En. rewrite Uc by auto.
  destruct (dev_fit_inv p t _ W Hn Ca Cn Fn Hf E) as (lr' & w1' & w2' & FF). pose proof (ff_sv _ _ _ _ _ _ FF i c d a Hi Hc Hd Ha) as SV.
  cbn [f_reg f_w] in SV. rewrite SV. unfold wavg.
  assert (SE : forall g, sum_over (ax2 (values t)) (used t w i c d) g = sum_over (ax2 (values t)) (selected p t n i c d) g).
  { intros g. apply sumn_ext. intros o Ho. rewrite (SEL i c o d n); auto. unfold in_range. repeat split; auto; lia. }
  destruct a; cbn [avg_num avg_den]; rewrite !SE; reflexivity.
Qed.
