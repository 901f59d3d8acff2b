(** Proofs about the summary of a fitted method: the expected increments of the next year. *)
From Coq Require Import Lia.
From Verif Require Import P_Voting DevFacts P_Align2 P_Core P_Corr5 P_Methods P_Dropna LabelFacts UnionFacts P_Align P_FullExp P_Boot2 P_View P_ViewFull ConvFacts P_Diag1.
From Verif Require Import P_FullTri SliceFacts TriFacts SpecView SpecDiag.
Local Open Scope nat_scope.

Lemma total_at_unique t i c o v q d : total_at t i c o v q -> d < ax3 (values t) -> (month_of t o d <= v)%Z ->
  (forall e, e < ax3 (values t) -> (month_of t o e <= v)%Z -> e <= d) -> q = amount t i c o d.
Proof.
  intros [(_ & H)|(e & He & Hv & Hm & ->)] Hd Hdv Hdm.
  - specialize (H d Hd). lia.
  - assert (e = d); [|subst; reflexivity]. specialize (Hm d Hd Hdv). specialize (Hdm e He Hv). lia.
Qed.

Section Run.
Variables (t l ult : tri) (n : nat) (o0 a0 : Z).
Hypothesis W : wf t.
Hypothesis A0 : 1 <= ax0 (values t).
Hypothesis A1 : 1 <= ax1 (values t).
Hypothesis Q : square t n o0 a0 12.
Hypothesis N3 : 3 <= n.
Hypothesis OG : ograin t = GY.
Hypothesis DG : dgrain t = GY.
Hypothesis PF : pattern_for t l.
Hypothesis UF : ultimate_frame t ult.
Hypothesis EA : even_ages t l.
Hypothesis PJ : projectable t l.
Hypothesis BU : forall ages o a, ddims l = Ages ages -> In o (odims t) -> In a ages -> (o + a - 1 < 12 * 2261)%Z.
Hypothesis AB : exists i c o d, i < ax0 (values t) /\ c < ax1 (values t) /\ 1 <= o < n /\ d < ax3 (values l) /\ (amount ult i c o 0 / to_ultimate l i c d <> 0)%Qc.
Local Notation m := (ax3 (values l)).

Lemma run_ages : n <= m /\ ddims l = Ages (map (fun k => a0 + Z.of_nat (12 * k))%Z (seq 0 m)).
Proof.
  pose proof Q as ((_ & _ & _ & Ed & _) & E2 & E3). destruct (pf_d _ _ PF) as (xs & more & Ex & El). pose proof (pf_wf _ _ PF) as Wl.
  pose proof (wf_d _ Wl) as Ll. rewrite El in Ll. cbn [dlist] in Ll. rewrite app_length in Ll.
  pose proof (wf_d _ W) as Lt. rewrite Ex in Lt. cbn [dlist] in Lt. split; [lia|]. rewrite El. f_equal.
  assert (X : forall k, k < m -> nth k (xs ++ more) 0%Z = (a0 + Z.of_nat (12 * k))%Z).
  { induction k as [|k IH]; intros Hk.
    - rewrite app_nth1 by lia. rewrite Ex in Ed. injection Ed as ->. rewrite E3. destruct n; [lia|]. cbn. lia.
    - rewrite (EA _ k El) by (rewrite app_length; lia). rewrite IH by lia. rewrite DG. change (grain_months GY) with 12%Z. lia. }
  apply (nth_ext _ _ 0%Z (a0 + Z.of_nat (12 * 0))%Z); rewrite ?map_length, ?seq_length, ?app_length; auto. intros k Hk. rewrite X by lia.
  rewrite (map_nth (fun k => (a0 + Z.of_nat (12 * k))%Z)), seq_nth by lia. reflexivity.
Qed.

Lemma expected_ages : exists f, (do fe <- full_expectation (cdf_of l) ult true; iloc_dev fe None (Some (-1)%Z)) = Ok f /\ wf f /\ no_future f /\
  kdims f = kdims t /\ vdims f = vdims t /\ odims f = odims t /\ ddims f = ddims l /\ is_cumulative f = Some true /\ is_pattern f = false /\ ograin f = GY /\ dgrain f = GY /\
  ax0 (values f) = ax0 (values t) /\ ax1 (values f) = ax1 (values t) /\ ax2 (values f) = n /\ ax3 (values f) = m /\
  forall i c o d, i < ax0 (values t) -> c < ax1 (values t) -> o < n -> d < m -> amount f i c o d = (amount ult i c o 0 / to_ultimate l i c d)%Qc.
Proof.
  pose proof Q as (_ & E2 & E3). destruct run_ages as (Hm & El).
  destruct (full_cumulative t l ult W A0 A1 PF UF ltac:(lia) PJ) as (r & Er & F & Cr). rewrite Er. cbn [rbind].
  pose proof (runoff_wf t l r true W PF PJ F) as Wr. destruct F.
  destruct (iloc_dev_init r Wr) as (f & Ef & C); [lia|]. exists f. split; [exact Ef|]. split; [apply C|].
  replace (ax3 (values r) - 1) with m in C by lia.
  pose proof (cl_eq _ _ C) as Eq.
  assert (Fk : kdims f = kdims t) by (rewrite Eq; cbn [set_vdate set_dims sel_dev sel_tri kdims]; rewrite sel_seq_all; [congruence|apply Wr]).
  assert (Fv : vdims f = vdims t) by (rewrite Eq; cbn [set_vdate set_dims sel_dev sel_tri vdims]; rewrite sel_seq_all; [congruence|apply Wr]).
  assert (Fo : odims f = odims t) by (rewrite Eq; cbn [set_vdate set_dims sel_dev sel_tri odims]; rewrite sel_seq_all; [congruence|apply Wr]).
  assert (Fd : ddims f = ddims l).
  { rewrite Eq. cbn [set_vdate set_dims sel_dev sel_tri ddims]. rewrite rn_d, El. cbn [dlist dmap]. f_equal. rewrite sel_block by (rewrite app_length, map_length, seq_length; cbn; lia).
    cbn [skipn]. rewrite firstn_app, map_length, seq_length, Nat.sub_diag. cbn [firstn]. rewrite app_nil_r. rewrite <- (seq_length m 0) at 1. rewrite <- (map_length (fun k => (a0 + Z.of_nat (12 * k))%Z) (seq 0 m)). apply firstn_all. }
  assert (F3 : ax3 (values f) = m) by (rewrite Eq; cbn [set_vdate set_dims sel_dev sel_tri sel_arr values ax3]; apply seq_length).
  assert (F2 : ax2 (values f) = n) by (rewrite Eq; cbn [set_vdate set_dims sel_dev sel_tri sel_arr values ax2]; rewrite seq_length; lia).
  split.
  { intros o d Ho Hd. unfold future. assert (Ms : month_of f o d = month_of (sel_dev r (seq 0 m)) o d) by (rewrite Eq; reflexivity).
    assert (X : (vdate f <? month_of f o d)%Z = (ULT_VAL <? month_of f o d)%Z).
    { rewrite Ms. rewrite (cl_fut _ _ C); [|cbn [sel_dev sel_tri sel_arr values ax2 ax3]; rewrite seq_length; lia..]. f_equal. cbn [sel_dev sel_tri vdate]. auto. }
    assert (Y : (month_of f o d <= ULT_VAL)%Z).
    { unfold month_of. rewrite Fd, El, Fo. unfold age_month. destruct (_ =? 9999)%Z; [unfold ULT_VAL; lia|].
      assert (H := BU _ (nth o (odims t) 0%Z) (nth d (map (fun k => (a0 + Z.of_nat (12 * k))%Z) (seq 0 m)) 0%Z) El). unfold ULT_VAL.
      assert (nth o (odims t) 0%Z + nth d (map (fun k => (a0 + Z.of_nat (12 * k))%Z) (seq 0 m)) 0%Z - 1 < 12 * 2261)%Z; [|lia]. apply H; apply nth_In; [rewrite <- (wf_o _ W); lia|rewrite map_length, seq_length; lia]. }
    intros L. apply Z.ltb_lt in L. rewrite X in L. apply Z.ltb_lt in L. lia. }
  split; [auto|]. split; [auto|]. split; [auto|]. split; [auto|].
  split; [rewrite Eq; cbn [set_vdate set_dims sel_dev sel_tri is_cumulative]; auto|]. split; [rewrite Eq; cbn [set_vdate set_dims sel_dev sel_tri is_pattern]; auto|].
  split; [rewrite Eq; cbn [set_vdate set_dims sel_dev sel_tri ograin]; congruence|]. split; [rewrite Eq; cbn [set_vdate set_dims sel_dev sel_tri dgrain]; congruence|].
  split; [rewrite Eq; cbn [set_vdate set_dims sel_dev sel_tri sel_arr values ax0]; rewrite seq_length; lia|]. split; [rewrite Eq; cbn [set_vdate set_dims sel_dev sel_tri sel_arr values ax1]; rewrite seq_length; lia|].
  split; [auto|]. split; [auto|]. intros i c o d Hi Hc Ho Hd. unfold amount at 1, cel. rewrite Eq. cbn [set_vdate set_dims sel_dev sel_tri sel_arr values av].
  rewrite !seq_nth by lia. cbn [Nat.add]. change (av (values r) i c o d) with (cel r i c o d). destruct (Cr i c o Hi Hc ltac:(lia)) as (_ & X). rewrite X by auto.
  unfold amount. destruct (cel ult i c o 0) as [x|]; cbn [cdiv nz]; [|unfold Qcdiv; ring].
  destruct (Qc_eqb_spec (to_ultimate l i c d) 0) as [Z|Z]; [rewrite Z; cbn [nz]; unfold Qcdiv; replace (/ 0)%Qc with 0%Qc by (apply Qc_is_canon; vm_compute; reflexivity); ring|reflexivity].
Qed.

Lemma run_off_ok : exists run, diag_run_off t l ult = Ok run /\ alike t run /\
  forall i c o, i < ax0 (values t) -> c < ax1 (values t) -> o < n ->
    amount run i c o 0 = (amount ult i c o 0 / to_ultimate l i c (Nat.min (n - o) (m - 1)) - amount ult i c o 0 / to_ultimate l i c (n - 1 - o))%Qc.
Proof.
  pose proof Q as ((_ & _ & Eo & Ed & N9 & _) & E2 & E3). destruct run_ages as (Hm & El). unfold diag_run_off.
  destruct expected_ages as (f & Ef & Wf & NF & Fk & Fv & Fo & Fd & Fc & Fp & Fog & Fdg & F0 & F1 & F2 & F3 & Cf).
  destruct (full_expectation (cdf_of l) ult true) as [fe|]; [|discriminate]. cbn [rbind] in *. rewrite Ef. cbn [rbind].
  assert (P9 : forall k, k < m -> (a0 + Z.of_nat (12 * k) < 9999)%Z).
  { intros k Hk. destruct (PJ _ El) as (P9 & _). apply P9. apply in_map_iff. exists k. split; [reflexivity|apply in_seq; lia]. }
  assert (G : age_grid f o0 a0 12 1).
  { unfold age_grid. rewrite F2, F3, Fo, Fd, Fdg, Fog, Eo, El, E2. split; [lia|]. split; [lia|]. split; [reflexivity|]. split; [reflexivity|]. split; [intros k Hk; specialize (P9 k Hk); lia|]. split; reflexivity. }
  assert (Mf : forall o d, o < n -> d < m -> month_of f o d = (o0 + a0 - 1 + Z.of_nat (12 * (o + d)))%Z).
  { intros o d Ho Hd. rewrite (P_View.grid_month f o0 a0 12 1) by (auto; lia). f_equal. f_equal. lia. }
  assert (BUf : before_ultimate f).
  { intros o d Ho Hd. rewrite F2 in Ho. rewrite F3 in Hd. rewrite Mf by auto.
    assert (H := BU _ (o0 + Z.of_nat (12 * 1 * o))%Z (a0 + Z.of_nat (12 * d))%Z El). assert (o0 + Z.of_nat (12 * 1 * o) + (a0 + Z.of_nat (12 * d)) - 1 < 12 * 2261)%Z; [|lia].
    apply H; [rewrite Eo|]; apply in_map_iff; [exists o|exists d]; (split; [reflexivity|apply in_seq; lia]). }
  assert (ABf : amounts_beyond_first f (ax3 (values f))).
  { right. destruct AB as (i & c & o & d & Hi & Hc & Ho & Hd & Hne). exists i, c, o, d. unfold in_range. rewrite Cf by (auto; lia). repeat split; auto; lia. }
  destruct (full_to_valuation f o0 a0 12 1 Wf G NF Fp Fc ltac:(lia)) as (u & vs & Eu & Su & Du & Svs & Lu & Mem & Cu); auto.
  { right. left. lia. }
  rewrite Eu. cbn [rbind]. set (L := n + m - 1).
  assert (Evs : vs = map (fun k => o0 + a0 - 1 + Z.of_nat (12 * k))%Z (seq 0 L)).
  { apply sorted_Z_ext; [auto|apply sorted_ap; lia|]. intros v. rewrite Mem, in_map_iff. split.
    - intros (o & d & Ho & Hd & <-). exists (o + d). rewrite Mf by lia. split; [reflexivity|apply in_seq; unfold L; lia].
    - intros (k & <- & Hk). apply in_seq in Hk. unfold L in Hk. exists (k - (m - 1)), (Nat.min k (m - 1)). rewrite Mf by lia. split; [lia|]. split; [lia|]. f_equal. f_equal. f_equal. lia. }
  assert (Lv : List.length vs = L) by (rewrite Evs, map_length, seq_length; reflexivity).
  assert (Nv : forall k, k < L -> nth k vs 0%Z = (o0 + a0 - 1 + Z.of_nat (12 * k))%Z).
  { intros k Hk. rewrite Evs. rewrite (nth_indep _ 0%Z (o0 + a0 - 1 + Z.of_nat (12 * 0))%Z) by (rewrite map_length, seq_length; auto). rewrite (map_nth (fun k => (o0 + a0 - 1 + Z.of_nat (12 * k))%Z)), seq_nth by auto. reflexivity. }
  destruct Su.
  assert (Hv : forall v, In v vs -> (v <= vdate f)%Z).
  { intros v H. apply Mem in H. destruct H as (o & d & Ho & Hd & <-). specialize (NF o d Ho Hd). unfold future in NF. lia. }
  assert (Wu : wf u).
  { destruct Wf. constructor; rewrite ?sr_k, ?sr_v, ?sr_o, ?sr_vd, ?sr_0, ?sr_1, ?sr_2, ?Du; auto; cbn [dlist].
    - lia.
    - intros v H. specialize (Hv v H). lia. }
  destruct (cum_to_incr_cell u Wu ltac:(congruence) ltac:(congruence)) as (x & Ex & Fx & _ & _ & Cx); [unfold L in *; lia|].
  rewrite Ex. cbn [rbind]. pose proof (wf_same_frame _ _ Wu Fx) as Wx. destruct Fx.
  assert (X3 : ax3 (values x) = L) by congruence.
  assert (Ek : slice_dev x (fun d => nth d (map (fun v => label_after (dgrain x) v (vdate t)) (dlist (ddims x))) false) =
     Ok (sel_tri x (seq 0 (ax0 (values x))) (seq 0 (ax1 (values x))) (seq 0 (ax2 (values x))) (seq n (m - 1)))).
  { apply slice_dev_block; [unfold L in *; lia|rewrite X3; unfold L; lia|]. intros k Hk. rewrite X3 in Hk.
    rewrite sf_d, Du. cbn [dlist]. replace (dgrain x) with GY by congruence.
    rewrite (nth_indep _ false (label_after GY 0%Z (vdate t))) by (rewrite map_length; lia). rewrite (map_nth (fun v => label_after GY v (vdate t))), Nv by auto.
    cbn [label_after]. rewrite (square_vdate _ _ _ _ _ Q).
    assert (E : forall p, ((o0 + a0 - 1 + 12 * Z.of_nat p) / 12 = (o0 + a0 - 1) / 12 + Z.of_nat p)%Z) by (intros p; rewrite Z.mul_comm, Z.div_add by lia; reflexivity).
    replace (Z.of_nat (12 * k)) with (12 * Z.of_nat k)%Z by lia. change (Z.of_nat 12) with 12%Z. rewrite !E.
    destruct (Nat.leb_spec n k), (Nat.ltb_spec k (n + (m - 1))); cbn [andb]; try (apply Z.ltb_lt; lia); try (apply Z.ltb_ge; lia). }
  unfold getitem_dev. rewrite map_length, sf_d, Du. cbn [dlist]. rewrite Lv, X3, Nat.eqb_refl. cbn [negb].
  rewrite sf_d, Du in Ek. cbn [dlist] in Ek. rewrite Ek. cbn [rbind].
  set (y := sel_tri x (seq 0 (ax0 (values x))) (seq 0 (ax1 (values x))) (seq 0 (ax2 (values x))) (seq n (m - 1))).
  assert (Wy : wf y).
  { apply wf_sel; auto; [apply incr_pos_seq; lia|apply incr_pos_seq; rewrite X3; unfold L; lia|rewrite seq_length; apply Wx|rewrite seq_length; lia]. }
  rewrite DG. change (run_offs GY) with (Z.of_nat 1). destruct (iloc_dev_upto y 1 Wy) as (run & Erun & C); [cbn [y sel_tri sel_arr values ax3]; rewrite seq_length; lia|].
  exists run. split; [exact Erun|]. pose proof (cl_eq _ _ C) as Eq.
  assert (Y0 : ax0 (values y) = ax0 (values t)) by (cbn [y sel_tri sel_arr values ax0]; rewrite seq_length; congruence).
  assert (Y1 : ax1 (values y) = ax1 (values t)) by (cbn [y sel_tri sel_arr values ax1]; rewrite seq_length; congruence).
  assert (Y2 : ax2 (values y) = ax2 (values t)) by (cbn [y sel_tri sel_arr values ax2]; rewrite seq_length; congruence).
  split.
  - constructor.
    + apply C.
    + rewrite Eq. cbn [set_vdate set_dims sel_dev sel_tri vdims]. rewrite sel_seq_all by apply Wy. cbn [y sel_tri vdims]. rewrite sel_seq_all by apply Wx. congruence.
    + rewrite Eq. cbn [set_vdate set_dims sel_dev sel_tri sel_arr values ax0]. rewrite seq_length. auto.
    + rewrite Eq. cbn [set_vdate set_dims sel_dev sel_tri sel_arr values ax1]. rewrite seq_length. auto.
    + rewrite Eq. cbn [set_vdate set_dims sel_dev sel_tri sel_arr values ax2]. rewrite seq_length. auto.
    + rewrite Eq. reflexivity.
  - intros i c o Hi Hc Ho.
    assert (Cr : cel run i c o 0 = cel x i c o n).
    { unfold cel. rewrite Eq. cbn [set_vdate set_dims sel_dev sel_tri sel_arr values av]. rewrite !seq_nth by lia. cbn [Nat.add y sel_tri sel_arr values av]. rewrite !seq_nth by (try lia; congruence). rewrite Nat.add_0_r. reflexivity. }
    assert (Ru : forall k, k < L -> in_range u i c o k) by (intros k Hk; unfold in_range; lia).
    unfold amount at 1. rewrite Cr. rewrite Cx by (apply Ru; unfold L; lia). destruct n as [|n'] eqn:En; [lia|].
    replace (diff_kept u o (S n')) with true.
    2: { unfold diff_kept. symmetry. apply Bool.orb_true_iff. right. unfold month_of. rewrite Du. assert (H := Hv (nth (S n') vs 0%Z)). rewrite sr_vd.
         destruct (Z.ltb_spec (vdate f) (nth (S n') vs 0%Z)); [|reflexivity]. exfalso. assert (nth (S n') vs 0 <= vdate f)%Z; [|lia]. apply H, nth_In. unfold L in *. lia. }
    rewrite nz_n2n. cbn [nz].
    assert (Mu : forall k, k < L -> month_of u o k = (o0 + a0 - 1 + Z.of_nat (12 * k))%Z) by (intros k Hk; unfold month_of; rewrite Du; auto).
    destruct (Cu i c o (S n')) as (q1 & T1 & S1); [apply Ru; unfold L; lia|]. destruct (Cu i c o n') as (q2 & T2 & S2); [apply Ru; unfold L; lia|].
    apply stores_nz in S1, S2. unfold amount at 1 2. rewrite S1, S2. rewrite Mu in T1, T2 by (unfold L; lia).
    rewrite (total_at_unique _ _ _ _ _ _ (Nat.min (S n' - o) (m - 1)) T1); [| | |].
    2: { lia. }
    2: { rewrite Mf by lia. lia. }
    2: { intros e He. rewrite Mf by lia. lia. }
    rewrite (total_at_unique _ _ _ _ _ _ (S n' - 1 - o) T2); [| | |].
    2: { lia. }
    2: { rewrite Mf by lia. lia. }
    2: { intros e He. rewrite Mf by lia. lia. }
    rewrite !Cf by lia. reflexivity.
Qed.
End Run.
