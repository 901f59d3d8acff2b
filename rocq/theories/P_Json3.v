(** Proofs for C60: the triangle that is read. *)
From Coq Require Import Lia Sorted Permutation.
From Verif Require Import SpecPandas SpecLabel P_Align2 P_Align3 CatFacts NumFacts ArrFacts TriFacts UnionFacts P_Group P_Core P_Arith DevFacts P_Build P_Build2 P_View P_Grain ConvFacts P_Sort SpecJson P_Json P_Json2.
Local Open Scope Z_scope.

Lemma frame_month t s o d : same_frame t s -> month_of s o d = month_of t o d.
Proof. intros F. unfold month_of. rewrite (sf_o _ _ F), (sf_d _ _ F). auto. Qed.
Lemma frame_future t s o d : same_frame t s -> future s o d <-> future t o d.
Proof. intros F. unfold future. rewrite (frame_month t s), (sf_vd _ _ F) by auto. tauto. Qed.
Lemma frame_range t s i c o d : same_frame t s -> in_range s i c o d <-> in_range t i c o d.
Proof. intros F. unfold in_range. rewrite (sf_0 _ _ F), (sf_1 _ _ F), (sf_2 _ _ F), (sf_3 _ _ F). tauto. Qed.

Lemma diff_kept_eq t o d : round_trip_shape t -> (o < ax2 (values t))%nat -> (d < ax3 (values t))%nat -> diff_kept t o d = negb (vdate t <? month_of t o d).
Proof.
  intros R Ho Hd. unfold diff_kept. destruct R as [(A & B)|(A & NF)].
  - assert (Nat.min (ax2 (values t)) (ax3 (values t) - 1) =? 1 = false)%nat as -> by (apply Nat.eqb_neq; lia). reflexivity.
  - specialize (NF o d Ho Hd). unfold future in NF. assert (vdate t <? month_of t o d = false) as -> by (apply Z.ltb_ge; lia). apply orb_true_r.
Qed.

(** The increments of a savable triangle. *)
Lemma increments t o0 a0 h m : savable t o0 a0 h m -> exists s, cum_to_incr t = Ok s /\ same_frame t s /\ is_cumulative s = Some false /\ is_pattern s = false /\ savable s o0 a0 h m /\
  forall i c o d, in_range t i c o d -> ~ future t o d ->
    match is_cumulative t with Some true => sumn (S d) (amount s i c o) = amount t i c o d | _ => amount s i c o d = amount t i c o d end.
Proof.
  intros V. pose proof (sv_wf _ _ _ _ _ V) as W. pose proof (sv_pattern _ _ _ _ _ V) as P. pose proof (sv_blank _ _ _ _ _ V) as B.
  destruct (sv_cumulative _ _ _ _ _ V) as [Cu|(Cu & RT)].
  - exists t. unfold cum_to_incr. rewrite Cu. repeat (split; auto). 
  - destruct (cum_to_incr_cell t W P) as (s & Es & F & Cs & Ps & Cell); [congruence|apply (sv_two_ages _ _ _ _ _ V)|].
    assert (Cell' : forall i c o d, in_range t i c o d -> cel s i c o d = match d with O => cel t i c o 0%nat | S e => if vdate t <? month_of t o d then None else n2n (Some (amount t i c o d - amount t i c o e)%Qc) end).
    { intros i c o d R. rewrite Cell by auto. destruct d; auto. destruct R as (_ & _ & Ho & Hd). rewrite diff_kept_eq by auto. destruct (vdate t <? month_of t o (S d)); auto. }
    clear Cell.
    assert (En : forall i c o d, entry s i c o d <-> entry t i c o d).
    { intros i c o d. unfold entry. rewrite Cs, Cu, (frame_range t s), (frame_future t s) by auto. split.
      - intros (R & NF & E). split; auto. split; auto. destruct d as [|e]; rewrite Cell' in E by auto; auto.
        destruct (vdate t <? month_of t o (S e)); [congruence|]. intros X. apply E. rewrite X. replace (amount t i c o e - amount t i c o e)%Qc with 0%Qc by ring. reflexivity.
      - intros (R & NF & E). split; auto. split; auto. destruct d as [|e]; rewrite Cell' by auto; auto. unfold future in NF. destruct (Z.ltb_spec (vdate t) (month_of t o (S e))); [lia|].
        rewrite n2n_Some; [discriminate|]. intros X. apply E. replace (amount t i c o (S e)) with (amount t i c o (S e) - amount t i c o e + amount t i c o e)%Qc by ring. rewrite X. ring. }
    assert (Am : forall i c o d, in_range t i c o d -> amount s i c o d = match d with O => amount t i c o 0%nat | S e => if vdate t <? month_of t o d then 0%Qc else (amount t i c o d - amount t i c o e)%Qc end).
    { intros i c o d R. unfold amount at 1. rewrite Cell' by auto. destruct d; [reflexivity|]. destruct (vdate t <? month_of t o (S d)); [reflexivity|]. apply stores_nz, stores_n2n. }
    exists s. split; auto. split; auto. split; auto. split; auto. split.
    + destruct V. constructor; rewrite ?(sf_k _ _ F), ?(sf_v _ _ F), ?(sf_vd _ _ F), ?(sf_2 _ _ F), ?(sf_3 _ _ F), ?(sf_0 _ _ F), ?(sf_og _ _ F), ?(sf_dg _ _ F); auto.
      * eapply wf_same_frame; eauto.
      * unfold age_grid. rewrite (sf_o _ _ F), (sf_d _ _ F), (sf_og _ _ F), (sf_dg _ _ F), (sf_2 _ _ F), (sf_3 _ _ F). auto.
      * intros i c o d R Fu. rewrite (frame_range t s) in R by auto. rewrite (frame_future t s) in Fu by auto. rewrite Cell' by auto. destruct d; [apply B; auto|].
        unfold future in Fu. apply Z.ltb_lt in Fu. rewrite Fu. auto.
      * destruct sv_first as (i & c & E). exists i, c. apply En. auto.
      * destruct sv_last as (i & c & o & d & E & M). exists i, c, o, d. rewrite En, (frame_month t s) by auto. auto.
      * intros i Hi. destruct (sv_rows i Hi) as (c & o & d & E). exists c, o, d. apply En. auto.
      * destruct sv_beyond as [E|(i & c & o & d & E & L)]; [left; auto|right]. exists i, c, o, d. rewrite En. auto.
      * assert (X : forall z, origin_months s z <-> origin_months t z).
        { intros z. unfold origin_months. rewrite (sf_o _ _ F). split; intros (i & c & o & d & E & M); exists i, c, o, d; split; auto; apply En; auto. }
        destruct (ograin t); cbn in *; auto.
        -- destruct sv_ograin as (a & k & L & H). exists a, k. split; auto. intros z. rewrite X. apply H.
        -- destruct sv_ograin as (z & A & C). exists z. rewrite !X. auto.
      * assert (X : forall z, date_months s z <-> date_months t z).
        { intros z. unfold date_months. split; intros (i & c & o & d & E & M); exists i, c, o, d; rewrite (frame_month t s) in * by auto; split; auto; apply En; auto. }
        destruct (dgrain t); cbn in *; auto.
        -- destruct sv_dgrain as (a & k & L & H). exists a, k. split; auto. intros z. rewrite X. apply H.
        -- destruct sv_dgrain as (z & A & C). exists z. rewrite !X. auto.
      * intros i c o d R. rewrite (frame_range t s) in R by auto. rewrite Am by auto. destruct d; [apply sv_decimals; auto|]. destruct (_ <? _); [apply ten_decimals_0|].
        apply ten_decimals_sub; apply sv_decimals; auto. destruct R as (? & ? & ? & ?). repeat split; auto. lia.
    + rewrite Cu. intros i c o d. induction d as [|d IH]; intros R NF.
      * cbn [sumn]. rewrite Am by auto. ring.
      * change (sumn (S (S d)) (amount s i c o)) with (sumn (S d) (amount s i c o) + amount s i c o (S d))%Qc. unfold future in NF. pose proof R as (R1 & R2 & R3 & R4).
        rewrite IH; [|repeat split; auto; lia|].
        -- rewrite Am by auto. destruct (Z.ltb_spec (vdate t) (month_of t o (S d))); [lia|]. ring.
        -- unfold future. pose proof (month_strict t o d (S d) W R3 (conj (Nat.lt_succ_diag_r d) R4)). lia.
Qed.

Lemma json_round_trip t o0 a0 h m : savable t o0 a0 h m -> exists j u, to_json t = Ok j /\ read_json j = Ok u /\ read_back t u.
Proof.
  intros V. pose proof (sv_wf _ _ _ _ _ V) as W. destruct (increments t o0 a0 h m V) as (s & Es & F & Cs & Ps & Vs & Am).
  destruct (frame_of s o0 a0 h m Vs Cs) as (v & w & Ev & Ef & Ww & SD).
  destruct (build_table s o0 a0 h m Vs Cs w Ww SD (key_labels t)) as (b & Eb & Wb & Bb & Pb & Cb & Lb & Vb & Kb & Ob & Db & VDb & OGb & DGb & Cell).
  pose proof (sv_grid _ _ _ _ _ V) as G. pose proof (sv_two_ages _ _ _ _ _ V) as N2. pose proof (sv_pattern _ _ _ _ _ V) as Pt.
  assert (IV : is_val_tri t = false) by (unfold is_val_tri; destruct G as (_ & _ & _ & -> & _); reflexivity).
  set (table := map rounded (frame w)) in *.
  exists (Json false (is_cumulative t) false (vdims t) (key_labels t) table).
  assert (EJ : to_json t = Ok (Json false (is_cumulative t) false (vdims t) (key_labels t) table)).
  { unfold to_json. rewrite Es. cbn [rbind]. rewrite Ev. cbn [rbind]. rewrite Ef. cbn [rbind]. rewrite IV, Pt. reflexivity. }
  rewrite (sf_k _ _ F) in Kb. rewrite (sf_o _ _ F) in Ob. rewrite (sf_d _ _ F) in Db. rewrite (sf_v _ _ F) in Vb, Eb. rewrite (sf_vd _ _ F) in VDb. rewrite (sf_og _ _ F) in OGb. rewrite (sf_dg _ _ F) in DGb.
  assert (Mb : forall o d, month_of b o d = month_of t o d) by (intros; unfold month_of; rewrite Ob, Db; auto).
  assert (A1 : ax1 (values b) = ax1 (values t)) by (rewrite (wf_v _ Wb), (wf_v _ W), Vb; auto).
  assert (A2 : ax2 (values b) = ax2 (values t)) by (rewrite (wf_o _ Wb), (wf_o _ W), Ob; auto).
  assert (A3 : ax3 (values b) = ax3 (values t)) by (rewrite (wf_d _ Wb), (wf_d _ W), Db; auto).
  assert (A0 : ax0 (values b) = ax0 (values t)) by (rewrite (wf_k _ Wb), (wf_k _ W); apply Permutation_length; auto).
  set (x := match is_cumulative t with Some true => incr_to_cum b | _ => b end).
  assert (X : same_frame b x /\ is_cumulative x = is_cumulative t /\ is_pattern x = false /\
    forall i j c o d, in_range t i c o d -> (j < ax0 (values b))%nat -> nth j (kdims b) [] = nth i (kdims t) [] -> stores (cel x j c o d) (amount t i c o d)).
  { assert (Cell' : forall i j c o d, in_range t i c o d -> (j < ax0 (values b))%nat -> nth j (kdims b) [] = nth i (kdims t) [] -> stores (cel b j c o d) (amount s i c o d)).
    { intros i j c o d R Hj Ek. apply Cell; auto; [apply (frame_range t s); auto|]. rewrite (sf_k _ _ F). auto. }
    assert (Zero : forall i c o d, in_range t i c o d -> future t o d -> amount t i c o d = 0%Qc).
    { intros i c o d R Fu. unfold amount. rewrite (sv_blank _ _ _ _ _ V); auto. }
    unfold x. destruct (sv_cumulative _ _ _ _ _ V) as [Cu|(Cu & RT)]; rewrite Cu in Am |- *.
    - split; [constructor; auto|]. split; [auto|]. split; [auto|]. intros i j c o d R Hj Ek. specialize (Cell' i j c o d R Hj Ek).
      destruct (Z.ltb_spec (vdate t) (month_of t o d)) as [L|L].
      + rewrite Zero by auto. rewrite Bb; [apply stores_None| |unfold future; rewrite VDb, Mb; auto]. destruct R as (? & ? & ? & ?). repeat split; auto; lia.
      + rewrite Am in Cell'; auto. unfold future. lia.
    - destruct (incr_to_cum_frame b Pb) as (Fx & Cx & Px); [congruence|]. split; auto. split; auto. split; auto. intros i j c o d R Hj Ek.
      pose proof R as (R1 & R2 & R3 & R4). rewrite incr_to_cum_cell; auto; try congruence; try lia. rewrite VDb, Mb, A2, A3.
      destruct (Z.ltb_spec (vdate t) (month_of t o d)) as [L|L].
      + assert (Nat.min (ax2 (values t)) (ax3 (values t)) =? 1 = false)%nat as ->.
        { apply Nat.eqb_neq. intros E. assert (E1 : ax2 (values t) = 1%nat) by lia. assert (o = 0)%nat by lia. subst o. rewrite (grid_month t o0 a0 h m) in L by auto. pose proof (sv_last_age _ _ _ _ _ V). nia. }
        cbn [orb negb]. rewrite Zero by auto. apply stores_None.
      + rewrite orb_true_r. replace (sumn (S d) (fun k => amount b j c o k)) with (amount t i c o d); [apply stores_n2n|].
        rewrite <- Am; [|auto|unfold future; lia]. apply sumn_ext. intros k Hk. symmetry. apply stores_nz. apply Cell'; auto. repeat split; auto. lia. }
  destruct X as (Fx & Cx & Px & CX). pose proof (wf_same_frame _ _ Wb Fx) as Wx.
  assert (Nk : NoDup (kdims x)) by (rewrite (sf_k _ _ Fx); apply (Permutation_NoDup (Permutation_sym Kb)), (sv_names _ _ _ _ _ V)).
  assert (Nv : NoDup (vdims t)) by apply (sv_names _ _ _ _ _ V). assert (Vx : vdims x = vdims t) by (rewrite (sf_v _ _ Fx); auto).
  destruct (sv_last _ _ _ _ _ V) as (il & cl & ol & dl & El & Ml). pose proof El as ((L0 & L1 & L2 & L3) & _).
  destruct (getitem_cols_ok x (vdims t) Wx Nv) as (ic & y & Ey & P & Vy & _ & Ric).
  { intros E. rewrite (wf_v _ W), E in L1. cbn in L1. lia. }
  { rewrite Vx. auto. }
  assert (Ax0 : ax0 (values x) = ax0 (values t)) by (rewrite (sf_0 _ _ Fx); auto). assert (Ax2 : ax2 (values x) = ax2 (values t)) by (rewrite (sf_2 _ _ Fx); auto). assert (Ax3 : ax3 (values x) = ax3 (values t)) by (rewrite (sf_3 _ _ Fx); auto).
  assert (Mx : forall o d, month_of x o d = month_of t o d) by (intros; rewrite (frame_month b x) by auto; auto).
  assert (Ky : kdims y = kdims x) by (rewrite (pk_k _ _ _ _ P); apply sel_seq_all; apply Wx).
  assert (Lic : List.length ic = ax1 (values t)).
  { rewrite <- (pk_1 _ _ _ _ P), (wf_v _ (pk_wf _ _ _ _ P)), Vy. symmetry. apply W. }
  assert (Nic : forall c, (c < ax1 (values t))%nat -> nth c ic 0%nat = c).
  { intros c Hc. assert (E : nth c (vdims y) EmptyString = nth (nth c ic 0%nat) (vdims x) EmptyString).
    { rewrite (pk_v _ _ _ _ P). unfold sel. rewrite (nth_indep _ _ (nth 0 (vdims x) EmptyString)) by (rewrite map_length; lia). rewrite (map_nth (fun i => nth i (vdims x) EmptyString)). auto. }
    rewrite Vy, Vx in E. rewrite Vx in Ric. symmetry. apply (proj1 (NoDup_nth (vdims t) EmptyString) Nv); auto; [rewrite <- (wf_v _ W); auto|]. apply Ric, nth_In. lia. }
  assert (VDy : vdate y = vdate t).
  { pose proof (pk_le _ _ _ _ P) as Le. pose proof (pk_fut _ _ _ _ P ol dl ltac:(lia) ltac:(lia)) as Fu. rewrite Mx, Ml, (sf_vd _ _ Fx), VDb, Z.ltb_irrefl in Fu. apply Z.ltb_ge in Fu. rewrite (sf_vd _ _ Fx), VDb in Le. lia. }
  assert (Ay0 : ax0 (values y) = ax0 (values t)) by (rewrite (pk_0 _ _ _ _ P), seq_length; auto).
  assert (Ay2 : ax2 (values y) = ax2 (values t)) by (rewrite (pk_2 _ _ _ _ P); auto). assert (Ay3 : ax3 (values y) = ax3 (values t)) by (rewrite (pk_3 _ _ _ _ P); auto).
  assert (Ay1 : ax1 (values y) = ax1 (values t)) by (rewrite (pk_1 _ _ _ _ P); auto).
  assert (Wy : wf y) by apply (pk_wf _ _ _ _ P).
  assert (My : forall o d, month_of y o d = month_of t o d) by (intros; rewrite <- Mx; unfold month_of; rewrite (pk_o _ _ _ _ P), (pk_d _ _ _ _ P); auto).
  destruct (sort_index_reordered y Wy ltac:(lia)) as (u & p & Eu & RR & IO & Fut). change (sort_index y = Ok u) in Eu.
  destruct (sort_index_ok y Wy) as (u' & Eu' & Wu & _ & Ku & KLu & Vu & Ou & Du & OGu & DGu & Cu & Pu & Leu & _); [split; [rewrite Ky|rewrite Vy]; auto|rewrite <- (wf_k _ Wy); lia|].
  rewrite Eu in Eu'. injection Eu' as <-. exists u. split; [exact EJ|]. split.
  { unfold read_json. cbn [js_pattern js_labels js_columns js_table js_val js_cumulative]. rewrite Eb. cbn [rbind]. fold x. rewrite Ey. exact Eu. }
  assert (VDu : vdate u = vdate t).
  { pose proof (Fut ol dl ltac:(lia) ltac:(lia)) as Fu. unfold future in Fu. assert (Eum : month_of u ol dl = month_of y ol dl) by (unfold month_of; rewrite Ou, Du; auto).
    rewrite Eum, My, Ml, VDy in Fu. destruct (Z.lt_ge_cases (vdate u) (vdate t)) as [L|L]; [|lia]. apply Fu in L. lia. }
  constructor.
  - split.
    + rewrite Ku, Ky, (sf_k _ _ Fx). auto.
    + cbn [in_order] in IO. clear - IO. induction IO as [|k l S IH A]; constructor; auto. rewrite Forall_forall in *. intros k' Hk. apply key_leb_le. auto.
  - rewrite KLu, (pk_kl _ _ _ _ P), (sf_kl _ _ Fx). auto.
  - rewrite Vu. auto.
  - rewrite Ou, (pk_o _ _ _ _ P), (sf_o _ _ Fx). auto.
  - rewrite Du, (pk_d _ _ _ _ P), (sf_d _ _ Fx). auto.
  - auto.
  - rewrite Cu, (pk_cum _ _ _ _ P). auto.
  - rewrite Pu, (pk_pat _ _ _ _ P), Px. auto.
  - rewrite OGu, (pk_og _ _ _ _ P), (sf_og _ _ Fx). auto.
  - rewrite DGu, (pk_dg _ _ _ _ P), (sf_dg _ _ Fx). auto.
  - auto.
  - intros i j c o d R Hj Ek. pose proof R as (R1 & R2 & R3 & R4). rewrite (rr_0 _ _ _ _ RR) in Hj. rewrite (rr_cell _ _ _ _ RR) by (repeat split; auto; lia).
    assert (Hp : (nth j p 0 < ax0 (values y))%nat).
    { pose proof (rr_perm _ _ _ _ RR) as Pm. cbn [axis_num axn] in Pm. pose proof (Permutation_length Pm) as PL. rewrite seq_length in PL.
      assert (I : In (nth j p 0%nat) p) by (apply nth_In; lia). apply (Permutation_in _ Pm), in_seq in I. lia. }
    rewrite (pk_c _ _ _ _ P) by lia. rewrite Nic by auto.
    assert (Es' : nth (nth j p 0%nat) (seq 0 (ax0 (values x))) 0%nat = nth j p 0%nat) by (rewrite seq_nth; lia). rewrite Es'.
    apply CX; auto; [lia|]. rewrite <- Ek. rewrite (rr_k _ _ _ _ RR).
    rewrite (nth_indep (map _ p) [] (nth 0 (kdims y) [])) by (rewrite map_length; pose proof (Permutation_length (rr_perm _ _ _ _ RR)) as PL; rewrite seq_length in PL; cbn [axis_num axn] in PL; lia).
    rewrite (map_nth (fun i => nth i (kdims y) [])). rewrite Ky, (sf_k _ _ Fx). auto.
Qed.

Lemma key_sorted_strict l : NoDup l -> StronglySorted (fun a b => key_leb a b = true) l -> StronglySorted key_lt l.
Proof.
  induction 2 as [|x l S IH A]; constructor; inversion H; subst; auto. rewrite Forall_forall in *. intros z Hz. specialize (A z Hz). apply key_leb_le in A. destruct A as [->|A]; auto. contradiction.
Qed.
Lemma json_same t o0 a0 h m : savable t o0 a0 h m -> StronglySorted (fun a b => key_leb a b = true) (kdims t) ->
  exists j u, to_json t = Ok j /\ read_json j = Ok u /\ same_frame t u /\ is_cumulative u = is_cumulative t /\ is_pattern u = is_pattern t /\
    forall i c o d, in_range t i c o d -> stores (cel u i c o d) (amount t i c o d).
Proof.
  intros V S. destruct (json_round_trip t o0 a0 h m V) as (j & u & Ej & Eu & R). exists j, u. split; auto. split; auto.
  pose proof (sv_wf _ _ _ _ _ V) as W. pose proof (rb_wf _ _ R) as Wu. destruct (rb_index _ _ R) as (P & Su). pose proof (sv_names _ _ _ _ _ V) as (Nk & _).
  assert (K : kdims u = kdims t).
  { apply key_sorted_ext; [apply key_sorted_strict; auto; apply (Permutation_NoDup (Permutation_sym P)); auto|apply key_sorted_strict; auto|].
    intros x. split; apply Permutation_in; auto using Permutation_sym. }
  destruct R. split; [constructor; auto; rewrite ?(wf_k _ Wu), ?(wf_v _ Wu), ?(wf_o _ Wu), ?(wf_d _ Wu), ?(wf_k _ W), ?(wf_v _ W), ?(wf_o _ W), ?(wf_d _ W); congruence|].
  split; auto. split; auto. intros i c o d Ri. apply rb_cell; auto; [|congruence]. rewrite (wf_k _ Wu), K, <- (wf_k _ W). apply Ri.
Qed.
