(** Cape Cod. *)
From Coq Require Import Lia Permutation.
From Verif Require Export P_Benk.
Local Open Scope Z_scope.

Lemma bmap2_ex f a b m0 m1 m2 m3 : bok a b -> Nat.max (ax0 a) (ax0 b) = m0 -> Nat.max (ax1 a) (ax1 b) = m1 ->
  Nat.max (ax2 a) (ax2 b) = m2 -> Nat.max (ax3 a) (ax3 b) = m3 ->
  exists r, bmap2 f a b = Ok r /\ ax0 r = m0 /\ ax1 r = m1 /\ ax2 r = m2 /\ ax3 r = m3 /\
    forall i c o d, av r i c o d = f (bav a i c o d) (bav b i c o d).
Proof. intros B <- <- <- <-. eexists. rewrite bmap2_bc by auto. repeat split. Qed.

Section CapeCod.
Variables (t l s : tri) (decay : Qc) (tr : nat -> Qc) (lat : nat -> nat).
Hypothesis MI : method_input t.
Hypothesis PF : pattern_for t l.
Hypothesis EF : exposure_for t s.
Hypothesis LA : latest_ages t lat.

Let W : wf t := mi_wf _ MI.
Notation n0 := (ax0 (values t)). Notation n1 := (ax1 (values t)). Notation n2 := (ax2 (values t)).

Lemma exp_axes : ax0 (values s) = n0 /\ (ax1 (values s) = n1 \/ ax1 (values s) = 1%nat) /\ ax2 (values s) = n2 /\ ax3 (values s) = 1%nat.
Proof.
  pose proof (wf_k _ W). pose proof (wf_v _ W). pose proof (wf_o _ W).
  split; [rewrite (ef_0 _ _ EF), (ef_k _ _ EF); auto|]. split.
  - rewrite (ef_1 _ _ EF), (wf_v _ W). destruct (ef_v _ _ EF) as [-> | ->]; auto.
  - split; [rewrite (ef_2 _ _ EF), (ef_o _ _ EF); auto|apply (ef_3 _ _ EF)].
Qed.
Lemma bav_exposure i c o : (i < n0)%nat -> (c < n1)%nat -> (o < n2)%nat -> nz (bav (values s) i c o 0) = exposure s i c o.
Proof.
  intros Hi Hc Ho. destruct exp_axes as (X0 & X1 & X2 & X3). unfold bav, exposure, amount. rewrite X3, bidx_1, (bidx_lt (ax0 (values s))), (bidx_lt (ax2 (values s))) by lia.
  destruct (Nat.eqb_spec (ax1 (values s)) 1) as [E|E]; [rewrite E, bidx_1|rewrite bidx_lt by lia]; reflexivity.
Qed.

(** Frame of a vector derived from the exposure and the triangle. *)
Record cc_frame (u : tri) : Prop := {
  cf_k : kdims u = kdims t; cf_kl : key_labels u = key_labels t;
  cf_v : vdims u = vdims t \/ List.length (vdims u) = 1%nat; cf_o : odims u = odims t; cf_d : ddims u = Vals [ULT_VAL];
  cf_vd : vdate u = ULT_VAL; cf_cum : is_cumulative u = Some true; cf_pat : is_pattern u = false; cf_og : ograin u = ograin t;
  cf_0 : ax0 (values u) = n0; cf_1 : ax1 (values u) = n1; cf_2 : ax2 (values u) = n2; cf_3 : ax3 (values u) = 1%nat;
  cf_v1 : List.length (vdims u) = n1 }.

Lemma aprioris_ok : exists ap det, capecod_aprioris decay tr t l s = Ok (ap, det) /\ cc_frame ap /\ cc_frame det /\
  forall i c r, (i < n0)%nat -> (c < n1)%nat -> (r < n2)%nat ->
    cel ap i c r 0 = cdiv (Some (cc_num t l s decay tr lat i c r)) (Some (cc_den t l s decay lat i c r)) /\
    cel det i c r 0 = cdiv (cel ap i c r 0) (Some (tr r)).
Proof.
  unfold capecod_aprioris.
  destruct (latest_diagonal_ok2 t W (mi_diag _ MI)) as (ld & Eld & Lk & Lkl & Lv & Lo & Lvd & L0 & L1 & L2 & L3 & Lc & (Lf1 & Lf2 & Lf3 & Lf4) & Ll).
  rewrite Eld. cbn [rbind].
  destruct (align_cdf_ok t l MI PF (Some s)) as (f & Ef & Fk & Fkl & Fv & Fo & Fvd & F0 & F1 & F2 & F3 & Fl & (Ff1 & Ff2 & Ff3 & Ff4) & Fc).
  { intros s' [= <-]. exact EF. }
  rewrite Ef. cbn [rbind].
  pose proof (wf_k _ W) as T0. pose proof (wf_v _ W) as T1. pose proof (wf_o _ W) as T2. pose proof (wf_d _ W) as T3.
  pose proof (wf_o1 _ W) as O1. pose proof (wf_d1 _ W) as D1. pose proof (mi_0 _ MI) as M0. pose proof (mi_1 _ MI) as M1.
  destruct exp_axes as (X0 & X1 & X2 & X3).
  assert (Sf : shape_ok f) by (unfold shape_ok; rewrite Fk, Fv, Fo, Fl; lia).
  assert (Ss : shape_ok s) by (apply (exposure_shape t MI); auto).
  destruct (tri_op_bcast ODiv s f) as (re & Ere & R).
  { constructor; auto.
    - rewrite Ff3, (ef_og _ _ EF); auto.
    - rewrite Fkl, (ef_kl _ _ EF); auto.
    - left. rewrite Fk, (ef_k _ _ EF); auto.
    - destruct (ef_v _ _ EF) as [E|E]; [left; congruence|right; right; auto].
    - left. rewrite Fo, (ef_o _ _ EF); auto.
    - right. left. exact Fl. }
  rewrite Ere. cbn [rbind].
  pose proof (br_0 _ _ _ _ R) as B0. pose proof (br_1 _ _ _ _ R) as B1. pose proof (br_2 _ _ _ _ R) as B2. pose proof (br_3 _ _ _ _ R) as B3.
  assert (A0 : ax0 (values re) = n0) by lia. assert (A1 : ax1 (values re) = n1) by lia. assert (A2 : ax2 (values re) = n2) by lia. assert (A3 : ax3 (values re) = 1%nat) by lia.
  clear B0 B1 B2 B3.
  assert (CR : forall i c o, (i < n0)%nat -> (c < n1)%nat -> (o < n2)%nat ->
    nz (cel re i c o 0) = if exposed t s lat i c o then used_up l s lat i c o else 0%Qc).
  { intros i c o Hi Hc Ho. rewrite (br_cell _ _ _ _ R). cbn [cop]. destruct (LA o Ho) as [LD LM].
    assert (RR : in_range t i c o (lat o)) by (unfold in_range; auto).
    rewrite (bav_in (values f)) by lia. change (av (values f)) with (cel f). specialize (Fc i c o _ RR LM). unfold basis in Fc.
    unfold exposed, used_up. pose proof (bav_exposure i c o Hi Hc Ho) as BE.
    destruct (Qc_eqb_spec (amount t i c o (lat o) + exposure s i c o)%Qc 0%Qc) as [E|E].
    - rewrite (proj1 Fc eq_refl). rewrite andb_false_r. destruct (bav (values s) i c o 0); reflexivity.
    - pose proof (to_ultimate_ne l i c (lat o)) as NF. rewrite (proj2 Fc NF). cbn [negb andb]. rewrite andb_true_r.
      rewrite <- BE. destruct (bav (values s) i c o 0) as [x|]; cbn [nz].
      + rewrite cdiv_Some by auto. cbn [nz]. destruct (Qc_eqb_spec x 0%Qc) as [-> |]; cbn [negb]; [field; auto|reflexivity].
      + rewrite Qc_eqb_refl. reflexivity. }
  clear Fc.
  cbv zeta. unfold div_arr.
  destruct (bmap2_ex cmul (swap23 (values re)) (decay_matrix decay (ax2 (values s))) n0 n1 n2 n2) as (we & Ewe & G0 & G1 & G2 & G3 & Cwe);
    [unfold bok; cbn [swap23 decay_matrix ax0 ax1 ax2 ax3]; lia ..|]. rewrite Ewe. cbn [rbind].
  destruct (bmap2_ex cmul (values ld) (trend_arr tr (ax2 (values t))) n0 n1 n2 1%nat) as (x & Ex & H0 & H1 & H2 & H3 & Cx);
    [unfold bok; cbn [trend_arr ax0 ax1 ax2 ax3]; lia ..|]. rewrite Ex. cbn [rbind].
  destruct (bmap2_ex cdiv x (values re) n0 n1 n2 1%nat) as (tu & Etu & I0 & I1 & I2 & I3 & Ctu); [unfold bok; lia ..|]. rewrite Etu. cbn [rbind].
  destruct (bmap2_ex cmul we (swap23 tu) n0 n1 n2 n2) as (p & Ep & J0 & J1 & J2 & J3 & Cp); [unfold bok; cbn [swap23 ax0 ax1 ax2 ax3]; lia ..|]. rewrite Ep. cbn [rbind].
  destruct (bmap2_ex cdiv (nansum3 p) (nansum3 we) n0 n1 n2 1%nat) as (apa & Eap & P0 & P1 & P2 & P3 & Cap); [unfold bok; cbn [nansum3 ax0 ax1 ax2 ax3]; lia ..|]. rewrite Eap. cbn [rbind].
  assert (CA : forall i c r, (i < n0)%nat -> (c < n1)%nat -> (r < n2)%nat ->
    av apa i c r 0 = cdiv (Some (cc_num t l s decay tr lat i c r)) (Some (cc_den t l s decay lat i c r))).
  { intros i c r Hi Hc Hr. rewrite Cap. rewrite !bav_in by (cbn [nansum3 ax0 ax1 ax2 ax3]; lia).
    cbn [nansum3 av ax0 ax1 ax2 ax3]. rewrite J3, G3.
    assert (WE : forall o, (o < n2)%nat -> nz (av we i c r o) =
       if exposed t s lat i c o then (Qcpow decay (gap r o) * used_up l s lat i c o)%Qc else 0%Qc).
    { intros o Ho. rewrite Cwe. unfold bav at 1. cbn [swap23 ax0 ax1 ax2 ax3 av]. rewrite A3, bidx_1, !bidx_lt by lia. change (av (values re)) with (cel re).
      unfold bav. cbn [decay_matrix ax0 ax1 ax2 ax3 av]. rewrite ?bidx_1, !bidx_lt by lia. fold (gap r o).
      specialize (CR i c o Hi Hc Ho). destruct (cel re i c o 0) as [z|]; cbn [cmul nz] in *.
      - rewrite CR. destruct (exposed t s lat i c o); ring.
      - destruct (exposed t s lat i c o); [rewrite <- CR|]; ring. }
    f_equal; f_equal; unfold cc_num, cc_den, sum_over; apply sumn_ext; intros o Ho; [|apply WE; auto].
    rewrite Cp, (bav_in we) by lia. unfold bav. cbn [swap23 av ax0 ax1 ax2 ax3]. rewrite I3, bidx_1, !bidx_lt by lia.
    rewrite Ctu, !bav_in by lia. rewrite Cx, (bav_in (values ld)) by lia.
    unfold bav. cbn [trend_arr ax0 ax1 ax2 ax3 av]. rewrite ?bidx_1, !bidx_lt by lia.
    change (av (values re)) with (cel re). change (av (values ld)) with (cel ld).
    specialize (WE o Ho). specialize (CR i c o Hi Hc Ho). set (w := av we i c r o) in *.
    destruct (LA o Ho) as [LD LM]. assert (RR : in_range t i c o (lat o)) by (unfold in_range; auto). specialize (Lc i c o _ RR LM).
    unfold trended_ratio. destruct (exposed t s lat i c o) eqn:Xe.
    - assert (NU : used_up l s lat i c o <> 0%Qc).
      { unfold used_up. unfold exposed in Xe. apply andb_true_iff in Xe. destruct Xe as [Xe _]. apply negb_true_iff in Xe. destruct (Qc_eqb_spec (exposure s i c o) 0%Qc) as [|NE]; [discriminate|].
        intros Z. apply NE. pose proof (to_ultimate_ne l i c (lat o)) as NF.
        assert (E : (exposure s i c o = exposure s i c o / to_ultimate l i c (lat o) * to_ultimate l i c (lat o))%Qc) by (field; auto). rewrite E, Z. ring. }
      destruct (cel re i c o 0) as [z|] eqn:Er; cbn [nz] in CR; [|congruence]. rewrite <- CR in NU, WE |- *.
      destruct (Qc_eqb_spec (amount t i c o (lat o)) 0%Qc) as [Z|Z].
      + rewrite (proj1 Lc Z), Z. cbn [cmul cdiv]. destruct w; cbn [cmul nz]; field; auto.
      + rewrite (proj2 Lc Z). cbn [cmul]. rewrite cdiv_Some by auto.
        destruct w as [w|]; cbn [cmul nz] in *; [rewrite WE; reflexivity|]. rewrite <- WE. ring.
    - destruct (cel re i c o 0) as [z|] eqn:Er; cbn [nz] in CR.
      + rewrite CR. unfold cdiv. destruct (cmul (cel ld i c o 0) (Some (tr o))); rewrite ?Qc_eqb_refl; destruct w; reflexivity.
      + destruct (cmul (cel ld i c o 0) (Some (tr o))); destruct w; reflexivity. }
  assert (Rk : kdims re = kdims t).
  { rewrite (br_k _ _ _ _ R). unfold bframe. cbn [kdims]. rewrite Fk, (ef_k _ _ EF), pk_refl. reflexivity. }
  assert (Ro : odims re = odims t).
  { rewrite (br_o _ _ _ _ R). unfold bframe. cbn [odims]. rewrite Fo, (ef_o _ _ EF), pk_refl. reflexivity. }
  assert (Rv : (vdims re = vdims t \/ List.length (vdims re) = 1%nat) /\ List.length (vdims re) = n1).
  { rewrite (br_v _ _ _ _ R). unfold bframe. cbn [vdims]. rewrite Fv. destruct (ef_v _ _ EF) as [E|E].
    - rewrite E, pk_refl. auto.
    - unfold pk. rewrite E. cbn [Nat.eqb andb]. destruct (Nat.ltb_spec 1 (List.length (vdims t))); [auto|]. rewrite E. split; [auto|lia]. }
  destruct Rv as [Rv Rv1].
  assert (Rkl : key_labels re = key_labels t) by (rewrite (br_kl _ _ _ _ R); apply EF).
  assert (Rp : is_pattern re = false) by (rewrite (br_pat _ _ _ _ R), (ef_pat _ _ EF); reflexivity).
  assert (Rog : ograin re = ograin t) by (rewrite (br_og _ _ _ _ R); apply EF).
  destruct (bmap2_ex cdiv apa (trend_arr tr (ax2 (values t))) n0 n1 n2 1%nat) as (da & Eda & K0 & K1 & K2 & K3 & Cda); [unfold bok; cbn [trend_arr ax0 ax1 ax2 ax3]; lia ..|].
  change (values (set_values re apa)) with apa. rewrite Eda. cbn [rbind].
  eexists; eexists; split; [reflexivity|].
  assert (FR : forall v, ax0 v = n0 -> ax1 v = n1 -> ax2 v = n2 -> ax3 v = 1%nat -> cc_frame (set_ult_attr (set_values (set_values re apa) v))).
  { intros v V0 V1 V2 V3. constructor; cbn [set_ult_attr set_vdate set_cumulative set_ddims set_dims set_values kdims key_labels vdims odims ddims vdate values is_cumulative is_pattern ograin dgrain]; auto. }
  split; [|split].
  - apply (FR apa); auto.
  - apply FR; cbn [trend_arr set_values values ax0 ax1 ax2 ax3]; lia.
  - intros i c r Hi Hc Hr. split.
    + apply CA; auto.
    + unfold cel. cbn [set_ult_attr set_vdate set_cumulative set_ddims set_dims set_values values av]. rewrite Cda, bav_in by lia.
      unfold bav. cbn [trend_arr ax0 ax1 ax2 ax3 av]. rewrite ?bidx_1, bidx_lt by lia. reflexivity.
Qed.

(** The expectation: exposure times the detrended a-priori. *)
Lemma cc_expectation ap det : capecod_aprioris decay tr t l s = Ok (ap, det) -> cc_frame det ->
  exists e, tri_op OMul s det = Ok e /\ exposure_for t e /\ forall i c o, (i < n0)%nat -> (c < n1)%nat -> (o < n2)%nat ->
    exposure e i c o = (exposure s i c o * amount det i c o 0)%Qc.
Proof.
  intros Ea CF.
  pose proof (wf_k _ W) as T0. pose proof (wf_v _ W) as T1. pose proof (wf_o _ W) as T2.
  pose proof (wf_o1 _ W) as O1. pose proof (mi_0 _ MI) as M0. pose proof (mi_1 _ MI) as M1.
  destruct exp_axes as (X0 & X1 & X2 & X3).
  assert (Ss : shape_ok s) by (apply (exposure_shape t MI); auto).
  pose proof (cf_0 _ CF) as C0. pose proof (cf_1 _ CF) as C1. pose proof (cf_2 _ CF) as C2. pose proof (cf_3 _ CF) as C3. pose proof (cf_v1 _ CF) as V1.
  assert (Sd : shape_ok det).
  { unfold shape_ok. rewrite (cf_k _ CF), (cf_o _ CF), (cf_d _ CF), V1, C0, C1, C2, C3. cbn [dlist List.length]. lia. }
  assert (BC : bcast s det).
  { constructor; auto.
    - rewrite (cf_og _ CF), (ef_og _ _ EF); auto.
    - rewrite (cf_kl _ CF), (ef_kl _ _ EF); auto.
    - left. rewrite (cf_k _ CF), (ef_k _ _ EF); auto.
    - destruct (ef_v _ _ EF) as [E|E]; [|right; right; auto]. destruct (cf_v _ CF) as [E2|E2]; [left; congruence|right; left; auto].
    - left. rewrite (cf_o _ CF), (ef_o _ _ EF); auto.
    - right. left. rewrite (cf_d _ CF). reflexivity. }
  destruct (tri_op_bcast OMul s det BC) as (e & Ee & R).
  pose proof (br_0 _ _ _ _ R) as B0. pose proof (br_1 _ _ _ _ R) as B1. pose proof (br_2 _ _ _ _ R) as B2. pose proof (br_3 _ _ _ _ R) as B3.
  assert (Rv : (vdims e = vdims t \/ List.length (vdims e) = 1%nat) /\ List.length (vdims e) = n1).
  { rewrite (br_v _ _ _ _ R). unfold bframe. cbn [vdims]. rewrite V1. unfold pk. rewrite <- (ef_1 _ _ EF).
    destruct (Nat.eqb_spec (ax1 (values s)) 1) as [E1|E1]; cbn [andb].
    - destruct (Nat.ltb_spec 1 n1); [split; [apply CF|auto]|]. rewrite <- (ef_1 _ _ EF). split; lia.
    - split; [apply EF|]. rewrite <- (ef_1 _ _ EF). lia. }
  assert (Re : exposure_for t e).
  { pose proof (bres_shape _ _ _ _ BC R) as (S0 & S1 & S2 & S3 & _).
    constructor; auto; try lia.
    - rewrite (br_k _ _ _ _ R). unfold bframe. cbn [kdims]. rewrite (cf_k _ CF), (ef_k _ _ EF), pk_refl. reflexivity.
    - rewrite (br_kl _ _ _ _ R). apply EF.
    - apply Rv.
    - rewrite (br_o _ _ _ _ R). unfold bframe. cbn [odims]. rewrite (cf_o _ CF), (ef_o _ _ EF), pk_refl. reflexivity.
    - rewrite (br_og _ _ _ _ R). apply EF.
    - rewrite (br_pat _ _ _ _ R), (ef_pat _ _ EF). reflexivity. }
  exists e. split; [exact Ee|]. split; [exact Re|].
  intros i c o Hi Hc Ho. unfold exposure at 1. assert (E1 : ax1 (values e) = n1) by lia.
  assert (EI : (if (ax1 (values e) =? 1)%nat then 0%nat else c) = c) by (destruct (Nat.eqb_spec (ax1 (values e)) 1); lia). rewrite EI.
  unfold amount at 1. rewrite (br_cell _ _ _ _ R). cbn [cop]. rewrite (bav_in (values det)) by lia. change (av (values det)) with (cel det).
  rewrite <- (bav_exposure i c o Hi Hc Ho). unfold amount. destruct (bav (values s) i c o 0), (cel det i c o 0%nat); cbn [cmul nz]; ring.
Qed.
End CapeCod.

Lemma used_up_ne t l s lat i c o : exposed t s lat i c o = true -> used_up l s lat i c o <> 0%Qc.
Proof.
  unfold exposed, used_up. rewrite andb_true_iff, negb_true_iff. intros [X _] Z. destruct (Qc_eqb_spec (exposure s i c o) 0%Qc) as [|NE]; [discriminate|].
  apply NE. pose proof (to_ultimate_ne l i c (lat o)) as NF.
  assert (E : (exposure s i c o = exposure s i c o / to_ultimate l i c (lat o) * to_ultimate l i c (lat o))%Qc) by (field; auto). rewrite E, Z. ring.
Qed.

(** The a-prioris. *)
Theorem capecod_aprioris_ok t l s decay tr lat : method_input t -> pattern_for t l -> exposure_for t s -> latest_ages t lat ->
  exists ap det, capecod_aprioris decay tr t l s = Ok (ap, det) /\
    forall i c r, (i < ax0 (values t))%nat -> (c < ax1 (values t))%nat -> (r < ax2 (values t))%nat ->
      let den := cc_den t l s decay lat i c r in let avg := (cc_num t l s decay tr lat i c r / den)%Qc in
      (den = 0 -> cel ap i c r 0%nat = None /\ cel det i c r 0%nat = None)%Qc /\
      (den <> 0 -> cel ap i c r 0%nat = Some avg /\ (tr r <> 0 -> cel det i c r 0%nat = Some (avg / tr r)))%Qc.
Proof.
  intros MI PF EF LA. destruct (aprioris_ok t l s decay tr lat MI PF EF LA) as (ap & det & E & _ & _ & C). exists ap, det. split; [exact E|].
  intros i c r Hi Hc Hr den avg. destruct (C i c r Hi Hc Hr) as [Ca Cd]. fold den in Ca. split; intros D.
  - rewrite Cd, Ca, D. unfold cdiv. rewrite Qc_eqb_refl. auto.
  - rewrite Ca in *. rewrite cdiv_Some in Cd |- * by auto. split; [reflexivity|]. intros T. rewrite Cd, cdiv_Some by auto. reflexivity.
Qed.

(** Ultimates: the Benktander iteration started at exposure times the detrended
    a-priori. *)
Theorem capecod_ultimates t l s decay tr lat : method_input t -> pattern_for t l -> exposure_for t s -> latest_ages t lat ->
  exists rows ap det, Permutation rows (seq 0 (ax0 (values t))) /\ capecod_aprioris decay tr t l s = Ok (ap, det) /\
  forall n, exists u, capecod n decay tr t l s = Ok u /\ ultimate_frame (with_row_labels t rows) u /\
    forall j c o, (j < ax0 (values t))%nat -> (c < ax1 (values t))%nat -> (o < ax2 (values t))%nat ->
      let i := nth j rows 0%nat in let d := lat o in
      let latest := amount t i c o d in let e := (exposure s i c o * amount det i c o 0)%Qc in
      let q := unreported_share l i c d in let cl := cl_amount t l i c o d in
      (latest + e = 0 -> cel u j c o 0%nat = None)%Qc /\
      (latest + e <> 0 -> stores (cel u j c o 0%nat) (cl + Qcpow q n * (e - cl)) /\ amount u j c o 0 = iterate n (bf_step latest q) e)%Qc.
Proof.
  intros MI PF EF LA. destruct (aprioris_ok t l s decay tr lat MI PF EF LA) as (ap & det & E & _ & CF & _).
  destruct (cc_expectation t l s decay tr MI EF ap det E CF) as (e & Ee & XF & XC).
  destruct (benktander_iterations t l e 1%Qc MI PF XF) as (rows & Pr & B). exists rows, ap, det. split; [exact Pr|]. split; [exact E|].
  intros n. destruct (B n) as (u & Eu & UF & UC). exists u. split; [unfold capecod; rewrite E; cbn [rbind snd]; rewrite Ee; exact Eu|]. split; [exact UF|].
  intros j c o Hj Hc Ho i d latest x q cl. destruct (LA o Ho) as [LD LM].
  assert (Hi : (i < ax0 (values t))%nat).
  { assert (In i (seq 0 (ax0 (values t)))) as I; [|apply in_seq in I; lia]. eapply Permutation_in; [exact Pr|]. apply nth_In. rewrite (Permutation_length Pr), seq_length. lia. }
  specialize (UC j c o (lat o) ltac:(unfold in_range; auto) LM). cbv zeta in UC. fold i in UC. rewrite (XC i c o Hi Hc Ho), Qcmult_1_l in UC. exact UC.
Qed.

Lemma Qcpow_1 n : Qcpow 1 n = 1%Qc.
Proof. induction n; cbn [Qcpow]; [reflexivity|]. rewrite IHn. ring. Qed.
Lemma Qcpow_0 n : Qcpow 0 (S n) = 0%Qc.
Proof. cbn [Qcpow]. ring. Qed.

Section Laws.
Variables (t l s : tri) (decay : Qc) (tr : nat -> Qc) (lat : nat -> nat) (i c : nat).
Notation ok := (exposed t s lat i c). Notation w := (used_up l s lat i c).

(** The a-priori is an average: between the least and the greatest trended loss
    ratio of the origins used. *)
Lemma cc_between r lo hi : (0 <= decay)%Qc -> (forall o, (o < ax2 (values t))%nat -> ok o = true -> 0 <= w o)%Qc ->
  (forall o, (o < ax2 (values t))%nat -> ok o = true -> lo <= trended_ratio t l s tr lat i c o <= hi)%Qc ->
  cc_den t l s decay lat i c r <> 0%Qc ->
  (lo <= cc_num t l s decay tr lat i c r / cc_den t l s decay lat i c r <= hi)%Qc.
Proof.
  intros HD HW HB HN.
  assert (ND : (0 <= cc_den t l s decay lat i c r)%Qc).
  { unfold cc_den, sum_over. apply sumn_nonneg. intros o Ho. destruct (ok o) eqn:E; [|apply Qcle_refl].
    pose proof (Qcpow_nonneg decay (gap r o) HD). specialize (HW o Ho E). qnra. }
  assert (PD : (0 < cc_den t l s decay lat i c r)%Qc) by (apply Qcle_lt_or_eq in ND; destruct ND as [|E]; [assumption|congruence]).
  assert (B : forall x : Qc, (cc_den t l s decay lat i c r * x)%Qc = sum_over (ax2 (values t)) ok (fun o => Qcpow decay (gap r o) * w o * x)%Qc).
  { intros x. unfold cc_den. rewrite Qcmult_comm, <- sum_over_scal. apply sum_over_ext. intros. ring. }
  assert (L : (cc_den t l s decay lat i c r * lo <= cc_num t l s decay tr lat i c r)%Qc).
  { rewrite B. apply sum_over_le. intros o Ho E. pose proof (Qcpow_nonneg decay (gap r o) HD) as P. specialize (HW o Ho E). destruct (HB o Ho E) as [X _].
    rewrite (Qcmult_comm _ lo), (Qcmult_comm _ (trended_ratio _ _ _ _ _ _ _ _)). apply Qcmult_le_compat_r; [exact X|]. qnra. }
  assert (U : (cc_num t l s decay tr lat i c r <= cc_den t l s decay lat i c r * hi)%Qc).
  { rewrite B. apply sum_over_le. intros o Ho E. pose proof (Qcpow_nonneg decay (gap r o) HD) as P. specialize (HW o Ho E). destruct (HB o Ho E) as [_ X].
    rewrite (Qcmult_comm _ hi), (Qcmult_comm _ (trended_ratio _ _ _ _ _ _ _ _)). apply Qcmult_le_compat_r; [exact X|]. qnra. }
  set (den := cc_den _ _ _ _ _ _ _ _) in *. set (num := cc_num _ _ _ _ _ _ _ _ _) in *.
  assert (E : (num = den * (num / den))%Qc) by (field; auto). set (a := (num / den)%Qc) in *. clearbody a. rewrite E in L, U.
  split; apply Qcnot_lt_le; intros X.
  - apply (Qclt_not_le _ _ (Qcmult_lt_compat_r _ _ _ PD X)). rewrite !(Qcmult_comm _ den). exact L.
  - apply (Qclt_not_le _ _ (Qcmult_lt_compat_r _ _ _ PD X)). rewrite !(Qcmult_comm _ den). exact U.
Qed.

(** decay = 1: one common ratio, total trended loss over total used-up exposure. *)
Lemma cc_decay_one r : decay = 1%Qc ->
  cc_num t l s decay tr lat i c r = sum_over (ax2 (values t)) ok (fun o => amount t i c o (lat o) * tr o)%Qc /\
  cc_den t l s decay lat i c r = sum_over (ax2 (values t)) ok w.
Proof.
  intros ->. unfold cc_num, cc_den. split; apply sum_over_ext; intros o Ho E; rewrite Qcpow_1.
  - unfold trended_ratio. pose proof (used_up_ne t l s lat i c o E). field. auto.
  - ring.
Qed.
(** decay = 0: the origin's own ratio. *)
Lemma cc_decay_zero r : decay = 0%Qc -> (r < ax2 (values t))%nat -> ok r = true ->
  cc_num t l s decay tr lat i c r = (amount t i c r (lat r) * tr r)%Qc /\ cc_den t l s decay lat i c r = w r.
Proof.
  intros -> Hr E.
  assert (Z : forall o, o <> r -> Qcpow 0 (gap r o) = 0%Qc).
  { intros o N. unfold gap. destruct (Nat.ltb_spec r o); [replace (o - r)%nat with (S (o - r - 1)) by lia|replace (r - o)%nat with (S (r - o - 1)) by lia]; apply Qcpow_0. }
  unfold cc_num, cc_den, sum_over. split; rewrite (sumn_single _ r) by
    (try exact Hr; intros o Ho N; destruct (ok o); try reflexivity; rewrite (Z o N); ring).
  - rewrite E. unfold gap. rewrite Nat.ltb_irrefl, Nat.sub_diag. cbn [Qcpow]. unfold trended_ratio. pose proof (used_up_ne t l s lat i c r E). field. auto.
  - rewrite E. unfold gap. rewrite Nat.ltb_irrefl, Nat.sub_diag. cbn [Qcpow]. ring.
Qed.
End Laws.

Theorem capecod_between t l s decay tr lat : method_input t -> pattern_for t l -> exposure_for t s -> latest_ages t lat -> (0 <= decay)%Qc ->
  exists ap det, capecod_aprioris decay tr t l s = Ok (ap, det) /\
    forall i c r lo hi, (i < ax0 (values t))%nat -> (c < ax1 (values t))%nat -> (r < ax2 (values t))%nat ->
      (forall o, (o < ax2 (values t))%nat -> exposed t s lat i c o = true ->
         0 < used_up l s lat i c o /\ lo <= trended_ratio t l s tr lat i c o <= hi)%Qc ->
      (exists o, (o < ax2 (values t))%nat /\ exposed t s lat i c o = true) -> (decay <> 0%Qc \/ exposed t s lat i c r = true) ->
      exists a, cel ap i c r 0%nat = Some a /\ (lo <= a <= hi)%Qc.
Proof.
  intros MI PF EF LA HD. destruct (capecod_aprioris_ok t l s decay tr lat MI PF EF LA) as (ap & det & E & C). exists ap, det. split; [exact E|].
  intros i c r lo hi Hi Hc Hr HB HE HZ. destruct (C i c r Hi Hc Hr) as [_ C1].
  assert (D : cc_den t l s decay lat i c r <> 0%Qc).
  { destruct (Qc_eqb_spec decay 0%Qc) as [Z|Z].
    - destruct HZ as [HZ|HZ]; [contradiction|]. destruct (cc_decay_zero t l s decay tr lat i c r Z Hr HZ) as [_ ->]. exact (used_up_ne t l s lat i c r HZ).
    - apply not_eq_sym. apply Qclt_not_eq. apply sum_over_pos; auto. intros o Ho Eo. destruct (HB o Ho Eo) as [P _].
      assert (PP : forall n, (0 < Qcpow decay n)%Qc).
      { assert (0 < decay)%Qc by (apply Qcle_lt_or_eq in HD; destruct HD; [assumption|congruence]).
        induction n; cbn [Qcpow]; [reflexivity|]. rewrite <- (Qcmult_0_l (Qcpow decay n)). apply Qcmult_lt_compat_r; auto. }
      rewrite <- (Qcmult_0_l (used_up l s lat i c o)). apply Qcmult_lt_compat_r; auto. }
  destruct (C1 D) as [Ca _]. eexists. split; [exact Ca|]. apply cc_between; auto; intros o Ho Eo; destruct (HB o Ho Eo) as [P B]; auto using Qclt_le_weak.
Qed.

Theorem capecod_decay_one t l s tr lat : method_input t -> pattern_for t l -> exposure_for t s -> latest_ages t lat ->
  exists ap det, capecod_aprioris 1 tr t l s = Ok (ap, det) /\
    forall i c r, (i < ax0 (values t))%nat -> (c < ax1 (values t))%nat -> (r < ax2 (values t))%nat ->
      let losses := sum_over (ax2 (values t)) (exposed t s lat i c) (fun o => amount t i c o (lat o) * tr o)%Qc in
      let used := sum_over (ax2 (values t)) (exposed t s lat i c) (used_up l s lat i c) in
      used <> 0%Qc -> cel ap i c r 0%nat = Some (losses / used)%Qc.
Proof.
  intros MI PF EF LA. destruct (capecod_aprioris_ok t l s 1%Qc tr lat MI PF EF LA) as (ap & det & E & C). exists ap, det. split; [exact E|].
  intros i c r Hi Hc Hr losses used HU. destruct (C i c r Hi Hc Hr) as [_ C1]. destruct (cc_decay_one t l s 1%Qc tr lat i c r eq_refl) as [Nn Nd].
  rewrite Nn, Nd in C1. apply C1. exact HU.
Qed.

Theorem capecod_decay_zero t l s tr lat : method_input t -> pattern_for t l -> exposure_for t s -> latest_ages t lat ->
  exists rows ap det, Permutation rows (seq 0 (ax0 (values t))) /\ capecod_aprioris 0 tr t l s = Ok (ap, det) /\
  (forall i c r, (i < ax0 (values t))%nat -> (c < ax1 (values t))%nat -> (r < ax2 (values t))%nat -> exposed t s lat i c r = true ->
     cel ap i c r 0%nat = Some (trended_ratio t l s tr lat i c r)) /\
  forall n, exists u, capecod n 0 tr t l s = Ok u /\ ultimate_frame (with_row_labels t rows) u /\
    forall j c o, (j < ax0 (values t))%nat -> (c < ax1 (values t))%nat -> (o < ax2 (values t))%nat ->
      let i := nth j rows 0%nat in let latest := amount t i c o (lat o) in let cl := cl_amount t l i c o (lat o) in
      exposed t s lat i c o = true -> tr o <> 0%Qc -> (latest + cl <> 0)%Qc -> stores (cel u j c o 0%nat) cl.
Proof.
  intros MI PF EF LA. destruct (capecod_ultimates t l s 0%Qc tr lat MI PF EF LA) as (rows & ap & det & Pr & E & U).
  destruct (capecod_aprioris_ok t l s 0%Qc tr lat MI PF EF LA) as (ap' & det' & E' & C). rewrite E in E'. injection E' as <- <-.
  exists rows, ap, det. split; [exact Pr|]. split; [exact E|].
  assert (A : forall i c r, (i < ax0 (values t))%nat -> (c < ax1 (values t))%nat -> (r < ax2 (values t))%nat -> exposed t s lat i c r = true ->
     cel ap i c r 0%nat = Some (trended_ratio t l s tr lat i c r) /\ (tr r <> 0%Qc -> cel det i c r 0%nat = Some (amount t i c r (lat r) / used_up l s lat i c r)%Qc)).
  { intros i c r Hi Hc Hr X. destruct (C i c r Hi Hc Hr) as [_ C1]. destruct (cc_decay_zero t l s 0%Qc tr lat i c r eq_refl Hr X) as [Nn Nd]. rewrite Nn, Nd in C1.
    pose proof (used_up_ne t l s lat i c r X) as NU. destruct (C1 NU) as [Ca Cd]. split; [exact Ca|]. intros T. rewrite (Cd T). f_equal. field. auto. }
  split; [intros; apply A; auto|].
  intros n. destruct (U n) as (u & Eu & UF & UC). exists u. split; [exact Eu|]. split; [exact UF|].
  intros j c o Hj Hc Ho i latest cl X T NZ. destruct (UC j c o Hj Hc Ho) as [_ U1]. fold i in U1.
  assert (Hi : (i < ax0 (values t))%nat).
  { assert (In i (seq 0 (ax0 (values t)))) as I; [|apply in_seq in I; lia]. eapply Permutation_in; [exact Pr|]. apply nth_In. rewrite (Permutation_length Pr), seq_length. lia. }
  assert (EX : (exposure s i c o * amount det i c o 0)%Qc = cl).
  { unfold amount at 1. rewrite (proj2 (A i c o Hi Hc Ho X) T). cbn [nz]. unfold used_up. pose proof (used_up_ne t l s lat i c o X) as NU. unfold used_up in NU. unfold cl, cl_amount.
    pose proof (to_ultimate_ne l i c (lat o)) as NF. field. split; [exact NF|]. intros Z. apply NU. rewrite Z. field. exact NF. }
  rewrite EX in U1. fold latest cl in U1. destruct (U1 NZ) as [S _]. replace (cl + Qcpow (unreported_share l i c (lat o)) n * (cl - cl))%Qc with cl in S by ring. exact S.
Qed.
