(** Outstanding amounts of all origins at all ages, forward and backward from the latest ones. *)
From Coq Require Import Lia.
From Verif Require Import P_Corr5.
From Verif Require Export P_Out4 P_Filter.
Local Open Scope nat_scope.

(** A range of valuations of all origins. *)
Lemma slice_window u key lo hi : wf u -> 2 <= ax3 (values u) -> lo < hi -> hi <= ax3 (values u) ->
  (forall o d, o < ax2 (values u) -> d < ax3 (values u) -> (key o d = true <-> lo <= d < hi)) ->
  exists s, getitem_valuation u key = Ok s /\ sliced u key s /\ ax2 (values s) = ax2 (values u) /\ ax3 (values s) = hi - lo /\
    forall i c o d, i < ax0 (values u) -> c < ax1 (values u) -> o < ax2 (values u) -> d < hi - lo -> cel s i c o d = n2n (cel u i c o (lo + d)).
Proof.
  intros Wu L3 Lh Hh HK. pose proof (wf_o1 _ Wu) as O1.
  destruct (getitem_valuation_ok u key Wu L3) as (s & E & S).
  - exists 0, lo. split; [lia|]. split; [lia|]. apply HK; lia.
  - apply (evenly_interval _ _ 0 (ax2 (values u))). intros x Hx. split; [lia|]. intros _. exists lo. split; [lia|]. apply HK; lia.
  - apply (evenly_interval _ _ lo hi). intros x Hx. split.
    + intros (o & Ho & Hk). apply HK in Hk; auto.
    + intros. exists 0. split; [lia|]. apply HK; lia.
  - assert (Er : kept_rows u key = seq 0 (ax2 (values u))).
    { apply sorted_lt_ext; [apply incr_pos_filter|apply (incr_pos_seq 0 _ (ax2 (values u))); lia|].
      intros x. rewrite in_kept_rows, in_seq. split; [intros [H _]; lia|]. intros H. split; [lia|]. exists lo. split; [lia|]. apply HK; lia. }
    assert (Ec : kept_cols u key = seq lo (hi - lo)).
    { apply sorted_lt_ext; [apply incr_pos_filter|apply (incr_pos_seq lo _ hi); lia|].
      intros x. rewrite in_kept_cols, in_seq. split; [intros (Hx & o & Ho & Hk); apply HK in Hk; auto; lia|]. intros H. split; [lia|]. exists 0. split; [lia|]. apply HK; lia. }
    exists s. split; auto. split; auto. rewrite (sl_2 _ _ _ S), (sl_3 _ _ _ S), Er, Ec, !seq_length. split; auto. split; auto.
    intros i c o d Hi Hc Ho Hd. rewrite (sl_cell _ _ _ S); auto; rewrite ?Er, ?Ec, ?seq_length; auto.
    rewrite !seq_nth by auto. cbn [Nat.add]. destruct (key o (lo + d)) eqn:Ek; [reflexivity|]. exfalso. assert (key o (lo + d) = true) by (apply HK; lia). congruence.
Qed.

Section Out.
Variables (t : tri) (n h : nat) (o0 a0 : Z).
Hypotheses (W : wf t) (B : blank_future t) (Q : square t n o0 a0 h) (Hn : 3 <= n) (H0 : 1 <= ax0 (values t)).
Local Notation hyp L := (L t n h o0 a0 W B Q Hn H0).
Hypotheses (Gd : grain_months (dgrain t) = Z.of_nat h) (Go : grain_months (ograin t) = Z.of_nat h).
Local Notation M := (last_month n h o0 a0).
Hypotheses (Hu : (M < 12 * 2261)%Z) (Hs : (M < o0 + 9998)%Z).
Variables (cl0 c : tri) (v0 : Z) (F : nat -> nat -> cell) (K : nat -> nat -> nat -> cell).
Hypotheses (Pcl : blk t (orgs h o0 0 1) (Ages (agl h a0 1 (n - 1))) v0 cl0 (fun i _ d => F i d)) (Fcum : is_cumulative cl0 = Some false)
  (HF : forall i d, F i d <> Some 0%Qc) (Pc : part t n true true (vdate t) c K).
Local Notation hyp4 L := (L t n h o0 a0 W B Q Hn H0 Gd Go Hu Hs cl0 c v0 F K Pcl Fcum HF Pc).
Local Notation Lt := (Lt n K).
Local Notation Gr := (Gr n F K).

Lemma Gr_nz i o d : n2n (Gr i o d) = Gr i o d.
Proof using HF. unfold P_Out4.Gr. destruct d as [|e]; [reflexivity|]. destruct (Lt i o); [|reflexivity]. specialize (HF i e). destruct (F i e) as [x|]; [|reflexivity]. cbn. destruct (Qc_eqb_spec x 0%Qc); [congruence|reflexivity]. Qed.

(** The factors by valuation. *)
Definition Vr (i o k : nat) : cell := if (o <=? k) && (k - o <? n) then Gr i o (k - o) else None.
Lemma by_valuation cl : blk t (odims t) (ddims t) M cl Gr -> is_cumulative cl = Some false ->
  exists u, dev_to_val cl = Ok u /\ wf u /\ same_rows cl u /\ val_grid u o0 a0 h 1 /\ ax3 (values u) = 2 * n - 1 /\
    (forall o k, o < n -> k < 2 * n - 1 -> valuation u o k = (o0 + a0 - 1 + Z.of_nat (h * k))%Z) /\
    (forall i o k, i < ax0 (values t) -> o < n -> k < 2 * n - 1 -> cel u i 0 o k = Vr i o k).
Proof using All.
  intros Bl Cc. pose proof (hyp4 n_odims) as No. pose proof (hyp4 n_ddims) as Nd. assert (h1 : 1 <= h) by apply Q.
  assert (L2 : ax2 (values cl) = n) by (rewrite (b_2 _ _ _ _ _ _ Bl); auto). assert (L3 : ax3 (values cl) = n) by (rewrite (b_3 _ _ _ _ _ _ Bl); auto).
  pose proof Bl as Bl'. rewrite (hyp t_orgs), (hyp t_ages) in Bl'.
  assert (VM : (vdate t <= M)%Z) by (rewrite (square_vdate _ _ _ _ _ Q); unfold last_month; nia).
  assert (MU : (M <= ULT_VAL)%Z) by (unfold ULT_VAL; lia).
  assert (Wc : wf cl) by (eapply (hyp grid_wf); eauto; lia).
  assert (Mo : forall o d, o < n -> d < n -> month_of cl o d = (o0 + a0 - 1 + Z.of_nat h * Z.of_nat (o + d))%Z).
  { intros o d Ho Hd. rewrite (hyp P_Out1.grid_month _ _ _ _ _ _ _ _ _ Bl') by lia. reflexivity. }
  assert (G : age_grid cl o0 a0 h 1).
  { unfold age_grid. rewrite (b_o _ _ _ _ _ _ Bl'), (b_d _ _ _ _ _ _ Bl'), L2, L3, (b_dg _ _ _ _ _ _ Bl), (b_og _ _ _ _ _ _ Bl). split; [auto|]. split; [auto|]. split; [reflexivity|]. split; [reflexivity|].
    split; [|split; [auto|rewrite Go; f_equal; lia]]. intros k Hk. destruct Q as ((_ & _ & _ & _ & R9 & _) & _ & E3). apply R9. lia. }
  assert (NF : forall o d, o < n -> d < n -> (month_of cl o d <= M)%Z). { intros. rewrite Mo by auto. unfold last_month. nia. }
  destruct (to_valuation cl o0 a0 h 1) as (u & Eu & (Sr & Ce) & Vg & _ & L & Ed); auto.
  - right. left. lia.
  - intros i x o d (_ & _ & Ho & Hd) Fu. exfalso. unfold future in Fu. rewrite (b_vd _ _ _ _ _ _ Bl), L2, L3 in *. specialize (NF o d Ho Hd). lia.
  - right. exists 0, 0, 1, 0. split; [|split; [lia|]].
    + unfold in_range. rewrite L2, L3, (b_0 _ _ _ _ _ _ Bl), (b_1 _ _ _ _ _ _ Bl). lia.
    + rewrite (b_cell _ _ _ _ _ _ Bl) by (rewrite ?No, ?Nd; lia). discriminate.
  - intros o d Ho Hd. rewrite L2, L3 in *. specialize (NF o d Ho Hd). lia.
  - left. rewrite Cc. discriminate.
  - exists u. pose proof Vg as (_ & _ & Eo & Ev & Gd' & Go').
    assert (U2 : ax2 (values u) = n) by (rewrite (sr_2 _ _ Sr); auto).
    assert (KI : forall v, In v (known_valuations cl) <-> exists k, k < ax3 (values u) /\ v = (o0 + a0 - 1 + Z.of_nat (h * k))%Z).
    { intros v. assert (dlist (ddims u) = known_valuations cl) as <- by (rewrite Ed; reflexivity). rewrite Ev. cbn [dlist]. rewrite in_map_iff. split.
      - intros (k & <- & Hk). apply in_seq in Hk. exists k. split; auto; lia.
      - intros (k & Hk & ->). exists k. split; auto. apply in_seq. lia. }
    assert (U3 : ax3 (values u) = 2 * n - 1).
    { assert (T : In M (known_valuations cl)). { apply known_in; auto. exists (n - 1), (n - 1). rewrite L2, L3, (b_vd _ _ _ _ _ _ Bl). split; [lia|]. split; [lia|]. split; [|lia]. rewrite Mo by lia. unfold last_month. do 3 f_equal. lia. }
      apply KI in T. destruct T as (k & Hk & Ek). unfold last_month in Ek. assert (k = 2 * n - 2) by nia.
      assert (ax3 (values u) - 1 <= 2 * n - 2); [|lia].
      assert (T' : In (o0 + a0 - 1 + Z.of_nat (h * (ax3 (values u) - 1)))%Z (known_valuations cl)) by (apply KI; exists (ax3 (values u) - 1); split; [lia|auto]).
      apply known_in in T'; auto. destruct T' as (o & d & Ho & Hd & E & _). rewrite L2 in Ho. rewrite L3 in Hd. rewrite Mo in E by auto. nia. }
    assert (Wu : wf u).
    { constructor.
      - rewrite (sr_0 _ _ Sr), (sr_k _ _ Sr). apply Wc.
      - rewrite (sr_1 _ _ Sr), (sr_v _ _ Sr). apply Wc.
      - rewrite (sr_2 _ _ Sr), (sr_o _ _ Sr). apply Wc.
      - rewrite Ev. cbn. rewrite map_length, seq_length. auto.
      - lia.
      - lia.
      - rewrite (sr_o _ _ Sr). apply Wc.
      - rewrite Ev. cbn. apply sorted_ap. auto.
      - rewrite (sr_vd _ _ Sr). apply Wc.
      - rewrite Ev. intros v Hv. apply in_map_iff in Hv. destruct Hv as (k & <- & Hk). apply in_seq in Hk. unfold last_month, ULT_VAL in *. nia. }
    split; auto. split; auto. split; auto. split; auto. split; auto. split.
    + intros o k Ho Hk. rewrite valuation_month by (auto; lia). unfold month_of. rewrite Ev. rewrite U3. rewrite nth_seq_map by auto. reflexivity.
    + intros i o k Hi Ho Hk. rewrite Ce by lia. rewrite L3, Nat.mul_1_l. unfold Vr. destruct (Nat.leb_spec o k), (Nat.ltb_spec (k - o) n); cbn [andb]; auto.
      apply (b_cell _ _ _ _ _ _ Bl); rewrite ?No, ?Nd; auto.
Qed.

(** From the latest amount forward or backward to the valuation [k]. *)
Definition walk (i o k : nat) : Qc :=
  if k <? n then prodn (n - 1 - k) (fun j => or_one (recip (Vr i o (n - 1 - j)))) else prodn (k - (n - 1)) (fun j => or_one (Vr i o (n + j))).
Definition Xv (i o k : nat) : cell := cmul (cmul (Some (walk i o k)) (cdiv (Vr i o k) (Vr i o k))) (Lt i o).
Definition Cc (i o d : nat) : cell := Xv i o (d + o).
Hypothesis Hv : (last_month n h o0 a0 + Z.of_nat h * Z.of_nat (n - 1) < 12 * 2261)%Z.
Hypothesis Hl : exists i o, i < ax0 (values t) /\ 1 <= o /\ o < n /\ Lt i o <> None.

Lemma Vr_self i o k : cdiv (Vr i o k) (Vr i o k) = match Vr i o k with Some _ => Some 1%Qc | None => None end.
Proof using HF.
  unfold Vr. destruct (_ && _)%bool; [|reflexivity]. pose proof (Gr_nz i o (k - o)) as Z. destruct (Gr i o (k - o)) as [x|]; [|reflexivity].
  cbn in Z. destruct (Qc_eqb_spec x 0%Qc); [discriminate|]. rewrite cdiv_Some by auto. f_equal. field. auto.
Qed.
Lemma n2n_Vr i o k : n2n (Vr i o k) = Vr i o k.
Proof using HF. unfold Vr. destruct (_ && _)%bool; [|reflexivity]. apply Gr_nz. Qed.

Lemma prodn_1 f : prodn 0 f = 1%Qc.
Proof. reflexivity. Qed.

Lemma case_all : exists r, os_case cl0 c = Ok r /\ part t n true true M r Cc /\ is_cumulative r = Some false /\ is_pattern r = false.
Proof using All.
  destruct (hyp4 cl_ages) as (lat & dl & m & q & v & cl & El & Ll & Pl & Em & Eq & (Ev & Ecl) & Bl & Fc & Fp).
  destruct (by_valuation cl Bl Fc) as (u & Eu & Wu & Sr & Vg & U3 & Va & Ce).
  pose proof (hyp4 n_odims) as No. pose proof (hyp4 n_ddims) as Nd. assert (h1 : 1 <= h) by apply Q. pose proof H0 as H0'.
  set (dv := Vals (map (fun k => o0 + a0 - 1 + Z.of_nat (h * k))%Z (seq 0 (2 * n - 1)))).
  assert (Ldv : List.length (dlist dv) = 2 * n - 1) by (cbn; rewrite map_length, seq_length; lia).
  assert (Du : ddims u = dv). { destruct Vg as (_ & _ & _ & -> & _). rewrite U3. reflexivity. }
  assert (U2 : ax2 (values u) = n) by (rewrite (sr_2 _ _ Sr), (b_2 _ _ _ _ _ _ Bl); auto).
  assert (U0 : ax0 (values u) = ax0 (values t)) by (rewrite (sr_0 _ _ Sr); apply Bl). assert (U1 : ax1 (values u) = 1) by (rewrite (sr_1 _ _ Sr); apply Bl).
  assert (Bu : blk t (odims t) dv M u Vr).
  { constructor; auto; try lia.
    - rewrite (sr_k _ _ Sr). apply Bl.
    - rewrite (sr_kl _ _ Sr). apply Bl.
    - rewrite (sr_v _ _ Sr). apply Bl.
    - rewrite (sr_o _ _ Sr). apply Bl.
    - rewrite (sr_og _ _ Sr). apply Bl.
    - rewrite (sr_dg _ _ Sr). apply Bl.
    - rewrite (sr_vd _ _ Sr). apply Bl.
    - intros i o k Hi Ho Hk. rewrite No in Ho. rewrite Ldv in Hk. auto. }
  assert (Vc : vdate c = (o0 + a0 - 1 + Z.of_nat (h * (n - 1)))%Z). { rewrite (pt_vd _ _ _ _ _ _ _ Pc), (square_vdate _ _ _ _ _ Q). nia. }
  destruct (slice_window u (fun o d => vdate c <? valuation u o d)%Z n (2 * n - 1)) as (fw & Ef & Sf & Sf2 & Sf3 & Sfc); auto; try lia.
  { intros o d Ho Hd. rewrite Va by lia. rewrite Vc, Z.ltb_lt. split; intros; nia. }
  destruct (slice_window u (fun o d => valuation u o d <=? vdate c)%Z 0 n) as (bw & Eb & Sb & Sb2 & Sb3 & Sbc); auto; try lia.
  { intros o d Ho Hd. rewrite Va by lia. rewrite Vc, Z.leb_le. split; intros; nia. }
  destruct (hyp blk_op ODiv u u _ _ _ _ _ _ _ _ ltac:(auto) Bu Bu) as (nans & En & _ & _ & _ & Bn); rewrite ?No, ?Ldv; try lia; try (left; reflexivity).
  rewrite No, Ldv in Bn. replace (pk n n (odims t) (odims t)) with (odims t) in Bn by (unfold pk; destruct ((n =? 1) && (1 <? n)); reflexivity).
  replace (pk (2 * n - 1) (2 * n - 1) dv dv) with dv in Bn by (unfold pk; destruct ((2 * n - 1 =? 1) && (1 <? 2 * n - 1)); reflexivity).
  destruct (op_arr_ok OMul lat (scalar_arr 0%Qc)) as (z0 & Ez & Rz).
  { unfold bok. cbn. rewrite (b_0 _ _ _ _ _ _ Pl), (b_1 _ _ _ _ _ _ Pl), (b_2 _ _ _ _ _ _ Pl), (b_3 _ _ _ _ _ _ Pl), No, Ll. lia. }
  assert (Z0 : ax0 (values z0) = ax0 (values t)) by (rewrite (ar_0 _ _ _ _ Rz), (b_0 _ _ _ _ _ _ Pl); cbn; lia).
  assert (Z1 : ax1 (values z0) = 1) by (rewrite (ar_1 _ _ _ _ Rz), (b_1 _ _ _ _ _ _ Pl); reflexivity).
  assert (Z2 : ax2 (values z0) = n) by (rewrite (ar_2 _ _ _ _ Rz), (b_2 _ _ _ _ _ _ Pl), No; cbn; lia).
  assert (Z3 : ax3 (values z0) = 1) by (rewrite (ar_3 _ _ _ _ Rz), (b_3 _ _ _ _ _ _ Pl), Ll; reflexivity).
  destruct (op_arr_ok OAdd z0 (scalar_arr 1%Qc)) as (one & Eo & Ro). { unfold bok. cbn. lia. }
  assert (O0 : ax0 (values one) = ax0 (values t)) by (rewrite (ar_0 _ _ _ _ Ro), Z0; cbn; lia).
  assert (O1 : ax1 (values one) = 1) by (rewrite (ar_1 _ _ _ _ Ro), Z1; reflexivity).
  assert (O2 : ax2 (values one) = n) by (rewrite (ar_2 _ _ _ _ Ro), Z2; cbn; lia).
  assert (O3 : ax3 (values one) = 1) by (rewrite (ar_3 _ _ _ _ Ro), Z3; reflexivity).
  assert (Oc : forall i o, i < ax0 (values t) -> o < n -> av (values one) i 0 o 0 = Some 1%Qc).
  { intros i o Hi Ho. change (cel one i 0 o 0 = Some 1%Qc). rewrite (ar_cell _ _ _ _ Ro). rewrite (bav_in (values z0)), bav_scalar by lia. change (av (values z0) i 0 o 0) with (cel z0 i 0 o 0).
    rewrite (ar_cell _ _ _ _ Rz), bav_scalar. unfold nan_triangle. rewrite O2, O3. replace (Nat.min n 1 =? 1) with true by (symmetry; apply Nat.eqb_eq; lia).
    destruct (bav (values lat) i 0 o 0) as [y|]; cbn [cop cmul nz_add nz]; rewrite ?Qcmult_0_r, ?Qcplus_0_l, ?Qcmult_1_l; reflexivity. }
  assert (F0 : ax0 (values fw) = ax0 (values t)) by (rewrite (sl_0 _ _ _ Sf); auto). assert (F1 : ax1 (values fw) = 1) by (rewrite (sl_1 _ _ _ Sf); auto).
  assert (B0 : ax0 (values bw) = ax0 (values t)) by (rewrite (sl_0 _ _ _ Sb); auto). assert (B1 : ax1 (values bw) = 1) by (rewrite (sl_1 _ _ _ Sb); auto).
  set (vv := cat2 3 (backward (values bw)) (cat2 3 (values one) (Outst.cumprod3 (values fw)))).
  assert (Ecat : cat_all 3 (backward (values bw)) [values one; Outst.cumprod3 (values fw)] = Ok vv).
  { cbn [cat_all rbind].
    assert (C1 : cat_ok 3 (values one) (Outst.cumprod3 (values fw)) = true).
    { unfold cat_ok. cbn [Outst.cumprod3 ax0 ax1 ax2 ax3]. rewrite O0, O1, O2, F0, F1, Sf2, U2, !Nat.eqb_refl. reflexivity. }
    rewrite C1. cbn [rbind].
    assert (C2 : cat_ok 3 (backward (values bw)) (cat2 3 (values one) (Outst.cumprod3 (values fw))) = true).
    { unfold cat_ok. change (ax0 (backward (values bw))) with (ax0 (values bw)). change (ax1 (backward (values bw))) with (ax1 (values bw)). change (ax2 (backward (values bw))) with (ax2 (values bw)).
      cbn [cat2 ax0 ax1 ax2 ax3]. rewrite O0, O1, O2, B0, B1, Sb2, U2, !Nat.eqb_refl. reflexivity. }
    rewrite C2. reflexivity. }
  assert (V0 : ax0 vv = ax0 (values t)) by exact B0. assert (V1 : ax1 vv = 1) by exact B1. assert (V2 : ax2 vv = n) by (change (ax2 (values bw) = n); lia).
  assert (V3 : ax3 vv = 2 * n - 1). { change ((ax3 (values bw) - 1) + (ax3 (values one) + ax3 (values fw)) = 2 * n - 1). lia. }
  assert (Vv : forall i o k, i < ax0 (values t) -> o < n -> k < 2 * n - 1 -> av vv i 0 o k = Some (walk i o k)).
  { intros i o k Hi Ho Hk. unfold vv, walk. cbn [cat2 av]. change (ax3 (backward (values bw))) with (ax3 (values bw) - 1). rewrite Sb3, O3, Nat.sub_0_r.
    destruct (Nat.ltb_spec k (n - 1)) as [L|L].
    - destruct (Nat.ltb_spec k n); [|lia]. cbn [backward tail3 rev3 Outst.cumprod3 map_arr av ax3]. rewrite Sb3. f_equal. rewrite Nat.sub_0_r.
      replace (S (n - 1 - S k)) with (n - 1 - k) by lia. apply prodn_ext. intros j Hj. do 2 f_equal.
      change (av (values bw) i 0 o (n - 1 - j)) with (cel bw i 0 o (n - 1 - j)). rewrite Sbc by lia. cbn [Nat.add]. rewrite Ce by lia. apply n2n_Vr.
    - destruct (Nat.ltb_spec (k - (n - 1)) 1).
      + replace (k - (n - 1)) with 0 by lia. rewrite Oc by auto. destruct (Nat.ltb_spec k n); [|lia]. replace (n - 1 - k) with 0 by lia. reflexivity.
      + destruct (Nat.ltb_spec k n); [lia|]. cbn [Outst.cumprod3 av]. f_equal. replace (S (k - (n - 1) - 1)) with (k - (n - 1)) by lia. apply prodn_ext. intros j Hj. f_equal.
        change (av (values fw) i 0 o j) with (cel fw i 0 o j). rewrite Sfc by lia. rewrite Ce by lia. apply n2n_Vr. }
  assert (Bw : blk t (odims t) dv M (set_values u vv) (fun i o k => Some (walk i o k))).
  { destruct Bu as [P1 Pa Pb P4 P5 P6 P7 P8 P9 P10 P11 P12 P13]. constructor; auto; try (change (values (set_values u vv)) with vv; congruence).
    intros i o k Hi Ho Hk. change (cel (set_values u vv) i 0 o k) with (av vv i 0 o k). rewrite No in Ho. rewrite Ldv in Hk. auto. }
  destruct (hyp blk_arr OMul (values nans) _ _ _ _ _ ltac:(auto) Bw) as (x1 & Ex1 & Bx1 & _ & Fx1); rewrite ?No, ?Ldv, ?(b_0 _ _ _ _ _ _ Bn), ?(b_1 _ _ _ _ _ _ Bn), ?(b_2 _ _ _ _ _ _ Bn), ?(b_3 _ _ _ _ _ _ Bn), ?No, ?Ldv; try lia.
  destruct (hyp blk_arr OMul (values lat) _ _ _ _ _ ltac:(auto) Bx1) as (x & Ex & Bx0 & _ & Fx); rewrite ?No, ?Ldv, ?(b_0 _ _ _ _ _ _ Pl), ?(b_1 _ _ _ _ _ _ Pl), ?(b_2 _ _ _ _ _ _ Pl), ?(b_3 _ _ _ _ _ _ Pl), ?No, ?Ll; try lia.
  assert (Bx : blk t (odims t) dv M x Xv).
  { eapply blk_ext; [exact Bx0|]. intros i o k Hi Ho Hk. rewrite No in Ho. rewrite Ldv in Hk. cbn [cop]. unfold Xv.
    rewrite (bav_in (values nans)) by (rewrite ?(b_0 _ _ _ _ _ _ Bn), ?(b_1 _ _ _ _ _ _ Bn), ?(b_2 _ _ _ _ _ _ Bn), ?(b_3 _ _ _ _ _ _ Bn), ?No, ?Ldv; lia).
    change (av (values nans) i 0 o k) with (cel nans i 0 o k). rewrite (b_cell _ _ _ _ _ _ Bn) by (rewrite ?No, ?Ldv; auto). cbn [cop]. rewrite !(bidx_lt n o), !(bidx_lt (2 * n - 1) k) by auto.
    f_equal. unfold bav. rewrite (b_0 _ _ _ _ _ _ Pl), (b_1 _ _ _ _ _ _ Pl), (b_2 _ _ _ _ _ _ Pl), (b_3 _ _ _ _ _ _ Pl), No, Ll, !bidx_1, (bidx_lt (ax0 (values t)) i), (bidx_lt n o) by auto.
    apply (b_cell _ _ _ _ _ _ Pl); rewrite ?No, ?Ll; auto. }
  clear Bx0.
  assert (Wx : wf x).
  { constructor.
    - rewrite (b_0 _ _ _ _ _ _ Bx), (b_k _ _ _ _ _ _ Bx). apply W.
    - rewrite (b_1 _ _ _ _ _ _ Bx), (b_v _ _ _ _ _ _ Bx). auto.
    - rewrite (b_2 _ _ _ _ _ _ Bx), (b_o _ _ _ _ _ _ Bx). auto.
    - rewrite (b_3 _ _ _ _ _ _ Bx), (b_d _ _ _ _ _ _ Bx). auto.
    - rewrite (b_2 _ _ _ _ _ _ Bx), No. lia.
    - rewrite (b_3 _ _ _ _ _ _ Bx), Ldv. lia.
    - rewrite (b_o _ _ _ _ _ _ Bx). apply W.
    - rewrite (b_d _ _ _ _ _ _ Bx), <- Du. apply Wu.
    - rewrite (b_vd _ _ _ _ _ _ Bx). unfold ULT_VAL. lia.
    - rewrite (b_d _ _ _ _ _ _ Bx). pose proof (wf_dev _ Wu) as D. rewrite Du in D. exact D. }
  assert (X2 : ax2 (values x) = n) by (rewrite (b_2 _ _ _ _ _ _ Bx); auto). assert (X3 : ax3 (values x) = 2 * n - 1) by (rewrite (b_3 _ _ _ _ _ _ Bx); auto).
  assert (X0 : ax0 (values x) = ax0 (values t)) by apply Bx. assert (X1 : ax1 (values x) = 1) by apply Bx.
  assert (Mx : forall o k, o < n -> k < 2 * n - 1 -> month_of x o k = (o0 + a0 - 1 + Z.of_nat (h * k))%Z).
  { intros o k Ho Hk. unfold month_of. rewrite (b_d _ _ _ _ _ _ Bx). unfold dv. rewrite nth_seq_map by auto. reflexivity. }
  assert (Gx : val_grid x o0 a0 h 1).
  { unfold val_grid. rewrite X2, X3, (b_o _ _ _ _ _ _ Bx), (b_d _ _ _ _ _ _ Bx), (b_og _ _ _ _ _ _ Bx), (b_dg _ _ _ _ _ _ Bx), (hyp t_orgs). do 4 (split; [auto|]). split; [auto|]. rewrite Go. f_equal. lia. }
  destruct (to_ages x o0 a0 h 1 Wx Gx) as (y & Ey & Sy & Gy & Y3 & _ & Yc).
  - intros o k Ho Hk Fu. unfold future in Fu. rewrite X2 in Ho. rewrite X3 in Hk. rewrite (b_vd _ _ _ _ _ _ Bx), Mx in Fu by auto. unfold last_month in Fu. nia.
  - intros o k Ho Hk. rewrite X2 in Ho. rewrite X3 in Hk. rewrite Mx by auto. unfold last_month in Hu. nia.
  - unfold short_history. rewrite (b_vd _ _ _ _ _ _ Bx), (b_o _ _ _ _ _ _ Bx), (hyp t_orgs). unfold orgs. replace (seq 0 n) with (0 :: seq 1 (n - 1)) by (destruct n; [lia|cbn; rewrite Nat.sub_0_r; reflexivity]). cbn [map hd]. lia.
  - left. lia.
  - intros i x0 o k (Hi & Hx0 & Ho & Hk) Hc. rewrite X0 in Hi. rewrite X1 in Hx0. rewrite X2 in Ho. rewrite X3 in Hk. replace x0 with 0 in Hc by lia.
    rewrite (b_cell _ _ _ _ _ _ Bx) in Hc by (rewrite ?No, ?Ldv; auto). unfold Xv in Hc. rewrite Vr_self in Hc. unfold Vr in Hc. destruct (Nat.leb_spec o k); [|cbn in Hc; congruence].
    rewrite Mx by auto. rewrite (b_o _ _ _ _ _ _ Bx), (hyp t_orgs). unfold orgs. rewrite nth_seq_map by auto. nia.
  - right. destruct Hl as (i & o & Hi & H1o & Ho & Hlo). exists i, 0, o, o. split; [unfold in_range; lia|]. split; [auto|]. rewrite (b_cell _ _ _ _ _ _ Bx) by (rewrite ?No, ?Ldv; lia).
    unfold Xv. rewrite Vr_self. unfold Vr. rewrite Nat.leb_refl, Nat.sub_diag. destruct (Nat.ltb_spec 0 n); [|lia]. cbn [andb P_Out4.Gr]. destruct (Lt i o); [discriminate|congruence].
  - pose proof Gy as (_ & _ & Yo & Yd & Y9 & _).
    assert (Y2 : ax2 (values y) = n) by (rewrite (sr_2 _ _ Sy); auto). rewrite X3 in Y3.
    assert (Wy : wf y).
    { pose proof (wf_dev _ W) as D. rewrite (hyp t_ages), (hyp t_orgs) in D. destruct D as (D1 & D2 & _).
      assert (A1 : (1 <= a0)%Z). { apply D1. apply in_map_iff. exists 0. split; [lia|]. apply in_seq. lia. }
      constructor.
      - rewrite (sr_0 _ _ Sy), (sr_k _ _ Sy). apply Wx.
      - rewrite (sr_1 _ _ Sy), (sr_v _ _ Sy). apply Wx.
      - rewrite (sr_2 _ _ Sy), (sr_o _ _ Sy). apply Wx.
      - rewrite Yd. cbn. rewrite map_length, seq_length. auto.
      - lia.
      - lia.
      - rewrite (sr_o _ _ Sy). apply Wx.
      - rewrite Yd. cbn. apply sorted_ap. auto.
      - rewrite (sr_vd _ _ Sy). apply Wx.
      - rewrite Yd. split; [|split].
        + intros a Ha. apply in_map_iff in Ha. destruct Ha as (k & <- & Hk). apply in_seq in Hk. unfold last_month in Hs. nia.
        + intros o Ho. rewrite (sr_o _ _ Sy), (b_o _ _ _ _ _ _ Bx), (hyp t_orgs) in Ho. rewrite (sr_vd _ _ Sy), (b_vd _ _ _ _ _ _ Bx). apply in_map_iff in Ho. destruct Ho as (k & <- & Hk). apply in_seq in Hk. unfold last_month. nia.
        + intros o a Ho Ha _. rewrite (sr_o _ _ Sy), (b_o _ _ _ _ _ _ Bx), (hyp t_orgs) in Ho. apply in_map_iff in Ho, Ha. destruct Ho as (k & <- & Hk). destruct Ha as (k' & <- & Hk'). apply in_seq in Hk, Hk'. unfold ULT_VAL, last_month in *. nia. }
    destruct (iloc_dev_upto y n Wy) as (r & Er & Cr); [lia|].
    assert (By : blk t (odims t) (Ages (agl h a0 0 (2 * n - 1))) M y (fun i o d => if d + o <? 2 * n - 1 then Xv i o (d + o) else None)).
    { constructor.
      - rewrite (sr_k _ _ Sy). apply Bx.
      - rewrite (sr_kl _ _ Sy). apply Bx.
      - rewrite (sr_v _ _ Sy). apply Bx.
      - rewrite (sr_o _ _ Sy). apply Bx.
      - rewrite Yd, Y3. reflexivity.
      - rewrite (sr_og _ _ Sy). apply Bx.
      - rewrite (sr_dg _ _ Sy). apply Bx.
      - rewrite (sr_vd _ _ Sy). apply Bx.
      - rewrite (sr_0 _ _ Sy). apply Bx.
      - rewrite (sr_1 _ _ Sy). apply Bx.
      - rewrite (sr_2 _ _ Sy). apply Bx.
      - cbn. unfold agl. rewrite map_length, seq_length. auto.
      - intros i o d Hi Ho Hd. rewrite No in Ho. cbn in Hd. unfold agl in Hd. rewrite map_length, seq_length in Hd.
        rewrite Yc by lia. rewrite X3, Nat.mul_1_l. destruct (Nat.ltb_spec (d + o) (2 * n - 1)) as [L|L]; [|reflexivity].
        apply (b_cell _ _ _ _ _ _ Bx); rewrite ?No, ?Ldv; auto. }
    assert (Br : blk t (odims t) (ddims t) (vdate r) r (fun i o d => if nth d (seq 0 n) 0 + o <? 2 * n - 1 then Xv i o (nth d (seq 0 n) 0 + o) else None)).
    { apply (hyp blk_slice y (odims t) (ddims t) M _ _ (seq 0 n) r By); auto.
      - rewrite (hyp t_ages). f_equal. unfold agl. rewrite sel_seq_map by lia. reflexivity.
      - unfold agl. rewrite map_length, seq_length. apply incr_pos_seq. lia. }
    assert (Vd : vdate r = M).
    { pose proof (cl_le _ _ Cr) as L1. change (vdate (sel_dev y (seq 0 n))) with (vdate y) in L1. rewrite (sr_vd _ _ Sy), (b_vd _ _ _ _ _ _ Bx) in L1.
      destruct (cl_max _ _ Cr) as [E|E].
      - rewrite E. change (vdate (sel_dev y (seq 0 n))) with (vdate y). rewrite (sr_vd _ _ Sy), (b_vd _ _ _ _ _ _ Bx). auto.
      - specialize (E (n - 1) (n - 1)). unfold sel_dev in E. cbn [sel_tri values sel_arr ax2 ax3] in E. rewrite !seq_length in E. specialize (E ltac:(lia) ltac:(lia)).
        fold (sel_dev y (seq 0 n)) in E.
        assert (Em' : month_of (sel_dev y (seq 0 n)) (n - 1) (n - 1) = month_of t (n - 1) (n - 1)).
        { unfold month_of. change (ddims (sel_dev y (seq 0 n))) with (ddims (set_vdate (sel_dev y (seq 0 n)) (vdate r))). change (odims (sel_dev y (seq 0 n))) with (odims (set_vdate (sel_dev y (seq 0 n)) (vdate r))).
          rewrite <- (cl_eq _ _ Cr), (b_d _ _ _ _ _ _ Br), (b_o _ _ _ _ _ _ Br). reflexivity. }
        rewrite Em', (square_month t n o0 a0 h (n - 1) (n - 1) Q) in E by lia. unfold last_month in *. nia. }
    exists r. split; [|split; [|split]].
    + unfold os_case. rewrite El. cbn [rbind]. rewrite Em. cbn [rbind]. rewrite Eq. cbn [rbind]. cbv zeta in Ev, Ecl |- *. rewrite Ev. cbn [rbind]. rewrite <- Ecl.
      rewrite Eu. cbn [rbind]. rewrite Ef. cbn [rbind]. rewrite Eb. cbn [rbind]. rewrite En. cbn [rbind]. change mul_arr with (op_arr OMul). change add_arr with (op_arr OAdd). rewrite Ez. cbn [rbind]. rewrite Eo. cbn [rbind]. rewrite Ecat. cbn [rbind].
      rewrite Ex1. cbn [rbind]. rewrite Ex. cbn [rbind]. rewrite Ey. cbn [rbind]. rewrite (pt_d _ _ _ _ _ _ _ Pc), Nd. exact Er.
    + rewrite Vd in Br. apply (hyp blk_part). eapply blk_ext; [exact Br|]. intros i o d Hi Ho Hd. rewrite No in Ho. rewrite Nd in Hd. cbv beta. rewrite !seq_nth by auto. cbn [Nat.add]. destruct (Nat.ltb_spec (d + o) (2 * n - 1)); [reflexivity|lia].
    + rewrite (cl_eq _ _ Cr). change (is_cumulative y = Some false). rewrite (sr_cum _ _ Sy), (proj1 Fx), (proj1 Fx1). change (is_cumulative u = Some false). rewrite (sr_cum _ _ Sr). auto.
    + rewrite (cl_eq _ _ Cr). change (is_pattern y = false). rewrite (sr_pat _ _ Sy). destruct Fx as (_ & Fx & _). destruct Fx1 as (_ & Fx1 & _). rewrite Fx, Fx1. change (is_pattern u = false). rewrite (sr_pat _ _ Sr). auto.
Qed.
End Out.
