(** Benktander ultimates. *)
From Coq Require Import Lia Permutation.
From Verif Require Export P_CL.
Local Open Scope Z_scope.

Lemma sort_index_plain x : shape_ok x -> exists r, sort_index x = Ok r /\
  kdims r = sel (kdims x) [] (sorted_rows x) /\ key_labels r = key_labels x /\ vdims r = vdims x /\ odims r = odims x /\ ddims r = ddims x /\
  same_flags x r /\ ax0 (values r) = ax0 (values x) /\ ax1 (values r) = ax1 (values x) /\ ax2 (values r) = ax2 (values x) /\ ax3 (values r) = ax3 (values x) /\
  forall i c o d, in_range x i c o d -> cel r i c o d = cel x (nth i (sorted_rows x) 0%nat) c o d.
Proof.
  intros (S0 & S1 & S2 & S3 & H0 & H1 & H2 & H3). unfold sort_index, iloc_rows.
  pose proof (sorted_rows_perm x) as Pm. pose proof (Permutation_length Pm) as PL. rewrite seq_length in PL.
  destruct (contig_total (map Z.of_nat (sorted_rows x))) as (s & Hs).
  { intros E. apply map_eq_nil in E. rewrite E in PL. cbn in PL. lia. }
  assert (Ps : positions s (ax0 (values x)) = Ok (sorted_rows x)).
  { apply contig_slice_positions; auto.
    - apply (Permutation_NoDup (Permutation_sym Pm)), seq_NoDup.
    - intros z Hz. apply (Permutation_in _ Pm) in Hz. apply in_seq in Hz. lia. }
  rewrite Hs. cbn [rbind]. rewrite (get_idx_row _ _ _ Ps).
  set (u := sel_tri x _ _ _ _).
  assert (Uo : odims u = odims x) by (apply sel_seq_all; auto).
  assert (Ud : ddims u = ddims x).
  { unfold u. cbn [sel_tri ddims]. destruct (ddims x); cbn [dmap dlist] in *; f_equal; apply sel_seq_all; auto. }
  assert (V : valuations u <> []).
  { unfold valuations. rewrite Uo, Ud. destruct (odims x); [cbn in S2; lia|]. destruct (dlist (ddims x)); [cbn in S3; lia|]. cbn. discriminate. }
  unfold clip_vdate. destruct (valuations u) eqn:E; [congruence|]. eexists; split; [reflexivity|].
  split; [reflexivity|]. split; [reflexivity|]. split; [apply sel_seq_all; auto|]. split; [exact Uo|]. split; [exact Ud|].
  split; [repeat split|]. cbn [set_vdate values u sel_tri sel_arr ax0 ax1 ax2 ax3]. rewrite !seq_length. split; [lia|]. do 3 (split; [reflexivity|]).
  intros i c o d (R0 & R1 & R2 & R3). unfold cel. cbn [set_vdate values u sel_tri sel_arr av]. rewrite !seq_nth by lia. reflexivity.
Qed.
Lemma sorted_rows_kdims x y : kdims x = kdims y -> sorted_rows x = sorted_rows y.
Proof.
  intros E. unfold sorted_rows. rewrite E. induction (seq 0 (List.length (kdims y))) as [|i l IH]; [reflexivity|]. cbn [fold_right]. rewrite IH. clear IH.
  generalize (fold_right (insert_row y) [] l). intros m. induction m as [|j m IH]; cbn [insert_row]; [reflexivity|].
  unfold row_key. rewrite E, IH. reflexivity.
Qed.

(** Arithmetic of the iteration. *)
Lemma geometric q n : ((1 - q) * sumn n (Qcpow q) = 1 - Qcpow q n)%Qc.
Proof. induction n as [|n IH]; cbn [sumn Qcpow]; [ring|]. rewrite Qcmult_plus_distr_r, IH. ring. Qed.
Lemma benk_value x F e n : F <> 0%Qc -> let q := (1 - 1 / F)%Qc in
  (sumn n (Qcpow q) * x + Qcpow q n * e = x * F + Qcpow q n * (e - x * F))%Qc.
Proof.
  intros NF q. assert (G := geometric q n). assert (Eq : (x = (1 - q) * (x * F))%Qc) by (unfold q; field; auto).
  rewrite Eq at 1. assert (E2 : (sumn n (Qcpow q) * ((1 - q) * (x * F)) = (1 - Qcpow q n) * (x * F))%Qc) by (rewrite <- G; ring). rewrite E2. ring.
Qed.
Lemma bf_iterate x F e n : F <> 0%Qc -> let q := (1 - 1 / F)%Qc in
  iterate n (bf_step x q) e = (x * F + Qcpow q n * (e - x * F))%Qc.
Proof.
  intros NF q. induction n as [|n IH]; cbn [iterate Qcpow]; [ring|]. rewrite IH. unfold bf_step.
  assert (Eq : (x = (1 - q) * (x * F))%Qc) by (unfold q; field; auto). rewrite Eq at 1. ring.
Qed.

Lemma exposure_scaled t s a : method_input t -> exposure_for t s ->
  exists e, mul_arr s (scalar_arr a) = Ok e /\ exposure_for t e /\ forall i c o, in_range t i c o 0 -> exposure e i c o = (a * exposure s i c o)%Qc.
Proof.
  intros MI E. destruct (exposure_shape t MI s E) as (S0 & S1 & S2 & S3 & H0 & H1 & H2 & H3).
  destruct (op_arr_ok OMul s (scalar_arr a)) as (e & Ee & R); [unfold bok; cbn; lia|].
  pose proof (ar_0 _ _ _ _ R) as B0. pose proof (ar_1 _ _ _ _ R) as B1. pose proof (ar_2 _ _ _ _ R) as B2. pose proof (ar_3 _ _ _ _ R) as B3.
  cbn [scalar_arr ax0 ax1 ax2 ax3] in B0, B1, B2, B3. rewrite Nat.max_l in B0, B1, B2, B3 by lia.
  destruct (ar_fl _ _ _ _ R) as (F1 & F2 & F3 & F4).
  exists e. split; [exact Ee|]. split.
  - constructor; rewrite ?(ar_k _ _ _ _ R), ?(ar_kl _ _ _ _ R), ?(ar_v _ _ _ _ R), ?(ar_o _ _ _ _ R), ?(ar_d _ _ _ _ R), ?F2, ?F3, ?B0, ?B1, ?B2, ?B3; apply E.
  - intros i c o (R0 & R1 & R2 & _). unfold exposure. rewrite B1. unfold amount. rewrite (ar_cell _ _ _ _ R), bav_scalar.
    assert (X0 : ax0 (values s) = ax0 (values t)) by (rewrite (ef_0 _ _ E), (ef_k _ _ E), (wf_k _ (mi_wf _ MI)); reflexivity).
    assert (X2 : ax2 (values s) = ax2 (values t)) by (rewrite (ef_2 _ _ E), (ef_o _ _ E), (wf_o _ (mi_wf _ MI)); reflexivity).
    assert (X1 : ax1 (values s) = ax1 (values t) \/ ax1 (values s) = 1%nat).
    { rewrite (ef_1 _ _ E), (wf_v _ (mi_wf _ MI)). destruct (ef_v _ _ E) as [-> | ->]; auto. }
    destruct (Nat.eqb_spec (ax1 (values s)) 1) as [E1|E1]; rewrite bav_in by lia; change (av (values s)) with (cel s);
      match goal with |- context [cel s ?a ?b ?c ?d] => destruct (cel s a b c d) end; cbn; ring.
Qed.

Section Benk.
Variables (t l s : tri) (n : nat) (a : Qc).
Hypothesis MI : method_input t.
Hypothesis FO : factors_over t l.
Hypothesis EF : exposure_for t s.

Definition benk_over_spec (u : tri) : Prop :=
    ultimate_frame (with_row_labels t (sorted_rows t)) u /\
    forall j c o d, in_range t j c o d -> month_of t o d = vdate t ->
      let i := nth j (sorted_rows t) 0%nat in let i' := served (ax0 (values l)) i in let c' := served (ax1 (values l)) c in
      let q := unreported_share l i' c' d in let cl := (amount t i c o d * to_ultimate l i' c' d)%Qc in
      let e := (a * exposure s i c o)%Qc in
      stores (cel u j c o 0%nat) (if Qc_eqb (amount t i c o d + e) 0%Qc then 0%Qc else cl + Qcpow q n * (e - cl))%Qc.

Lemma benk_over : exists u, benktander n a t l s = Ok u /\ benk_over_spec u.
Proof.
  pose proof (mi_wf _ MI) as W. unfold benktander.
  destruct (exposure_scaled t s a MI EF) as (e & -> & EE & Ev). cbn [rbind]. unfold benktander_ultimate.
  destruct (latest_diagonal_ok2 t W (mi_diag _ MI)) as (ld & Eld & Lk & Lkl & Lv & Lo & Lvd & L0 & L1 & L2 & L3 & Lc & (Lf1 & Lf2 & Lf3 & Lf4) & Ll).
  rewrite Eld. cbn [rbind].
  destruct (align_cdf_over t l MI FO (Some e)) as (f & Ef & Fk & Fkl & Fv & Fo & Fvd & F0 & F1 & F2 & F3 & Fl & (Ff1 & Ff2 & Ff3 & Ff4) & Fc).
  { intros s' [= <-]. exact EE. }
  rewrite Ef. cbn [rbind].
  pose proof (wf_k _ W) as T0. pose proof (wf_v _ W) as T1. pose proof (wf_o _ W) as T2. pose proof (wf_d _ W) as T3.
  pose proof (wf_o1 _ W) as O1. pose proof (wf_d1 _ W) as D1. pose proof (mi_0 _ MI) as M0. pose proof (mi_1 _ MI) as M1.
  assert (St : shape_ok t) by (apply wf_shape; auto).
  assert (Sl : shape_ok ld) by (unfold shape_ok; rewrite Lk, Lv, Lo, Ll; lia).
  assert (Sf : shape_ok f) by (unfold shape_ok; rewrite Fk, Fv, Fo, Fl; lia).
  assert (Se : shape_ok e) by (apply (exposure_shape t MI); auto).
  destruct (sort_index_plain f Sf) as (f' & -> & _ & _ & _ & _ & _ & _ & F0' & F1' & F2' & F3' & Fc'). cbn [rbind].
  destruct (sort_index_plain ld Sl) as (ld' & -> & _ & _ & _ & _ & _ & _ & L0' & L1' & L2' & L3' & Lc'). cbn [rbind].
  destruct (sort_index_plain e Se) as (e' & -> & _ & _ & _ & _ & _ & _ & E0' & E1' & E2' & E3' & Ec'). cbn [rbind].
  destruct (sort_index_plain t St) as (u & -> & Uk & Ukl & Uv & Uo & Ud & (U1 & U2 & U3 & U4) & U0' & U1' & U2' & U3' & Uc'). cbn [rbind].
  rewrite (sorted_rows_kdims f t) in Fc' by auto. rewrite (sorted_rows_kdims ld t) in Lc' by auto.
  rewrite (sorted_rows_kdims e t) in Ec' by apply EE.
  assert (X0 : ax0 (values e) = ax0 (values t)) by (rewrite (ef_0 _ _ EE), (ef_k _ _ EE); auto).
  assert (X2 : ax2 (values e) = ax2 (values t)) by (rewrite (ef_2 _ _ EE), (ef_o _ _ EE); auto).
  assert (X1 : ax1 (values e) = ax1 (values t) \/ ax1 (values e) = 1%nat).
  { rewrite (ef_1 _ _ EE), T1. destruct (ef_v _ _ EE) as [-> | ->]; auto. }
  pose proof (ef_3 _ _ EE) as X3.
  rewrite bmap2_bc by (unfold bok; lia). cbn [rbind].
  rewrite bmap2_bc by (unfold bok; lia). cbn [rbind].
  rewrite bmap2_bc by (unfold bok; cbn [ax0 ax1 ax2 ax3]; lia). cbn [rbind].
  eexists; split; [reflexivity|]. pose proof (sorted_rows_perm t) as Pm. split.
  { constructor; cbn [with_row_labels set_ult_attr set_vdate set_cumulative set_ddims set_dims set_values kdims key_labels vdims odims ddims vdate values is_cumulative is_pattern ograin dgrain ax0 ax1 ax2 ax3]; try assumption; try reflexivity; try lia.
    rewrite U2; apply MI. }
  intros j c o d R M. pose proof R as (R0 & R1 & R2 & R3). cbv zeta.
  set (i := nth j (sorted_rows t) 0%nat). set (i' := served (ax0 (values l)) i). set (c' := served (ax1 (values l)) c).
  assert (Ri : (i < ax0 (values t))%nat).
  { assert (In i (seq 0 (List.length (kdims t)))) as Hin.
    { apply (Permutation_in _ Pm). apply nth_In. rewrite (Permutation_length Pm), seq_length. lia. }
    apply in_seq in Hin. lia. }
  assert (RR : in_range t i c o d) by (unfold in_range; auto).
  unfold cel. cbn [set_ult_attr set_vdate set_cumulative set_ddims set_dims set_values values av ax0 ax1 ax2 ax3].
  repeat (rewrite bav_in by (cbn [ax0 ax1 ax2 ax3]; lia)). cbn [av].
  assert (B1 : bav (values f') j c o 0 = cel f i c o 0%nat).
  { rewrite bav_in by lia. apply Fc'. unfold in_range. lia. }
  assert (B2 : bav (values ld') j c o 0 = cel ld i c o 0%nat).
  { rewrite bav_in by lia. apply Lc'. unfold in_range. lia. }
  assert (B3 : nz (bav (values e') j c o 0) = exposure e i c o).
  { unfold bav. rewrite E0', E1', E2', E3', X3, bidx_1, (bidx_lt (ax0 (values e))), (bidx_lt (ax2 (values e))) by lia. unfold exposure, amount.
    destruct (Nat.eqb_spec (ax1 (values e)) 1) as [E1|E1].
    - rewrite E1, bidx_1. change (av (values e')) with (cel e'). rewrite Ec'; [reflexivity|]. unfold in_range. lia.
    - rewrite bidx_lt by lia. change (av (values e')) with (cel e'). rewrite Ec' by (unfold in_range; lia). reflexivity. }
  rewrite B1, B2, B3. cbn [cadd]. apply stores_n2n_eq.
  specialize (Fc i c o d RR M). unfold basis in Fc. fold i' c' in Fc. rewrite (Ev i c o) in * by (unfold in_range; lia).
  pose proof (stores_nz _ _ (Lc i c o d RR M)) as LL. rewrite LL.
  destruct (Qc_eqb_spec (amount t i c o d + a * exposure s i c o)%Qc 0%Qc) as [EQ|NE].
  - destruct Fc as [Fn _]. rewrite (Fn eq_refl). unfold bk_power, unreported. cbn.
    rewrite sumn_zero by auto. ring.
  - destruct Fc as [_ Fs]. pose proof (to_ultimate_ne l i' c' d) as NF. rewrite (Fs NF).
    assert (BP : forall k, bk_power (Some (to_ultimate l i' c' d)) k = Qcpow (unreported_share l i' c' d) k).
    { intros k. unfold bk_power, unreported. rewrite n2n_Some by auto. rewrite cdiv_Some by auto. reflexivity. }
    rewrite BP. rewrite (sumn_ext n _ (Qcpow (unreported_share l i' c' d))) by auto.
    apply benk_value; auto.
Qed.
End Benk.

Definition benk_spec (t l s : tri) (n : nat) (a : Qc) (u : tri) : Prop :=
    ultimate_frame (with_row_labels t (sorted_rows t)) u /\
    forall j c o d, in_range t j c o d -> month_of t o d = vdate t ->
      let i := nth j (sorted_rows t) 0%nat in let q := unreported_share l i c d in let cl := cl_amount t l i c o d in
      let e := (a * exposure s i c o)%Qc in
      stores (cel u j c o 0%nat) (if Qc_eqb (amount t i c o d + e) 0%Qc then 0%Qc else cl + Qcpow q n * (e - cl))%Qc.
Lemma benk_ok t l s n a : method_input t -> pattern_for t l -> exposure_for t s -> exists u, benktander n a t l s = Ok u /\ benk_spec t l s n a u.
Proof.
  intros MI PF EF. destruct (benk_over t l s n a MI (pattern_over _ _ PF) EF) as (u & Eu & Fu & Cu). exists u. split; [exact Eu|]. split; [exact Fu|].
  intros j c o d R M. pose proof (Cu j c o d R M) as C. cbv zeta in *. set (i := nth j (sorted_rows t) 0%nat) in *.
  assert (Ri : (i < ax0 (values t))%nat).
  { pose proof (sorted_rows_perm t) as Pm. pose proof (wf_k _ (mi_wf _ MI)) as T0. destruct R as (R0 & _).
    assert (In i (seq 0 (List.length (kdims t)))) as Hin.
    { apply (Permutation_in _ Pm). apply nth_In. rewrite (Permutation_length Pm), seq_length. lia. }
    apply in_seq in Hin. lia. }
  destruct R as (R0 & R1 & R2 & R3). rewrite !served_in in C by (rewrite ?(pf_0 t l MI PF), ?(pf_1 t l MI PF); auto). exact C.
Qed.

(** Powers of a share below one. *)
Lemma Qcpow_nonneg q n : (0 <= q)%Qc -> (0 <= Qcpow q n)%Qc.
Proof. intros H. induction n as [|n IH]; cbn [Qcpow]; [discriminate|]. qnra. Qed.
Lemma Qcpow_le_1 q n : (0 <= q)%Qc -> (q <= 1)%Qc -> (Qcpow q n <= 1)%Qc.
Proof. intros H H1. induction n as [|n IH]; cbn [Qcpow]; [discriminate|]. pose proof (Qcpow_nonneg q n H). qnra. Qed.
Lemma share_bounds F : (1 <= F)%Qc -> (0 <= 1 - 1 / F)%Qc /\ (1 - 1 / F < 1)%Qc.
Proof.
  intros H. assert (F <> 0%Qc) by (intros ->; apply H; reflexivity).
  assert (E : (F * (1 / F) = 1)%Qc) by (field; auto). set (r := (1 / F)%Qc) in *. assert (0 < r)%Qc.
  { apply Qcnot_le_lt. intros L. assert (F * r <= 0)%Qc by qnra. rewrite E in H1. apply H1. reflexivity. }
  split; [|qlra]. assert (r <= 1)%Qc; [|qlra]. apply Qcnot_lt_le. intros L. assert (1 < F * r)%Qc by qnra. rewrite E in H2. discriminate.
Qed.
Lemma qc_S k : qc (Z.of_nat (S k)) = (qc (Z.of_nat k) + 1)%Qc.
Proof. apply Qc_is_canon. unfold qc. cbn [this Q2Qc Qcplus]. rewrite !Qred_correct. rewrite Nat2Z.inj_succ. unfold Z.succ. rewrite inject_Z_plus. reflexivity. Qed.
Lemma qc_nonneg k : (0 <= qc (Z.of_nat k))%Qc.
Proof. induction k as [|k IH]; [discriminate|]. rewrite qc_S. qlra. Qed.
Lemma qc_above (x : Qc) : exists k, (x < qc (Z.of_nat k))%Qc.
Proof.
  exists (Z.to_nat (Z.abs (Qnum x) + 1)). unfold Qclt, qc. cbn [this Q2Qc]. rewrite Qred_correct. unfold Qlt, inject_Z. cbn [Qnum Qden].
  rewrite Z2Nat.id by lia. pose proof (Pos2Z.is_pos (Qden x)). nia.
Qed.
(** Bernoulli's inequality for the reciprocal. *)
Lemma power_decays q h n : (0 <= q)%Qc -> (0 <= h)%Qc -> (q * (1 + h) <= 1)%Qc -> (Qcpow q n * (1 + qc (Z.of_nat n) * h) <= 1)%Qc.
Proof.
  intros Q H QH. induction n as [|n IH]; [cbn [Qcpow]; change (qc (Z.of_nat 0)) with 0%Qc; qnra|].
  cbn [Qcpow]. rewrite qc_S. pose proof (qc_nonneg n) as N0. pose proof (Qcpow_nonneg q n Q) as P0. set (m := qc (Z.of_nat n)) in *. set (p := Qcpow q n) in *.
  assert (A : (q * (1 + (m + 1) * h) <= 1 + m * h)%Qc).
  { assert ((1 + (m + 1) * h <= (1 + h) * (1 + m * h))%Qc) by (assert (0 <= m * h)%Qc by qnra; assert (0 <= (m * h) * h)%Qc by qnra; qlra).
    assert (q * (1 + (m + 1) * h) <= q * ((1 + h) * (1 + m * h)))%Qc by qnra.
    assert (0 <= 1 + m * h)%Qc by qnra. assert (q * (1 + h) * (1 + m * h) <= 1 * (1 + m * h))%Qc by (apply Qcmult_le_compat_r; auto). qlra. }
  assert (p * (q * (1 + (m + 1) * h)) <= p * (1 + m * h))%Qc by qnra. qlra.
Qed.
Lemma power_limit q D eps : (0 <= q)%Qc -> (q < 1)%Qc -> (0 <= D)%Qc -> (0 < eps)%Qc -> exists N, forall n, (N <= n)%nat -> (Qcpow q n * D < eps)%Qc.
Proof.
  intros Q0 Q1 D0 E0. set (h := (1 - q)%Qc). assert (H0 : (0 < h)%Qc) by (unfold h; qlra).
  assert (QH : (q * (1 + h) <= 1)%Qc) by (unfold h; qnra).
  destruct (qc_above (D / (h * eps))%Qc) as (N & HN). exists N. intros n Hn.
  assert (HE : (0 < h * eps)%Qc) by qnra. assert (NE : (h * eps)%Qc <> 0%Qc) by (intros E; rewrite E in HE; discriminate).
  assert (DN : (D < qc (Z.of_nat N) * (h * eps))%Qc).
  { assert (E : (D = D / (h * eps) * (h * eps))%Qc) by (field; split; intros E; [rewrite E in E0|rewrite E in H0]; discriminate).
    rewrite E at 1. apply Qcmult_lt_compat_r; auto. }
  assert (MN : (qc (Z.of_nat N) <= qc (Z.of_nat n))%Qc).
  { replace n with ((n - N) + N)%nat by lia. generalize (n - N)%nat. intros k. induction k as [|k IH]; [cbn [Nat.add]; apply Qcle_refl|]. cbn [Nat.add]. rewrite qc_S. qlra. }
  pose proof (power_decays q h n Q0 ltac:(qlra) QH) as B. pose proof (Qcpow_nonneg q n Q0) as P0. set (p := Qcpow q n) in *. set (m := qc (Z.of_nat n)) in *.
  assert (DM : (D < m * (h * eps))%Qc) by (assert (qc (Z.of_nat N) * (h * eps) <= m * (h * eps))%Qc by (apply Qcmult_le_compat_r; qlra); qlra).
  destruct (Qclt_le_dec 0 p) as [Pp|Pn].
  - assert (p * D < p * (m * (h * eps)))%Qc by (rewrite (Qcmult_comm p D), (Qcmult_comm p (m * (h * eps))%Qc); apply Qcmult_lt_compat_r; auto).
    assert (p * (m * h) <= 1)%Qc by qlra. assert (p * (m * h) * eps <= 1 * eps)%Qc by (apply Qcmult_le_compat_r; qlra). qlra.
  - assert (p = 0%Qc) as -> by (apply Qcle_antisym; auto). qlra.
Qed.

Lemma Qcdist_scale c p D : (0 <= p)%Qc -> Qcdist (c + p * D)%Qc c = (p * (if Qc_leb 0 D then D else - D))%Qc.
Proof.
  intros P. unfold Qcdist. destruct (Qc_leb_spec (c + p * D)%Qc c) as [L|L], (Qc_leb_spec 0%Qc D) as [L2|L2].
  - assert (0 <= p * D)%Qc by qnra. assert (p * D = 0)%Qc by (apply Qcle_antisym; qlra). rewrite H0. ring.
  - ring.
  - ring.
  - exfalso. apply L. assert (p * D <= 0)%Qc by (assert (D <= 0)%Qc by (apply Qclt_le_weak, Qcnot_le_lt; auto); qnra). qlra.
Qed.

Theorem benktander_iterations t l s a : method_input t -> pattern_for t l -> exposure_for t s ->
  exists rows, Permutation rows (seq 0 (ax0 (values t))) /\
  forall n, exists u, benktander n a t l s = Ok u /\ ultimate_frame (with_row_labels t rows) u /\
    forall j c o d, in_range t j c o d -> month_of t o d = vdate t ->
      let i := nth j rows 0%nat in
      let latest := amount t i c o d in let e := (a * exposure s i c o)%Qc in
      let q := unreported_share l i c d in let cl := cl_amount t l i c o d in
      (latest + e = 0 -> cel u j c o 0%nat = None)%Qc /\
      (latest + e <> 0 -> stores (cel u j c o 0%nat) (cl + Qcpow q n * (e - cl)) /\ amount u j c o 0 = iterate n (bf_step latest q) e)%Qc.
Proof.
  intros MI PF EF. exists (sorted_rows t). split; [rewrite (wf_k _ (mi_wf _ MI)); apply sorted_rows_perm|].
  intros n. destruct (benk_ok t l s n a MI PF EF) as (u & Eu & UF & UC). exists u. split; [auto|]. split; [auto|].
  intros j c o d R M i latest e q cl. specialize (UC j c o d R M). cbv zeta in UC. fold i in UC. fold latest e q cl in UC.
  split; intros H.
  - destruct (Qc_eqb_spec (latest + e)%Qc 0%Qc); [|contradiction]. apply UC. reflexivity.
  - destruct (Qc_eqb_spec (latest + e)%Qc 0%Qc); [contradiction|]. split; [exact UC|].
    unfold amount. rewrite (stores_nz _ _ UC). unfold q, unreported_share. rewrite bf_iterate by apply to_ultimate_ne. reflexivity.
Qed.
Theorem benktander_converges t l s a : method_input t -> pattern_for t l -> exposure_for t s ->
  exists rows U, Permutation rows (seq 0 (ax0 (values t))) /\ (forall n, benktander n a t l s = Ok (U n) /\ ultimate_frame (with_row_labels t rows) (U n)) /\
    forall j c o d, in_range t j c o d -> month_of t o d = vdate t ->
      let i := nth j rows 0%nat in
      let e := (a * exposure s i c o)%Qc in let cl := cl_amount t l i c o d in let B n := amount (U n) j c o 0 in
      (amount t i c o d + e <> 0 -> 1 <= to_ultimate l i c d ->
        (forall n, (cl <= e -> cl <= B n <= e) /\ (e <= cl -> e <= B n <= cl)) /\
        (forall n, Qcdist (B (S n)) cl <= Qcdist (B n) cl) /\
        (forall eps, 0 < eps -> exists N, forall n, (N <= n)%nat -> Qcdist (B n) cl < eps))%Qc.
Proof.
  intros MI PF EF. pose proof (benk_ok t l s) as BO.
  exists (sorted_rows t), (fun n => match benktander n a t l s with Ok u => u | Err _ => t end).
  split; [rewrite (wf_k _ (mi_wf _ MI)); apply sorted_rows_perm|]. split.
  { intros n. destruct (BO n a MI PF EF) as (u & -> & UF & _). auto. }
  intros j c o d R M i e cl B NB F1. set (q := unreported_share l i c d).
  destruct (share_bounds _ F1) as [Q0 Q1]. fold (unreported_share l i c d) in Q0, Q1. fold q in Q0, Q1.
  assert (BV : forall n, B n = (cl + Qcpow q n * (e - cl))%Qc).
  { intros n. unfold B. destruct (BO n a MI PF EF) as (u & -> & _ & UC). specialize (UC j c o d R M). cbv zeta in UC. fold i in UC. fold e cl q in UC.
    destruct (Qc_eqb_spec (amount t i c o d + e)%Qc 0%Qc); [contradiction|]. apply stores_nz in UC. exact UC. }
  split; [|split].
  - intros n. rewrite BV. pose proof (Qcpow_nonneg q n Q0) as P0. pose proof (Qcpow_le_1 q n Q0 ltac:(qlra)) as P1. set (p := Qcpow q n) in *.
    split; intros L; split.
    + assert (0 <= p * (e - cl))%Qc by qnra. qlra.
    + assert (p * (e - cl) <= 1 * (e - cl))%Qc by (apply Qcmult_le_compat_r; [auto|qlra]). qlra.
    + assert (p * (cl - e) <= 1 * (cl - e))%Qc by (apply Qcmult_le_compat_r; [auto|qlra]). qlra.
    + assert (0 <= p * (cl - e))%Qc by qnra. qlra.
  - intros n. rewrite !BV, !Qcdist_scale by (apply Qcpow_nonneg; auto). apply Qcmult_le_compat_r.
    + cbn [Qcpow]. pose proof (Qcpow_nonneg q n Q0). qnra.
    + destruct (Qc_leb_spec 0%Qc (e - cl)%Qc) as [L|L]; [auto|]. apply Qcnot_le_lt in L. qlra.
  - intros eps He. destruct (power_limit q (if Qc_leb 0 (e - cl) then e - cl else - (e - cl))%Qc eps Q0 Q1) as (N & HN); auto.
    + destruct (Qc_leb_spec 0%Qc (e - cl)%Qc) as [L|L]; [auto|]. apply Qcnot_le_lt in L. qlra.
    + exists N. intros n Hn. rewrite BV, Qcdist_scale by (apply Qcpow_nonneg; auto). auto.
Qed.
