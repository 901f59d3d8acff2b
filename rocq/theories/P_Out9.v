(** Factors from age to age of the completed paid and incurred amounts. *)
From Coq Require Import Lia.
From Verif Require Import P_Corr5 CatFacts P_Align2 P_Pattern.
From Verif Require Export P_Out8.
Local Open Scope nat_scope.

Section Out.
Variables (t : tri) (n h : nat) (o0 a0 : Z).
Hypotheses (W : wf t) (B : blank_future t) (Q : square t n o0 a0 h) (Hn : 3 <= n) (H0 : 1 <= ax0 (values t)).
Local Notation hyp L := (L t n h o0 a0 W B Q Hn H0).
Hypotheses (Fp : is_pattern t = false) (Uv : NoDup (vdims t)).
Local Notation M := (last_month n h o0 a0).
Hypotheses (Hu : (M < 12 * 2261)%Z).
Variables (fp fi : tri) (P I : nat -> nat -> nat -> Qc) (nm : os_names) (p q : nat).
Hypotheses (Pfp : part t n true true ULT_VAL fp (fun i o d => n2n (Some (P i o d)))) (Ffp : is_pattern fp = false)
  (Pfi : part t n true true M fi (fun i o d => n2n (Some (I i o d))))
  (Ep : nth_error (vdims t) p = Some (on_paid nm)) (Eq : nth_error (vdims t) q = Some (on_incurred nm)) (Ne : on_paid nm <> on_incurred nm).

(** The columns with factors, in the order of the triangle. *)
Definition os_cols : list string := filter (fun c => String.eqb c (on_paid nm) || String.eqb c (on_incurred nm)) (vdims t).
(** The completed amounts of column number [c] among these. *)
Definition os_full (c i o d : nat) : Qc := if String.eqb (nth c os_cols EmptyString) (on_paid nm) then P i o d else I i o d.

Lemma in_cols x : In x os_cols <-> x = on_paid nm \/ x = on_incurred nm.
Proof using Ep Eq.
  clear - Ep Eq. unfold os_cols. rewrite filter_In, orb_true_iff, !String.eqb_eq. apply nth_error_In in Ep, Eq. split; [tauto|]. intros [-> | ->]; auto.
Qed.

Definition factor_at (i c o d : nat) : cell := cdiv (n2n (Some (os_full c i o (n - 1)))) (n2n (Some (os_full c i o d))).
Lemma factors_all : exists r, os_factors nm t fp fi = Ok r /\ wf r /\ kdims r = kdims t /\ key_labels r = key_labels t /\ vdims r = os_cols /\ odims r = odims t /\ ddims r = Ages (agl h a0 0 (n - 1)) /\
    vdate r = ULT_VAL /\ is_cumulative r = Some false /\ is_pattern r = true /\
    ax0 (values r) = ax0 (values t) /\ ax1 (values r) = List.length os_cols /\ ax2 (values r) = n /\ ax3 (values r) = n - 1 /\
    forall i c o d, i < ax0 (values t) -> c < List.length os_cols -> o < n -> d < n - 1 ->
      cel r i c o d = if S d <? n - 1 then Some (factor (factor_at i c o d) / factor (factor_at i c o (S d)))%Qc else Some (factor (factor_at i c o d)).
Proof using All.
  assert (h1 : 1 <= h) by apply Q. assert (MB : (vdate t <= M <= ULT_VAL)%Z) by (rewrite (square_vdate _ _ _ _ _ Q); unfold last_month, ULT_VAL in *; nia).
  pose proof Q as (Rg & T2 & T3). pose proof (wf_k _ W) as Wk. pose proof (wf_o _ W) as Wo. pose proof (wf_d _ W) as Wd. pose proof (wf_vd _ W) as Wvd.
  pose proof (part_wf t n h o0 a0 W Q ltac:(lia) H0 _ _ _ Pfp ltac:(lia)) as Wp. pose proof (part_wf t n h o0 a0 W Q ltac:(lia) H0 _ _ _ Pfi ltac:(lia)) as Wi.
  pose proof (pt_1 _ _ _ _ _ _ _ Pfp) as P1. pose proof (pt_1 _ _ _ _ _ _ _ Pfi) as I1.
  pose proof (pt_o _ _ _ _ _ _ _ Pfp) as Po. pose proof (pt_d _ _ _ _ _ _ _ Pfp) as Pd. pose proof (pt_o _ _ _ _ _ _ _ Pfi) as Io. pose proof (pt_d _ _ _ _ _ _ _ Pfi) as Id. cbn in Po, Pd, Io, Id.
  set (x := set_vdims fp [on_paid nm]). set (y := set_vdims fi [on_incurred nm]).
  assert (Wx : wf x) by (destruct Wp; constructor; auto). assert (Wy : wf y) by (destruct Wi; constructor; auto).
  destruct (concat_column x [y]) as (dv & Edv & D1 & D2 & D3 & D4 & D5 & D6 & D7 & D8 & D9 & D10 & D11 & D12 & D13 & D14 & Dc).
  { intros u [<- | [<- | []]]; auto. }
  { intros u [<- | []]. unfold x, y. change (kdims fi = kdims fp /\ odims fi = odims fp /\ ddims fi = ddims fp). rewrite Po, Pd, Io, Id, (pt_k _ _ _ _ _ _ _ Pfp), (pt_k _ _ _ _ _ _ _ Pfi). auto. }
  { cbn. constructor; [intros [E|[]]; congruence|]. constructor; [intros []|constructor]. }
  change (vdims dv = [on_paid nm; on_incurred nm]) in D3. change (kdims dv = kdims fp) in D1. change (key_labels dv = key_labels fp) in D2. change (odims dv = odims fp) in D4. change (ddims dv = ddims fp) in D5.
  change (vdate dv = Z.max (vdate fi) (vdate fp)) in D6. change (is_pattern dv = is_pattern fp) in D8. change (ograin dv = ograin fp) in D9. change (dgrain dv = dgrain fp) in D10.
  change (ax0 (values dv) = ax0 (values fp)) in D11. rewrite D3 in D12. cbn [List.length] in D12. change (ax2 (values dv) = ax2 (values fp)) in D13. change (ax3 (values dv) = ax3 (values fp)) in D14.
  rewrite (pt_k _ _ _ _ _ _ _ Pfp) in D1. rewrite (pt_kl _ _ _ _ _ _ _ Pfp) in D2. rewrite Po in D4. rewrite Pd in D5. rewrite (pt_vd _ _ _ _ _ _ _ Pfp), (pt_vd _ _ _ _ _ _ _ Pfi), Z.max_r in D6 by lia.
  rewrite Ffp in D8. rewrite (pt_0 _ _ _ _ _ _ _ Pfp) in D11. rewrite (pt_2 _ _ _ _ _ _ _ Pfp) in D13. rewrite (pt_3 _ _ _ _ _ _ _ Pfp) in D14. cbn in D13, D14.
  rewrite (pt_og _ _ _ _ _ _ _ Pfp) in D9. rewrite (pt_dg _ _ _ _ _ _ _ Pfp eq_refl) in D10.
  assert (Wdv : wf dv).
  { destruct Wp. rewrite ?Po, ?Pd in *. constructor; rewrite ?D11, ?D12, ?D13, ?D14, ?D1, ?D3, ?D4, ?D5, ?D6; auto; try lia.
    rewrite (pt_vd _ _ _ _ _ _ _ Pfp) in wf_dev. auto. }
  assert (Nc : NoDup os_cols) by (apply NoDup_filter; auto).
  assert (Cn : os_cols <> []) by (intros E; assert (X : In (on_paid nm) os_cols) by (apply in_cols; auto); rewrite E in X; auto).
  destruct (getitem_cols_ok dv os_cols Wdv Nc Cn) as (ic & u & Eu & Pu & Vu & Nic & Ric).
  { intros c Hc. apply in_cols in Hc. rewrite D3. cbn. destruct Hc as [-> | ->]; auto. }
  assert (Lic : List.length ic = List.length os_cols). { rewrite <- Vu, (pk_v _ _ _ _ Pu). unfold sel. rewrite map_length. reflexivity. }
  pose proof (pk_wf _ _ _ _ Pu) as Wu.
  assert (Uk : kdims u = kdims t). { rewrite (pk_k _ _ _ _ Pu), D1. apply sel_seq_all. congruence. }
  assert (U0 : ax0 (values u) = ax0 (values t)) by (rewrite (pk_0 _ _ _ _ Pu), seq_length; auto).
  assert (U1 : ax1 (values u) = List.length os_cols) by (rewrite (pk_1 _ _ _ _ Pu); auto).
  assert (U2 : ax2 (values u) = n) by (rewrite (pk_2 _ _ _ _ Pu); auto).
  assert (U3 : ax3 (values u) = n) by (rewrite (pk_3 _ _ _ _ Pu); auto).
  assert (Uo : odims u = odims t) by (rewrite (pk_o _ _ _ _ Pu); auto). assert (Ud : ddims u = ddims t) by (rewrite (pk_d _ _ _ _ Pu); auto).
  assert (Uc : forall i c o d, i < ax0 (values t) -> c < List.length os_cols -> o < n -> d < n -> cel u i c o d = n2n (Some (os_full c i o d))).
  { intros i c o d Hi Hc Ho Hd. rewrite (pk_c _ _ _ _ Pu) by (rewrite ?D13, ?D14; auto). rewrite seq_nth by lia. cbn [Nat.add].
    assert (X : nth (nth c ic 0) [on_paid nm; on_incurred nm] EmptyString = nth c os_cols EmptyString).
    { rewrite <- Vu, (pk_v _ _ _ _ Pu), D3. unfold sel. symmetry. rewrite (nth_indep _ EmptyString (nth 0 [on_paid nm; on_incurred nm] EmptyString)) by (rewrite map_length; lia).
      rewrite (map_nth (fun i => nth i [on_paid nm; on_incurred nm] EmptyString)). reflexivity. }
    assert (Y : nth c ic 0 < 2). { specialize (Ric (nth c ic 0)). rewrite D3 in Ric. apply Ric, nth_In. lia. }
    unfold os_full. rewrite <- X. destruct (nth c ic 0) as [|[|k]]; [| |lia]; cbn [nth].
    - rewrite String.eqb_refl. specialize (Dc [] x [y] i 0 o d eq_refl ltac:(cbn; lia)). change (offset AxColumn [] + 0) with 0 in Dc. rewrite Dc. change (cel x i 0 o d) with (cel fp i 0 o d). apply Pfp; auto.
    - destruct (String.eqb_spec (on_incurred nm) (on_paid nm)); [congruence|]. specialize (Dc [x] y [] i 0 o d eq_refl ltac:(cbn; lia)).
      replace (offset AxColumn [x] + 0) with 1 in Dc by (cbn; lia). rewrite Dc. change (cel y i 0 o d) with (cel fi i 0 o d). apply Pfi; auto. }
  assert (Vdu : (vdate t <= vdate u <= ULT_VAL)%Z).
  { split; [|apply Wu]. pose proof (pk_fut _ _ _ _ Pu 0 (n - 1) ltac:(lia) ltac:(lia)) as F. rewrite D6 in F.
    replace (month_of dv 0 (n - 1)) with (month_of t 0 (n - 1)) in F by (unfold month_of; rewrite D4, D5; reflexivity).
    rewrite (square_month _ _ _ _ _ _ _ Q) in F by lia. rewrite (square_vdate _ _ _ _ _ Q) in *. cbn [Nat.add] in F.
    destruct (Z.ltb_spec (vdate u) (o0 + a0 - 1 + Z.of_nat h * Z.of_nat (n - 1))); [|lia]. symmetry in F. apply Z.ltb_lt in F. lia. }
  destruct (iloc_dev_int_ok u (n - 1) Wu ltac:(lia)) as (l & El & Cl). pose proof (cl_eq _ _ Cl) as Ql. pose proof (cl_wf _ _ Cl) as Wl. pose proof (cl_le _ _ Cl) as Ll. cbn [vdate sel_dev sel_tri] in Ll.
  assert (Vl : values l = values (sel_dev u [n - 1])) by (rewrite Ql; reflexivity).
  assert (L1 : ax0 (values l) = ax0 (values t)) by (rewrite Vl; cbn; rewrite seq_length; auto). assert (L2 : ax1 (values l) = List.length os_cols) by (rewrite Vl; cbn; rewrite seq_length; auto).
  assert (L3 : ax2 (values l) = n) by (rewrite Vl; cbn; rewrite seq_length; auto). assert (L4 : ax3 (values l) = 1) by (rewrite Vl; reflexivity).
  assert (Lk : kdims l = kdims u) by (rewrite Ql; cbn; apply sel_seq_all, Wu). assert (Lv : vdims l = os_cols) by (rewrite <- Vu, Ql; cbn; apply sel_seq_all, Wu). assert (Lo : odims l = odims u) by (rewrite Ql; cbn; apply sel_seq_all, Wu).
  assert (Lkl : key_labels l = key_labels u) by (rewrite Ql; reflexivity). assert (Log : ograin l = ograin u) by (rewrite Ql; reflexivity). assert (Ldg : dgrain l = dgrain u) by (rewrite Ql; reflexivity). assert (Lp : is_pattern l = is_pattern u) by (rewrite Ql; reflexivity).
  assert (C1 : 1 <= List.length os_cols) by (destruct os_cols; [congruence|cbn; lia]).
  assert (Bc : bcast l u).
  { constructor.
    - unfold shape_ok. pose proof (wf_k _ Wl). pose proof (wf_v _ Wl). pose proof (wf_o _ Wl). pose proof (wf_d _ Wl). repeat split; auto; lia.
    - unfold shape_ok. pose proof (wf_k _ Wu). pose proof (wf_v _ Wu). pose proof (wf_o _ Wu). pose proof (wf_d _ Wu). repeat split; auto; lia.
    - auto. - left; auto. - auto. - left; auto. - left; congruence. - left; auto. - right. right. rewrite <- (wf_d _ Wl). auto. }
  destruct (tri_op_bcast ODiv l u Bc) as (s & Es & Rs).
  assert (S0 : ax0 (values s) = ax0 (values t)) by (rewrite (br_0 _ _ _ _ Rs); lia). assert (S1 : ax1 (values s) = List.length os_cols) by (rewrite (br_1 _ _ _ _ Rs); lia).
  assert (S2 : ax2 (values s) = n) by (rewrite (br_2 _ _ _ _ Rs); lia). assert (S3 : ax3 (values s) = n) by (rewrite (br_3 _ _ _ _ Rs); lia).
  assert (Sk : kdims s = kdims t). { rewrite (br_k _ _ _ _ Rs). cbn. unfold pk. rewrite Lk, Uk. destruct (_ && _)%bool; reflexivity. }
  assert (Sv : vdims s = os_cols). { rewrite (br_v _ _ _ _ Rs). cbn. unfold pk. rewrite Lv, Vu. destruct (_ && _)%bool; reflexivity. }
  assert (So : odims s = odims t). { rewrite (br_o _ _ _ _ Rs). cbn. unfold pk. rewrite Lo, Uo. destruct (_ && _)%bool; reflexivity. }
  assert (Sd : ddims s = ddims t).
  { rewrite (br_d _ _ _ _ Rs). cbn. unfold pk. rewrite <- (wf_d _ Wl), <- (wf_d _ Wu), L4, U3. change (1 =? 1) with true. destruct (Nat.ltb_spec 1 n); [cbn [andb]; auto|lia]. }
  assert (Svd : vdate s = vdate u) by (rewrite (br_vd _ _ _ _ Rs); lia).
  assert (Sc : forall i c o d, i < ax0 (values t) -> c < List.length os_cols -> o < n -> d < n -> cel s i c o d = factor_at i c o d).
  { intros i c o d Hi Hc Ho Hd. rewrite (br_cell _ _ _ _ Rs). unfold bav. rewrite L1, L2, L3, L4, U0, U1, U2, U3. rewrite bidx_1. rewrite !bidx_lt by auto. cbn [cop].
    change (av (values u) i c o d) with (cel u i c o d). rewrite Uc by auto. rewrite Vl. cbn [sel_dev sel_tri values sel_arr av nth]. rewrite !seq_nth by lia. cbn [Nat.add].
    change (av (values u) i c o (n - 1)) with (cel u i c o (n - 1)). rewrite Uc by (auto; lia). reflexivity. }
  assert (Ws : wf s).
  { destruct Wu. constructor; rewrite ?S0, ?S1, ?S2, ?S3, ?Sk, ?Sv, ?So, ?Sd, ?Svd; auto; try lia; try congruence; rewrite ?Uo, ?Ud in *; auto. }
  destruct (iloc_dev_init s Ws ltac:(lia)) as (w & Ew & Cw). rewrite S3 in Cw. pose proof (cl_eq _ _ Cw) as Qw. pose proof (cl_wf _ _ Cw) as Ww.
  assert (Vw : values w = values (sel_dev s (seq 0 (n - 1)))) by (rewrite Qw; reflexivity).
  destruct (link_ratio_ok t W B Fp) as (lr & no & nd & Elr & _ & _ & _ & Dlr & _ & Hnd & _ & _ & _ & _ & _ & _ & Out).
  { exists 0, 0. split; [lia|]. split; [lia|]. assert (~ future t 0 1) by (rewrite (square_future _ _ _ _ _ _ _ Q) by lia; lia). unfold future in *. lia. }
  assert (N1 : nd = n - 1).
  { destruct (Nat.ltb_spec (n - 2) nd); [lia|]. exfalso. assert (F : future t 0 (S (n - 2))) by (apply Out; lia). rewrite (square_future _ _ _ _ _ _ _ Q) in F by lia. lia. }
  assert (Dl : ddims lr = Ages (agl h a0 0 (n - 1))).
  { rewrite Dlr, N1, (hyp t_ages). cbn [dmap]. f_equal. unfold agl. rewrite firstn_map. f_equal. replace n with ((n - 1) + 1) at 2 by lia. rewrite seq_app, firstn_app, seq_length, Nat.sub_diag, firstn_O, app_nil_r. apply firstn_all2. rewrite seq_length. lia. }
  set (g := set_cumulative (set_pattern (set_ddims (set_vdate w ULT_VAL) (ddims lr)) true) (Some true)).
  assert (G0 : ax0 (values g) = ax0 (values t)) by (change (ax0 (values w) = ax0 (values t)); rewrite Vw; cbn; rewrite seq_length; auto).
  assert (G1 : ax1 (values g) = List.length os_cols) by (change (ax1 (values w) = List.length os_cols); rewrite Vw; cbn; rewrite seq_length; auto).
  assert (G2 : ax2 (values g) = n) by (change (ax2 (values w) = n); rewrite Vw; cbn; rewrite seq_length; auto).
  assert (G3 : ax3 (values g) = n - 1) by (change (ax3 (values w) = n - 1); rewrite Vw; cbn; rewrite seq_length; auto).
  assert (Gk : kdims g = kdims t) by (change (kdims w = kdims t); rewrite <- Sk, Qw; cbn; apply sel_seq_all, Ws).
  assert (Gv : vdims g = os_cols) by (change (vdims w = os_cols); rewrite <- Sv, Qw; cbn; apply sel_seq_all, Ws).
  assert (Go : odims g = odims t) by (change (odims w = odims t); rewrite <- So, Qw; cbn; apply sel_seq_all, Ws).
  assert (Gkl : key_labels g = key_labels t). { change (key_labels w = key_labels t). rewrite Qw. change (key_labels s = key_labels t). rewrite (br_kl _ _ _ _ Rs), Lkl, (pk_kl _ _ _ _ Pu). auto. }
  assert (Gd : ddims g = Ages (agl h a0 0 (n - 1))) by exact Dl.
  assert (Gc : forall i c o d, i < ax0 (values t) -> c < List.length os_cols -> o < n -> d < n - 1 -> cel g i c o d = factor_at i c o d).
  { intros i c o d Hi Hc Ho Hd. change (cel g i c o d) with (cel w i c o d). unfold cel. rewrite Vw. cbn [sel_dev sel_tri values sel_arr av]. rewrite !seq_nth by lia. cbn [Nat.add]. apply Sc; auto; lia. }
  assert (Wg : wf g).
  { pose proof (wf_dev _ W) as Dv. rewrite (hyp t_ages) in Dv. destruct Dv as (Dv1 & Dv2 & Dv3).
    assert (IA : forall z, In z (agl h a0 0 (n - 1)) -> In z (agl h a0 0 n)). { unfold agl. intros z Hz. apply in_map_iff in Hz. destruct Hz as (k & <- & Hk). apply in_seq in Hk. apply in_map_iff. exists k. split; auto. apply in_seq. lia. }
    constructor; rewrite ?G0, ?G1, ?G2, ?G3, ?Gk, ?Gv, ?Go, ?Gd; auto; try lia; try apply W; cbn [dlist].
    - rewrite agl_len. auto.
    - unfold agl. apply sorted_seq. intros. nia.
    - change (vdate g) with ULT_VAL. lia.
    - change (vdate g) with ULT_VAL. split; [intros; apply Dv1; auto|]. split; [intros o Ho; specialize (Dv2 o Ho); lia|]. intros o a Ho Ha. apply Dv3; auto. }
  assert (Pg : pattern_shape g).
  { right. intros o d Ho Hd F. rewrite G2 in Ho. rewrite G3 in Hd. unfold future in F. change (vdate g) with ULT_VAL in F.
    replace (month_of g o d) with (month_of t o d) in F. { rewrite (square_month _ _ _ _ _ _ _ Q) in F by lia. unfold last_month in *. nia. }
    unfold month_of. rewrite Go, Gd, (hyp t_ages). unfold age_month, agl. rewrite !nth_seq_map by lia. reflexivity. }
  destruct (cdf_to_ldf_cell g Wg eq_refl ltac:(discriminate) Pg ltac:(lia)) as (r & Er & Fr & Rc & Rp & Cr).
  exists r. split. { unfold os_factors. fold os_cols. fold x y. rewrite Edv. cbn [rbind]. rewrite Eu. cbn [rbind]. rewrite (iloc_dev_int_last u Wu) by lia. rewrite U3, El. cbn [rbind]. rewrite Es. cbn [rbind]. rewrite Ew. cbn [rbind]. rewrite Elr. cbn [rbind]. exact Er. }
  split; [eapply wf_same_frame; eauto|]. split; [rewrite (sf_k _ _ Fr); auto|]. split; [rewrite (sf_kl _ _ Fr); auto|]. split; [rewrite (sf_v _ _ Fr); auto|]. split; [rewrite (sf_o _ _ Fr); auto|]. split; [rewrite (sf_d _ _ Fr); auto|].
  split; [rewrite (sf_vd _ _ Fr); auto|]. split; [auto|]. split; [auto|]. split; [rewrite (sf_0 _ _ Fr); auto|]. split; [rewrite (sf_1 _ _ Fr); auto|]. split; [rewrite (sf_2 _ _ Fr); auto|]. split; [rewrite (sf_3 _ _ Fr); auto|].
  intros i c o d Hi Hc Ho Hd. rewrite Cr by (unfold in_range; lia). rewrite G3. destruct (Nat.ltb_spec (S d) (n - 1)); rewrite !Gc by (auto; lia); reflexivity.
Qed.
End Out.
