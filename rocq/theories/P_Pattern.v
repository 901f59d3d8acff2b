(** Proofs for C05 (age-to-age factors and cumulative factors). *)
From Coq Require Import Lia Sorted.
From Verif Require Export P_Core.
Local Open Scope Z_scope.

Lemma factor_ne x : factor x <> 0%Qc.
Proof. unfold factor. destruct (Qc_eqb_spec (nz x) 0%Qc); auto. discriminate. Qed.
Lemma n2v_factor x : n2v 1%Qc (Some (nz x)) = Some (factor x).
Proof. unfold n2v, factor. destruct (Qc_eqb (nz x) 0%Qc); auto. Qed.
Lemma factor_Some q : q <> 0%Qc -> factor (Some q) = q.
Proof. intros H. unfold factor. cbn [nz]. destruct (Qc_eqb_spec q 0%Qc); congruence. Qed.

Lemma nan_triangle_one t o d : wf t -> pattern_shape t -> (o < ax2 (values t))%nat -> (d < ax3 (values t))%nat ->
  nan_triangle t o d = Some 1%Qc.
Proof.
  intros W H Ho Hd. rewrite nan_triangle_cases by auto.
  destruct (Nat.eqb_spec (Nat.min (ax2 (values t)) (ax3 (values t))) 1) as [E|E]; auto.
  destruct H as [H|H]; [pose proof (wf_d1 _ W); lia|]. specialize (H o d Ho Hd). unfold future in H.
  destruct (Z.ltb_spec (vdate t) (month_of t o d)); [lia|reflexivity].
Qed.

Lemma ldf_to_cdf_cell t : wf t -> is_pattern t = true -> is_cumulative t <> Some true -> pattern_shape t ->
  same_frame t (incr_to_cum t) /\ is_cumulative (incr_to_cum t) = Some true /\ is_pattern (incr_to_cum t) = true /\
  forall i c o d, in_range t i c o d ->
    cel (incr_to_cum t) i c o d = Some (prodn (ax3 (values t) - d) (fun k => factor (cel t i c o (d + k)%nat))).
Proof.
  intros W Hp Hc Hs. unfold incr_to_cum. rewrite Hp.
  assert (E : forall A (x y : A), match is_cumulative t with Some true => x | _ => y end = y).
  { intros A x y. destruct (is_cumulative t) as [[|]|]; congruence. }
  rewrite E. split; [constructor; reflexivity|]. split; [reflexivity|]. split; [exact Hp|].
  intros i c o d (Ri & Rc & Ro & Rd). unfold cel. cbn [set_cumulative set_values values av].
  rewrite nan_triangle_one by auto. cbn [cmul]. rewrite Qcmult_1_r. f_equal.
  apply prodn_ext. intros k Hk. rewrite n2v_factor. reflexivity.
Qed.

Lemma cdf_to_ldf_cell t : wf t -> is_pattern t = true -> is_cumulative t <> Some false -> pattern_shape t ->
  (2 <= ax3 (values t))%nat ->
  exists u, cum_to_incr t = Ok u /\ same_frame t u /\ is_cumulative u = Some false /\ is_pattern u = true /\
  forall i c o d, in_range t i c o d ->
    cel u i c o d = if (S d <? ax3 (values t))%nat
                    then Some (factor (cel t i c o d) / factor (cel t i c o (S d)))%Qc
                    else Some (factor (cel t i c o d)).
Proof.
  intros W Hp Hc Hs Hn. unfold cum_to_incr. rewrite Hp.
  assert (E : forall A (x y : A), match is_cumulative t with Some false => x | _ => y end = y).
  { intros A x y. destruct (is_cumulative t) as [[|]|]; congruence. }
  rewrite E. clear E.
  set (t1 := set_values t _).
  assert (W1 : wf t1) by (apply wf_set_values; auto).
  set (n := ax3 (values t)) in *.
  assert (N1 : ax3 (values t1) = n) by reflexivity.
  destruct (iloc_dev_init t1 W1 Hn) as (hi & -> & Chi). cbn [rbind].
  destruct (iloc_dev_tail t1 W1 Hn) as (lo & -> & Clo). cbn [rbind]. rewrite N1 in Chi, Clo.
  pose proof (cl_eq _ _ Chi) as Ehi. pose proof (cl_eq _ _ Clo) as Elo.
  assert (Vhi : values hi = values (sel_dev t1 (seq 0 (n - 1)))) by (rewrite Ehi; reflexivity).
  assert (Vlo : values lo = values (sel_dev t1 (seq 1 (n - 1)))) by (rewrite Elo; reflexivity).
  unfold div_arr.
  destruct (bmap2_same cdiv (values hi) (values lo)) as (v & -> & D0 & D1 & D2 & D3 & Dv);
    try (rewrite Vhi, Vlo; cbn; rewrite ?seq_length; reflexivity).
  cbn [rbind]. rewrite (iloc_dev_int_last t1 W1) by (rewrite N1; lia). rewrite N1.
  destruct (iloc_dev_int_ok t1 (n - 1) W1) as (ls & -> & Cls); [rewrite N1; lia|]. cbn [rbind].
  pose proof (cl_eq _ _ Cls) as Els.
  assert (L0 : ax0 v = ax0 (values t)) by (rewrite D0, Vhi; cbn; apply seq_length).
  assert (L1 : ax1 v = ax1 (values t)) by (rewrite D1, Vhi; cbn; apply seq_length).
  assert (L2 : ax2 v = ax2 (values t)) by (rewrite D2, Vhi; cbn; apply seq_length).
  assert (L3 : ax3 v = (n - 1)%nat) by (rewrite D3, Vhi; cbn; apply seq_length).
  assert (Hall : seq 0 n = seq 0 (n - 1) ++ [(n - 1)%nat]).
  { replace n with (S (n - 1)) at 1 by lia. rewrite seq_S. reflexivity. }
  set (diff := set_values hi v).
  assert (Ed : ddim_app (ddims diff) (ddims ls) = Ok (ddims t)).
  { unfold diff. rewrite Els, Ehi. cbn [set_values set_vdate ddims sel_dev sel_tri].
    rewrite ddim_app_sel, <- Hall. rewrite dmap_sel_all; [reflexivity|]. apply W. }
  rewrite (concat_dev2 diff ls (ddims t)); auto.
  - cbn [rbind]. set (r := set_vdate _ (Z.max _ _)).
    assert (R0 : ax0 (values r) = ax0 (values t)) by (cbn; auto).
    assert (R1 : ax1 (values r) = ax1 (values t)) by (cbn; auto).
    assert (R2 : ax2 (values r) = ax2 (values t)) by (cbn; auto).
    assert (Vls : ax3 (values ls) = 1%nat) by (rewrite Els; reflexivity).
    assert (R3 : ax3 (values r) = n) by (cbn; rewrite L3, Vls; lia).
    assert (Rk : kdims r = kdims t) by (cbn; rewrite Ehi; cbn; apply sel_seq_all; apply W).
    assert (Rv : vdims r = vdims t) by (cbn; rewrite Ehi; cbn; apply sel_seq_all; apply W).
    assert (Ro : odims r = odims t) by (cbn; rewrite Ehi; cbn; apply sel_seq_all; apply W).
    assert (Rd : ddims r = ddims t) by reflexivity.
    assert (Hvle : vdate r <= vdate t).
    { change (Z.max (vdate ls) (vdate hi) <= vdate t).
      pose proof (cl_le _ _ Cls). pose proof (cl_le _ _ Chi). cbn in H, H0. lia. }
    assert (Wr : wf r).
    { pose proof (wf_dev _ W) as Hw. pose proof (wf_vd _ W).
      constructor; rewrite ?R0, ?R1, ?R2, ?R3, ?Rk, ?Rv, ?Ro, ?Rd; try apply W; try lia.
      pose proof (cl_wf _ _ Cls) as Wls. pose proof (wf_dev _ Wls) as Hls.
      assert (Eo : odims ls = odims t) by (rewrite Els; cbn; apply sel_seq_all; apply W).
      assert (Edl : ddims ls = dmap (fun l => sel l 0 [(n - 1)%nat]) (ddims t)) by (rewrite Els; reflexivity).
      rewrite Eo, Edl in Hls.
      destruct (ddims t) as [l|l]; cbn [dmap] in *; auto. destruct Hw as (H1 & H2 & H3). split; [|split]; auto.
      intros o Ho. destruct Hls as (_ & Hls & _). specialize (Hls o Ho).
      change (o <= Z.max (vdate ls) (vdate hi)). lia. }
    assert (Hmon : forall o d, month_of r o d = month_of t o d) by (intros; unfold month_of; rewrite Rd, Ro; reflexivity).
    assert (Hps : pattern_shape r).
    { destruct Hs as [Hs|Hs]; [left; congruence|]. right. intros o d Ho Hd. unfold future. rewrite Hmon.
      rewrite R2 in Ho. rewrite R3 in Hd. specialize (Hs o d Ho Hd). unfold future in Hs.
      change (vdate r) with (Z.max (vdate ls) (vdate hi)).
      destruct (Nat.eq_dec d (n - 1)) as [->|Hne].
      - pose proof (clipped_dev_fut t1 _ _ o 0%nat Cls Ho) as Hf. cbn [List.length nth] in Hf. specialize (Hf ltac:(lia)).
        change (month_of t1 o (n - 1)) with (month_of t o (n - 1)) in Hf. change (vdate t1) with (vdate t) in Hf.
        destruct (Z.ltb_spec (vdate ls) (month_of t o (n - 1))), (Z.ltb_spec (vdate t) (month_of t o (n - 1))); try discriminate; lia.
      - pose proof (clipped_dev_fut t1 _ _ o d Chi Ho) as Hf. rewrite seq_length, seq_nth in Hf by lia. specialize (Hf ltac:(lia)).
        change (month_of t1 o (0 + d)) with (month_of t o d) in Hf. change (vdate t1) with (vdate t) in Hf.
        destruct (Z.ltb_spec (vdate hi) (month_of t o d)), (Z.ltb_spec (vdate t) (month_of t o d)); try discriminate; lia. }
    eexists; split; [reflexivity|]. split.
    { constructor; try assumption; try reflexivity; cbn [set_vdate set_cumulative set_values kdims key_labels ograin dgrain];
        unfold r, diff; rewrite Ehi; reflexivity. }
    split; [reflexivity|]. split.
    { cbn. rewrite Ehi. exact Hp. }
    intros i c o d (Ri & Rc & Roo & Rdd).
    unfold cel at 1. cbn [set_vdate set_cumulative set_values values av].
    rewrite nan_triangle_one; [|exact Wr|exact Hps|rewrite R2; auto|rewrite R3; auto].
    unfold r, diff. cbn [set_vdate set_values values cat2 av]. rewrite L3.
    destruct (Nat.ltb_spec d (n - 1)) as [L|L].
    + destruct (Nat.ltb_spec (S d) n); [|lia].
      rewrite Dv; [|rewrite <- D0, L0; auto|rewrite <- D1, L1; auto|rewrite <- D2, L2; auto|rewrite <- D3, L3; auto].
      rewrite Vhi, Vlo. cbn [values sel_dev sel_tri sel_arr av t1 set_values map_arr ax0 ax1 ax2].
      rewrite !seq_nth by auto. rewrite !n2v_factor. cbn [Nat.add].
      rewrite cdiv_Some by apply factor_ne. cbn [cmul]. rewrite Qcmult_1_r. reflexivity.
    + destruct (Nat.ltb_spec (S d) n); [lia|]. assert (d = n - 1)%nat by (fold n in Rdd; lia). subst d.
      rewrite Els. rewrite Nat.sub_diag. cbn [set_vdate values sel_dev sel_tri sel_arr av t1 set_values map_arr ax0 ax1 ax2 nth].
      rewrite !seq_nth by auto. rewrite n2v_factor. cbn [Nat.add cmul]. rewrite Qcmult_1_r. reflexivity.
  - unfold diff. rewrite Els, Ehi. reflexivity.
  - unfold diff. rewrite Els, Ehi. reflexivity.
  - unfold diff. rewrite Els, Ehi. reflexivity.
  - apply sorted_NoDup, W.
  - rewrite Els. cbn. rewrite seq_length. auto.
  - rewrite Els. cbn. rewrite seq_length. auto.
  - rewrite Els. cbn. rewrite seq_length. auto.
Qed.

Lemma pattern_same_frame t u : same_frame t u -> pattern_shape t -> pattern_shape u.
Proof.
  intros F [H|H]; [left; rewrite (sf_2 _ _ F); auto|]. right. intros o d Ho Hd.
  rewrite (sf_2 _ _ F) in Ho. rewrite (sf_3 _ _ F) in Hd. rewrite (future_same_frame t u); auto.
Qed.

Lemma ldf_cdf_ldf t : wf t -> is_pattern t = true -> is_cumulative t <> Some true -> pattern_shape t ->
  (2 <= ax3 (values t))%nat ->
  exists u, cum_to_incr (incr_to_cum t) = Ok u /\ same_frame t u /\ is_cumulative u = Some false /\
    forall i c o d, in_range t i c o d -> cel u i c o d = Some (factor (cel t i c o d)).
Proof.
  intros W Hp Hc Hs Hn. destruct (ldf_to_cdf_cell t W Hp Hc Hs) as (F & Fc & Fp & Hcell).
  destruct (cdf_to_ldf_cell (incr_to_cum t)) as (u & Eu & Fu & Uc & Up & Ucell).
  - eapply wf_same_frame; eauto.
  - exact Fp.
  - congruence.
  - eapply pattern_same_frame; eauto.
  - rewrite (sf_3 _ _ F); auto.
  - exists u. split; [exact Eu|]. split; [eapply same_frame_trans; eauto|]. split; [exact Uc|].
    intros i c o d R. rewrite Ucell by (apply (range_same_frame t); auto). rewrite (sf_3 _ _ F).
    pose proof R as (Ri & Rc & Ro & Rd).
    assert (Ne : forall a b, prodn a (fun k => factor (cel t i c o (b + k)%nat)) <> 0%Qc).
    { intros a b. apply prodn_ne. intros; apply factor_ne. }
    rewrite (Hcell i c o d R). rewrite factor_Some by apply Ne.
    destruct (Nat.ltb_spec (S d) (ax3 (values t))) as [L|L].
    + rewrite (Hcell i c o (S d)) by (repeat split; auto). rewrite factor_Some by apply Ne. f_equal.
      replace (ax3 (values t) - d)%nat with (S (ax3 (values t) - S d)) by lia.
      rewrite prodn_S_l. rewrite Nat.add_0_r.
      rewrite (prodn_ext _ (fun i0 => factor (cel t i c o (d + S i0)%nat)) (fun k => factor (cel t i c o (S d + k)%nat)))
        by (intros; do 2 f_equal; lia).
      field. apply Ne.
    + replace (ax3 (values t) - d)%nat with 1%nat by lia. f_equal. cbn [prodn]. rewrite Nat.add_0_r. ring.
Qed.

Lemma cdf_ldf_cdf t : wf t -> is_pattern t = true -> is_cumulative t <> Some false -> pattern_shape t ->
  (2 <= ax3 (values t))%nat ->
  exists u, cum_to_incr t = Ok u /\ same_frame t (incr_to_cum u) /\ is_cumulative (incr_to_cum u) = Some true /\
    forall i c o d, in_range t i c o d -> cel (incr_to_cum u) i c o d = Some (factor (cel t i c o d)).
Proof.
  intros W Hp Hc Hs Hn. destruct (cdf_to_ldf_cell t W Hp Hc Hs Hn) as (u & Eu & F & Uc & Up & Ucell).
  destruct (ldf_to_cdf_cell u) as (Fu & Fc & Fp & Hcell).
  - eapply wf_same_frame; eauto.
  - exact Up.
  - congruence.
  - eapply pattern_same_frame; eauto.
  - exists u. split; [exact Eu|]. split; [eapply same_frame_trans; eauto|]. split; [exact Fc|].
    intros i c o d R. rewrite Hcell by (apply (range_same_frame t); auto). rewrite (sf_3 _ _ F).
    pose proof R as (Ri & Rc & Ro & Rd). f_equal.
    assert (G : forall k e, (e + S k = ax3 (values t))%nat ->
              prodn (S k) (fun j => factor (cel u i c o (e + j)%nat)) = factor (cel t i c o e)).
    { induction k as [|k IH]; intros e He.
      - cbn [prodn]. rewrite Nat.add_0_r. rewrite Ucell by (repeat split; auto; lia).
        destruct (Nat.ltb_spec (S e) (ax3 (values t))); [lia|]. rewrite factor_Some by apply factor_ne. ring.
      - rewrite prodn_S_l. rewrite Nat.add_0_r.
        rewrite (prodn_ext _ (fun j => factor (cel u i c o (e + S j)%nat)) (fun j => factor (cel u i c o (S e + j)%nat)))
          by (intros; do 2 f_equal; lia).
        rewrite IH by lia. rewrite Ucell by (repeat split; auto; lia).
        destruct (Nat.ltb_spec (S e) (ax3 (values t))); [|lia].
        rewrite factor_Some.
        + field. apply factor_ne.
        + intros E0. apply (factor_ne (cel t i c o e)).
          replace (factor (cel t i c o e)) with (factor (cel t i c o e) / factor (cel t i c o (S e)) * factor (cel t i c o (S e)))%Qc
            by (field; apply factor_ne). rewrite E0. ring. }
    replace (ax3 (values t) - d)%nat with (S (ax3 (values t) - S d)) by lia. apply G. lia.
Qed.
