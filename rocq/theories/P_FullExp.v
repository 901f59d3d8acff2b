(** The full expectation: ultimates divided by cumulative factors. *)
From Coq Require Import Lia Sorted.
From Verif Require Export P_CL SpecFull.
Local Open Scope Z_scope.

Lemma stores_cdiv x q f : stores x q -> f <> 0%Qc -> stores (cdiv x (Some f)) (q / f)%Qc.
Proof.
  intros [X1 X2] F. split; intros H.
  - destruct (Qc_eqb_spec q 0%Qc) as [E|E]; [rewrite (X1 E); reflexivity|]. exfalso. apply E. replace q with (q / f * f)%Qc by (field; auto). rewrite H. ring.
  - assert (E : q <> 0%Qc) by (intros ->; apply H; field; auto). rewrite (X2 E). cbn. destruct (Qc_eqb_spec f 0%Qc); [contradiction|reflexivity].
Qed.
Lemma sel_dev_frame f d : wf f -> let s := sel_dev f [d] in
  kdims s = kdims f /\ key_labels s = key_labels f /\ vdims s = vdims f /\ odims s = odims f /\ ddims s = dmap (fun l => [nth d l 0]) (ddims f) /\ vdate s = vdate f /\
  ograin s = ograin f /\ dgrain s = dgrain f /\ is_cumulative s = is_cumulative f /\ is_pattern s = is_pattern f /\
  ax0 (values s) = ax0 (values f) /\ ax1 (values s) = ax1 (values f) /\ ax2 (values s) = ax2 (values f) /\ ax3 (values s) = 1%nat /\
  forall i c o, (i < ax0 (values f))%nat -> (c < ax1 (values f))%nat -> (o < ax2 (values f))%nat -> av (values s) i c o 0%nat = cel f i c o d.
Proof.
  intros W s. subst s. unfold sel_dev, sel_tri, sel_arr. cbn [kdims key_labels vdims odims ddims vdate ograin dgrain is_cumulative is_pattern values ax0 ax1 ax2 ax3 av].
  rewrite !seq_length. rewrite (wf_k _ W), (wf_v _ W), (wf_o _ W), !sel_seq_all by reflexivity. repeat (split; [reflexivity|]).
  intros i c o Hi Hc Ho. rewrite !seq_nth by auto. reflexivity.
Qed.
Section Full.
Variables t l u : tri.
Hypothesis Wt : wf t.
Hypothesis T0 : (1 <= ax0 (values t))%nat.
Hypothesis T1 : (1 <= ax1 (values t))%nat.
Hypothesis PF : pattern_for t l.
Hypothesis UF : ultimate_frame t u.
Hypothesis L2 : (2 <= ax3 (values l))%nat.
Hypothesis PJ : projectable t l.
Let Wl := pf_wf _ _ PF.

Lemma full_0 : ax0 (values l) = ax0 (values t).
Proof. rewrite (wf_k _ Wl), (wf_k _ Wt), (pf_k _ _ PF). reflexivity. Qed.
Lemma full_1 : ax1 (values l) = ax1 (values t).
Proof. rewrite (wf_v _ Wl), (wf_v _ Wt), (pf_v _ _ PF). reflexivity. Qed.
Lemma full_ok : exists f, tri_op ODiv u (cdf_of l) = Ok f /\ wf f /\ no_future f /\
  kdims f = kdims t /\ key_labels f = key_labels t /\ vdims f = vdims t /\ odims f = odims t /\ ddims f = ddims l /\ vdate f = ULT_VAL /\
  is_cumulative f = Some true /\ is_pattern f = false /\ ograin f = ograin t /\ dgrain f = dgrain t /\
  ax0 (values f) = ax0 (values t) /\ ax1 (values f) = ax1 (values t) /\ ax2 (values f) = ax2 (values t) /\ ax3 (values f) = ax3 (values l) /\
  forall i c o d, (i < ax0 (values t))%nat -> (c < ax1 (values t))%nat -> (o < ax2 (values t))%nat -> (d < ax3 (values l))%nat ->
    cel f i c o d = cdiv (cel u i c o 0%nat) (Some (to_ultimate l i c d)).
Proof.
  destruct (ldf_to_cdf_cell l Wl (pf_pat _ _ PF) (pf_cum _ _ PF)) as (F & Fc & Fp & Hcell); [left; apply (pf_2 t l PF)|].
  unfold cdf_of. set (m := incr_to_cum l) in *.
  pose proof full_0 as P0. pose proof full_1 as P1. pose proof (pf_2 t l PF) as P2.
  pose proof (wf_o1 _ Wt) as T2.
  pose proof (wf_k _ Wt) as Tk. pose proof (wf_v _ Wt) as Tv. pose proof (wf_o _ Wt) as To.
  pose proof (wf_k _ Wl) as Lk. pose proof (wf_v _ Wl) as Lv. pose proof (wf_o _ Wl) as Lo. pose proof (wf_d _ Wl) as Ld.
  destruct F as [Mk Mkl Mv Mo Md Mvd Mog Mdg M0 M1 M2 M3]. destruct UF as [Uk Ukl Uv Uo Ud Uvd Ucum Upat Uog Udg U0 U1 U2 U3].
  assert (Su : shape_ok u) by (unfold shape_ok; rewrite Uk, Uv, Uo, Ud; cbn [dlist List.length]; lia).
  assert (Sm : shape_ok m) by (unfold shape_ok; rewrite Mk, Mv, Mo, Md; lia).
  assert (B : bcast u m).
  { constructor; auto; unfold bc.
    - rewrite Mog, Uog. apply PF.
    - rewrite Mkl, Ukl. apply PF.
    - left. rewrite Mk, Uk. apply PF.
    - left. rewrite Mv, Uv. apply PF.
    - right. left. rewrite Mo, (pf_o _ _ PF). reflexivity.
    - right. right. rewrite Ud. reflexivity. }
  destruct (tri_op_bcast ODiv u m B) as (f & Ef & R). exists f. split; [exact Ef|].
  pose proof (br_0 _ _ _ _ R) as R0. pose proof (br_1 _ _ _ _ R) as R1. pose proof (br_2 _ _ _ _ R) as R2. pose proof (br_3 _ _ _ _ R) as R3.
  pose proof (br_k _ _ _ _ R) as Rk. pose proof (br_v _ _ _ _ R) as Rv. pose proof (br_o _ _ _ _ R) as Ro. pose proof (br_d _ _ _ _ R) as Rd.
  unfold bframe in Rk, Rv, Ro, Rd. cbn [kdims vdims odims ddims] in *.
  rewrite pk_keep in Rk by (left; rewrite Mk, Uk, (pf_k _ _ PF); reflexivity).
  rewrite pk_keep in Rv by (left; rewrite Mv, Uv, (pf_v _ _ PF); reflexivity).
  rewrite pk_keep in Ro by (right; rewrite Mo, (pf_o _ _ PF); reflexivity).
  assert (Pk : forall A (a b : A), pk (List.length (dlist (ddims u))) (List.length (dlist (ddims m))) a b = b).
  { intros A a b. unfold pk. rewrite Ud, Md, <- Ld. cbn [dlist List.length Nat.eqb andb]. destruct (Nat.ltb_spec 1 (ax3 (values l))); [reflexivity|lia]. }
  rewrite Pk in Rd.
  assert (Vd : vdate f = ULT_VAL) by (rewrite (br_vd _ _ _ _ R), Uvd, Mvd, (pf_vd _ _ PF); lia).
  assert (Dg : dgrain f = dgrain t) by (rewrite (br_dg _ _ _ _ R); unfold bframe; cbn [dgrain]; rewrite Pk, Mdg; apply PF).
  destruct (pf_d _ _ PF) as (xs & more & Ex & El).
  assert (Hy : ddims f = Ages (xs ++ more)) by congruence.
  assert (Wf : wf f).
  { constructor.
    - rewrite Rk, R0, Uk. lia.
    - rewrite Rv, R1, Uv. lia.
    - rewrite Ro, R2, Uo. lia.
    - rewrite Rd, R3, Md. lia.
    - lia.
    - lia.
    - rewrite Ro, Uo. apply Wt.
    - rewrite Rd, Md. apply Wl.
    - rewrite Vd. lia.
    - rewrite Hy, Ro, Uo, Vd. pose proof (wf_dev _ Wl) as Wd. rewrite El in Wd. split; [apply Wd|].
      destruct (PJ _ El) as (_ & Pj). pose proof (wf_dev _ Wt) as Wd'. rewrite Ex in Wd'. destruct Wd' as (_ & Wo & _). pose proof (wf_vd _ Wt).
      split; [intros o Ho; specialize (Wo o Ho); lia|]. intros o a Ho Ha _. apply Pj; auto. }
  split; [exact Wf|]. split.
  { intros o d Ho Hd. unfold future, month_of. rewrite Hy, Vd. unfold age_month. destruct (PJ _ El) as (P9 & Pj).
    assert (Ha : In (nth d (xs ++ more) 0) (xs ++ more)) by (apply nth_In; pose proof (wf_d _ Wf) as X; rewrite Hy in X; cbn in X; lia).
    specialize (P9 _ Ha). destruct (Z.eqb_spec (nth d (xs ++ more) 0) 9999); [lia|].
    assert (Hin : In (nth o (odims f) 0) (odims t)) by (rewrite Ro, Uo; apply nth_In; rewrite <- To; lia). specialize (Pj _ _ Hin Ha). lia. }
  split; [congruence|]. split; [rewrite (br_kl _ _ _ _ R); congruence|]. split; [congruence|]. split; [congruence|]. split; [congruence|]. split; [exact Vd|].
  split; [rewrite (br_cum _ _ _ _ R); exact Ucum|]. split; [rewrite (br_pat _ _ _ _ R), Upat; reflexivity|]. split; [rewrite (br_og _ _ _ _ R); congruence|]. split; [exact Dg|].
  split; [lia|]. split; [lia|]. split; [lia|]. split; [lia|].
  intros i c o d Hi Hc Ho Hd. rewrite (br_cell _ _ _ _ R). cbn [cop]. f_equal.
  - unfold bav. rewrite U3, bidx_1, !bidx_lt by lia. reflexivity.
  - unfold bav. rewrite M2, P2, bidx_1, !bidx_lt by lia. change (av (values m)) with (cel m). rewrite Hcell; [reflexivity|]. unfold in_range. lia.
Qed.

Lemma full_ages : exists xs, ddims l = Ages xs /\ NoDup (xs ++ [9999]) /\ List.length xs = ax3 (values l).
Proof.
  destruct (pf_d _ _ PF) as (xs & more & _ & El). exists (xs ++ more). split; [exact El|]. split.
  - apply sorted_NoDup, sorted_snoc; [|intros a Ha; apply (PJ _ El); auto]. pose proof (wf_dsort _ Wl) as X. rewrite El in X. exact X.
  - pose proof (wf_d _ Wl) as X. rewrite El in X. cbn in X. lia.
Qed.

(** ** Cumulative *)
Lemma full_cumulative : exists r, full_expectation (cdf_of l) u true = Ok r /\ runoff_frame t l r true /\
  forall i c o, (i < ax0 (values t))%nat -> (c < ax1 (values t))%nat -> (o < ax2 (values t))%nat ->
    cel r i c o (ax3 (values l)) = cel u i c o 0%nat /\
    forall d, (d < ax3 (values l))%nat -> cel r i c o d = cdiv (cel u i c o 0%nat) (Some (to_ultimate l i c d)).
Proof.
  destruct full_ok as (f & Ef & Wf & Nf & Fk & Fkl & Fv & Fo & Fd & Fvd & Fcum & Fpat & Fog & Fdg & F0 & F1 & F2 & F3 & Fc).
  destruct full_ages as (xs & El & Nd & Lx).
  unfold full_expectation. rewrite Ef. cbn [rbind]. destruct UF as [Uk Ukl Uv Uo Ud Uvd Ucum Upat Uog Udg U0 U1 U2 U3].
  rewrite (concat_dev2 f (with_age u ULT_AGE) (Ages (xs ++ [9999]))); cbn [with_age set_ddims set_dims kdims vdims odims ddims values]; try congruence; auto.
  2: { rewrite Fd, El. reflexivity. }
  eexists; split; [reflexivity|]. split.
  - constructor; cbn [set_vdate set_values with_age set_ddims set_dims kdims key_labels vdims odims ddims vdate is_cumulative is_pattern ograin dgrain values cat2 ax0 ax1 ax2 ax3]; try congruence; auto.
    + rewrite El. reflexivity.
    + rewrite Uvd, Fvd. lia.
    + rewrite F3, U3. cbn [with_age set_ddims set_dims values]. rewrite ?U3. lia.
  - intros i c o Hi Hc Ho. unfold cel at 1. cbn [set_vdate set_values with_age set_ddims set_dims values cat2 av]. split.
    + rewrite F3. destruct (Nat.ltb_spec (ax3 (values l)) (ax3 (values l))); [lia|]. rewrite Nat.sub_diag. reflexivity.
    + intros d Hd. unfold cel at 1. cbn [set_vdate set_values with_age set_ddims set_dims values cat2 av]. rewrite F3. destruct (Nat.ltb_spec d (ax3 (values l))); [|lia]. apply Fc; auto.
Qed.

(** ** Incremental *)
Lemma full_incremental : exists r, full_expectation (cdf_of l) u false = Ok r /\ runoff_frame t l r false /\
  forall i c o x, (i < ax0 (values t))%nat -> (c < ax1 (values t))%nat -> (o < ax2 (values t))%nat -> stores (cel u i c o 0%nat) x ->
    stores (cel r i c o (ax3 (values l))) (x / to_ultimate l i c (ax3 (values l) - 1) - x)%Qc /\
    stores (cel r i c o 0%nat) (x / to_ultimate l i c 0)%Qc /\
    forall d, (S d < ax3 (values l))%nat -> stores (cel r i c o (S d)) (x / to_ultimate l i c (S d) - x / to_ultimate l i c d)%Qc.
Proof.
  destruct full_ok as (f & Ef & Wf & Nf & Fk & Fkl & Fv & Fo & Fd & Fvd & Fcum & Fpat & Fog & Fdg & F0 & F1 & F2 & F3 & Fc).
  destruct full_ages as (xs & El & Nd & Lx).
  unfold full_expectation. rewrite Ef. cbn [rbind]. destruct UF as [Uk Ukl Uv Uo Ud Uvd Ucum Upat Uog Udg U0 U1 U2 U3].
  rewrite iloc_dev_int_last by (auto; lia).
  destruct (iloc_dev_int_ok f (ax3 (values f) - 1) Wf) as (z & Ez & Cz); [lia|]. rewrite Ez. cbn [rbind].
  pose proof (wf_k _ Wt) as Tk. pose proof (wf_v _ Wt) as Tv. pose proof (wf_o _ Wt) as To. pose proof (wf_o1 _ Wt) as T2.
  pose proof (wf_k _ Wf) as Fk'. pose proof (wf_v _ Wf) as Fv'. pose proof (wf_o _ Wf) as Fo'. pose proof (wf_d _ Wf) as Fd'.
  destruct (sel_dev_frame f (ax3 (values f) - 1) Wf) as (Zk & Zkl & Zv & Zo & Zd & Zvd & Zog & Zdg & Zcum & Zpat & Z0 & Z1 & Z2 & Z3 & Zc).
  pose proof (cl_eq _ _ Cz) as Eq. pose proof (cl_le _ _ Cz) as Le. set (s := sel_dev f [(ax3 (values f) - 1)%nat]) in *.
  assert (N : narrow z u).
  { rewrite Eq. constructor; cbn [set_vdate kdims key_labels vdims odims ddims values ograin dgrain]; try congruence; try (left; congruence).
    - unfold shape_ok. cbn [set_vdate kdims key_labels vdims odims ddims values ograin dgrain]. rewrite Zk, Zv, Zo, Zd, Z0, Z1, Z2, Z3, Fd, El. cbn [dmap dlist List.length]. lia.
    - unfold shape_ok. rewrite Uk, Uv, Uo, Ud, U0, U1, U2, U3. cbn. lia.
    - right. rewrite Ud. reflexivity. }
  destruct (tri_op_narrow OSub z u N) as (w & Ew & Rw). rewrite Ew. cbn [rbind].
  destruct (cum_to_incr_cell f Wf Fpat) as (g & Eg & Fr & Gcum & Gpat & Gc); [rewrite Fcum; discriminate|lia|]. rewrite Eg. cbn [rbind].
  destruct Fr as [Gk Gkl Gv Go Gd Gvd Gog Gdg G0 G1 G2 G3].
  pose proof (nr_k _ _ _ _ Rw) as Wk. pose proof (nr_v _ _ _ _ Rw) as Wv. pose proof (nr_o _ _ _ _ Rw) as Wo.
  pose proof (nr_0 _ _ _ _ Rw) as W0. pose proof (nr_1 _ _ _ _ Rw) as W1. pose proof (nr_2 _ _ _ _ Rw) as W2. pose proof (nr_3 _ _ _ _ Rw) as W3. pose proof (nr_vd _ _ _ _ Rw) as Wvd.
  pose proof (nr_cell _ _ _ _ Rw) as Wc.
  assert (Zz : values z = values s) by (rewrite Eq; reflexivity).
  assert (Zk' : kdims z = kdims s) by (rewrite Eq; reflexivity). assert (Zv' : vdims z = vdims s) by (rewrite Eq; reflexivity). assert (Zo' : odims z = odims s) by (rewrite Eq; reflexivity).
  rewrite Zz in W0, W1, W2, W3.
  rewrite (concat_dev2 g (with_age w ULT_AGE) (Ages (xs ++ [9999]))); cbn [with_age set_ddims set_dims kdims vdims odims ddims values]; try congruence; auto.
  2: { rewrite Gd, Fd, El. reflexivity. }
  eexists; split; [reflexivity|]. split.
  - constructor; cbn [set_vdate set_values with_age set_ddims set_dims kdims key_labels vdims odims ddims vdate is_cumulative is_pattern ograin dgrain values cat2 ax0 ax1 ax2 ax3]; try congruence; auto.
    + rewrite El. reflexivity.
    + cbn [with_age set_ddims set_dims vdate]. rewrite Wvd, Gvd, Fvd, Uvd. lia.
    + cbn [with_age set_ddims set_dims values]. rewrite G3, F3, W3, Z3. lia.
  - intros i c o x Hi Hc Ho Hx.
    assert (Fs : forall d, (d < ax3 (values l))%nat -> stores (cel f i c o d) (x / to_ultimate l i c d)%Qc).
    { intros d Hd. rewrite Fc by auto. apply stores_cdiv; auto. apply to_ultimate_ne. }
    split; [|split].
    + unfold cel. cbn [set_vdate set_values with_age set_ddims set_dims values cat2 av]. rewrite G3, F3. destruct (Nat.ltb_spec (ax3 (values l)) (ax3 (values l))); [lia|]. rewrite Nat.sub_diag.
      change (stores (cel w i c o 0%nat) (x / to_ultimate l i c (ax3 (values l) - 1) - x)%Qc).
      rewrite Wc by (unfold in_range; rewrite Zz, Z0, Z1, Z2, Z3; lia). cbn [cop]. rewrite bav_in by lia. change (av (values u)) with (cel u).
      assert (Nn : nan_triangle w o 0 = Some 1%Qc).
      { unfold nan_triangle. rewrite W3, Z3, W2, Z2. destruct (Nat.eqb_spec (Nat.min (ax2 (values f)) 1) 1); [reflexivity|lia]. }
      rewrite Nn. cbn [nz]. unfold nz_sub. cbn [cmul]. apply stores_n2n_eq. rewrite (stores_nz _ _ Hx).
      assert (Ec : cel z i c o 0%nat = cel f i c o (ax3 (values l) - 1)%nat) by (unfold cel; rewrite Zz; rewrite <- F3; apply Zc; lia).
      rewrite Ec, (stores_nz _ _ (Fs (ax3 (values l) - 1)%nat ltac:(lia))). ring.
    + unfold cel. cbn [set_vdate set_values with_age set_ddims set_dims values cat2 av]. rewrite G3, F3. destruct (Nat.ltb_spec 0 (ax3 (values l))); [|lia].
      change (stores (cel g i c o 0%nat) (x / to_ultimate l i c 0)%Qc). rewrite Gc by (unfold in_range; lia). apply Fs. lia.
    + intros d Hd. unfold cel. cbn [set_vdate set_values with_age set_ddims set_dims values cat2 av]. rewrite G3, F3. destruct (Nat.ltb_spec (S d) (ax3 (values l))); [|lia].
      change (stores (cel g i c o (S d)) (x / to_ultimate l i c (S d) - x / to_ultimate l i c d)%Qc). rewrite Gc by (unfold in_range; lia).
      assert (K : diff_kept f o (S d) = true).
      { unfold diff_kept. pose proof (Nf o (S d) ltac:(lia) ltac:(lia)) as X. unfold future in X. destruct (Z.ltb_spec (vdate f) (month_of f o (S d))); [contradiction|]. apply orb_true_r. }
      rewrite K. unfold amount. apply stores_n2n_eq. rewrite (stores_nz _ _ (Fs (S d) ltac:(lia))), (stores_nz _ _ (Fs d ltac:(lia))). reflexivity.
Qed.

(** The columns add to twice the last expectation less the ultimate. *)
Lemma full_incremental_sum : exists r, full_expectation (cdf_of l) u false = Ok r /\ runoff_frame t l r false /\
  forall i c o, (i < ax0 (values t))%nat -> (c < ax1 (values t))%nat -> (o < ax2 (values t))%nat -> stores (cel u i c o 0%nat) (amount u i c o 0) ->
    (forall n, (n < ax3 (values l))%nat -> sumn (S n) (fun d => amount r i c o d) = amount u i c o 0 / to_ultimate l i c n)%Qc /\
    (sumn (S (ax3 (values l))) (fun d => amount r i c o d) = amount u i c o 0 / to_ultimate l i c (ax3 (values l) - 1) + (amount u i c o 0 / to_ultimate l i c (ax3 (values l) - 1) - amount u i c o 0))%Qc.
Proof.
  destruct full_incremental as (r & Er & Rf & Rc). exists r. split; [exact Er|]. split; [exact Rf|].
  intros i c o Hi Hc Ho Hx. destruct (Rc i c o _ Hi Hc Ho Hx) as (R1 & R2 & R3).
  assert (Hs : forall n, (n < ax3 (values l))%nat -> (sumn (S n) (fun d => amount r i c o d) = amount u i c o 0 / to_ultimate l i c n)%Qc).
  { induction n as [|n IH]; intros Hn.
    - cbn [sumn]. unfold amount at 1. rewrite (stores_nz _ _ R2). ring.
    - change (sumn (S (S n)) (fun d => amount r i c o d)) with (sumn (S n) (fun d => amount r i c o d) + amount r i c o (S n))%Qc. rewrite IH by lia. unfold amount at 2. rewrite (stores_nz _ _ (R3 n Hn)). ring. }
  split; [exact Hs|]. change (sumn (S (ax3 (values l))) (fun d => amount r i c o d)) with (sumn (ax3 (values l)) (fun d => amount r i c o d) + amount r i c o (ax3 (values l)))%Qc. replace (ax3 (values l)) with (S (ax3 (values l) - 1)) at 1 by lia. rewrite Hs by lia. unfold amount at 2. rewrite (stores_nz _ _ R1). reflexivity.
Qed.
End Full.

Lemma to_ultimate_last l i c : (1 <= ax3 (values l))%nat -> to_ultimate l i c (ax3 (values l) - 1) = factor (cel l i c 0 (ax3 (values l) - 1)).
Proof. intros H. unfold to_ultimate. replace (ax3 (values l) - (ax3 (values l) - 1))%nat with 1%nat by lia. cbn [prodn]. rewrite Nat.add_0_r. ring. Qed.

Lemma full_incremental_flat_tail t l u : wf t -> (1 <= ax0 (values t))%nat -> (1 <= ax1 (values t))%nat -> pattern_for t l -> ultimate_frame t u ->
  (2 <= ax3 (values l))%nat -> projectable t l ->
  exists r, full_expectation (cdf_of l) u false = Ok r /\ runoff_frame t l r false /\
  forall i c o, (i < ax0 (values t))%nat -> (c < ax1 (values t))%nat -> (o < ax2 (values t))%nat -> stores (cel u i c o 0%nat) (amount u i c o 0) ->
    (forall n, (n < ax3 (values l))%nat -> sumn (S n) (fun d => amount r i c o d) = amount u i c o 0 / to_ultimate l i c n)%Qc /\
    (factor (cel l i c 0 (ax3 (values l) - 1)) = 1%Qc -> sumn (S (ax3 (values l))) (fun d => amount r i c o d) = amount u i c o 0).
Proof.
  intros W T0 T1 PF UF L2 PJ. destruct (full_incremental_sum t l u W T0 T1 PF UF L2 PJ) as (r & Er & Rf & Rc).
  exists r. split; [exact Er|]. split; [exact Rf|]. intros i c o Hi Hc Ho Hx. destruct (Rc i c o Hi Hc Ho Hx) as (R1 & R2).
  split; [exact R1|]. intros F1. rewrite R2, to_ultimate_last, F1 by lia. field. discriminate.
Qed.

(** ** With the chain ladder *)
Lemma full_cl t l : method_input t -> pattern_for t l -> (2 <= ax3 (values l))%nat -> projectable t l ->
  exists u r, cl_fit t (Some l) = Ok (l, u) /\ full_expectation (cdf_of l) u true = Ok r /\ runoff_frame t l r true /\
  forall i c o d, in_range t i c o d -> month_of t o d = vdate t ->
    stores (cel r i c o d) (amount t i c o d) /\ stores (cel r i c o (ax3 (values l))) (amount t i c o d * to_ultimate l i c d)%Qc /\
    forall e, (e < ax3 (values l))%nat -> stores (cel r i c o e) (amount t i c o d * (to_ultimate l i c d / to_ultimate l i c e))%Qc.
Proof.
  intros MI PF L2 PJ. destruct (cl_fit_ok t l MI PF) as (u & b & Eu & UF & _ & _ & Uc).
  destruct (full_cumulative t l u (mi_wf _ MI) (mi_0 _ MI) (mi_1 _ MI) PF UF L2 PJ) as (r & Er & Rf & Rc).
  exists u, r. split; [exact Eu|]. split; [exact Er|]. split; [exact Rf|]. intros i c o d R M. pose proof R as (Hi & Hc & Ho & Hd).
  destruct (Rc i c o Hi Hc Ho) as (R1 & R2). destruct (Uc i c o d R M) as (U1 & _).
  assert (Hs : forall e, (e < ax3 (values l))%nat -> stores (cel r i c o e) (amount t i c o d * (to_ultimate l i c d / to_ultimate l i c e))%Qc).
  { intros e He. rewrite R2 by auto. eapply stores_eq; [apply stores_cdiv; [exact U1|apply to_ultimate_ne]|]. field. apply to_ultimate_ne. }
  split; [|split; [rewrite R1; exact U1|exact Hs]].
  pose proof (pf_len t l MI PF). eapply stores_eq; [apply Hs; lia|]. field. apply to_ultimate_ne.
Qed.
