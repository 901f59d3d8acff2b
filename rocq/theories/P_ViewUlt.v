(** Valuation triangles with an ultimate column in the age view. *)
From Verif Require Import Num NumFacts Arr Tri ArrFacts Spec TriFacts ConvFacts SliceFacts P_Core P_Filter UnionFacts P_Methods SpecView P_View P_ViewFull.
From Coq Require Import Lia ZArith List Arith Psatz.
Import ListNotations.
Local Open Scope Z_scope.

(** The valuation date of a selection of valuations is not later than the last one. *)
Lemma clip_reached x u l : clip_vdate x = Ok u -> wf u -> ddims u = Vals l -> exists o d, (o < ax2 (values u))%nat /\ (d < ax3 (values u))%nat /\ vdate u <= month_of u o d.
Proof.
  unfold clip_vdate. destruct (valuations x) as [|v vs] eqn:E; [discriminate|]. intros [= H] W Ed.
  assert (Hv : vdate u = Z.min (zmaxl vs v) (vdate x)) by (rewrite <- H; reflexivity).
  assert (Hin : In (zmaxl vs v) (valuations x)) by (rewrite E; apply zmaxl_in).
  assert (Edx : ddims x = Vals l) by (rewrite <- Ed, <- H; reflexivity).
  apply in_valuations in Hin. destruct Hin as (o & d & Ho & Hd & Hm).
  replace (odims x) with (odims u) in Ho by (rewrite <- H; reflexivity). replace (ddims x) with (ddims u) in Hd by (rewrite <- H; reflexivity).
  rewrite <- (wf_o _ W) in Ho. rewrite <- (wf_d _ W) in Hd.
  exists o, d. repeat split; auto. unfold valuation in Hm. rewrite Edx in Hm. unfold month_of. rewrite Ed. lia.
Qed.
Lemma iloc_dev_reached t a b u l : iloc_dev t a b = Ok u -> wf u -> ddims u = Vals l -> exists o d, (o < ax2 (values u))%nat /\ (d < ax3 (values u))%nat /\ vdate u <= month_of u o d.
Proof.
  unfold iloc_dev, get_idx. destruct (normalize_slice a b None (ax3 (values t))) as [s|]; [|discriminate]. cbn [rbind].
  destruct (negb _); [discriminate|]. intros H W Ed.
  repeat match type of H with (do x <- ?e; _) = _ => destruct e; [cbn [rbind] in H|discriminate] end.
  eapply clip_reached; eauto.
Qed.
Lemma count_below n k : (k <= n)%nat -> count_true n (fun d => (d <? k)%nat) = k.
Proof.
  intros H. unfold count_true. replace n with (k + (n - k))%nat by lia. rewrite seq_app, filter_app, app_length.
  assert (E1 : filter (fun d => (d <? k)%nat) (seq 0 k) = seq 0 k).
  { assert (G : forall l : list nat, (forall x, In x l -> (x < k)%nat) -> filter (fun d => (d <? k)%nat) l = l).
    { induction l as [|x l IH]; intros Hl; auto. cbn [filter]. rewrite (proj2 (Nat.ltb_lt x k)) by (apply Hl; left; auto). f_equal. apply IH. intros; apply Hl; right; auto. }
    apply G. intros x Hx. apply in_seq in Hx. lia. }
  assert (E2 : filter (fun d => (d <? k)%nat) (seq (0 + k) (n - k)) = []).
  { assert (G : forall l : list nat, (forall x, In x l -> (k <= x)%nat) -> filter (fun d => (d <? k)%nat) l = []).
    { induction l as [|x l IH]; intros Hl; auto. cbn [filter]. rewrite (proj2 (Nat.ltb_ge x k)) by (apply Hl; left; auto). apply IH. intros; apply Hl; right; auto. }
    apply G. intros x Hx. apply in_seq in Hx. lia. }
  rewrite E1, E2, seq_length. cbn. lia.
Qed.
Lemma count_true_ext n f g : (forall d, (d < n)%nat -> f d = g d) -> count_true n f = count_true n g.
Proof. intros H. unfold count_true. f_equal. apply filter_ext_in. intros d Hd. apply in_seq in Hd. apply H. lia. Qed.

Lemma uval_month t o0 a0 h m o k : ultimate_val_grid t o0 a0 h m -> (k < ax3 (values t) - 1)%nat -> month_of t o k = o0 + a0 - 1 + Z.of_nat (h * k).
Proof.
  intros (_ & _ & _ & _ & Ed & _) Hk. unfold month_of. rewrite Ed, app_nth1 by (rewrite map_length, seq_length; auto). rewrite nth_map_seq by auto. auto.
Qed.
Lemma uval_last t o0 a0 h m o : ultimate_val_grid t o0 a0 h m -> month_of t o (ax3 (values t) - 1) = ULT_VAL.
Proof.
  intros (_ & _ & H2 & _ & Ed & _). unfold month_of. rewrite Ed, app_nth2 by (rewrite map_length, seq_length; lia). rewrite map_length, seq_length, Nat.sub_diag. reflexivity.
Qed.

Lemma ultimate_to_ages t o0 a0 h m : let n := (ax3 (values t) - 1)%nat in
  wf t -> ultimate_val_grid t o0 a0 h m -> vdate t = ULT_VAL ->
  1 <= a0 -> o0 + a0 - 1 + Z.of_nat (h * (n - 1 + m * (ax2 (values t) - 1))) < 12 * 2261 -> a0 + Z.of_nat (h * (n - 1)) < 9999 ->
  (m * (ax2 (values t) - 1) < n)%nat ->
  (forall i c o d, in_range t i c o d -> (d < n)%nat -> cel t i c o d <> None -> (m * o <= d)%nat) ->
  (ax2 (values t) = 1%nat \/ exists i c o d, in_range t i c o d /\ (1 <= o)%nat /\ (d < n)%nat /\ cel t i c o d <> None) ->
  exists u, val_to_dev t = Ok u /\ same_rows t u /\ ultimate_grid u o0 a0 h m /\ ax3 (values u) = (n - m * (ax2 (values t) - 1) + 1)%nat /\
    (forall i c o d, in_range u i c o d -> (d < ax3 (values u) - 1)%nat -> cel u i c o d = cel t i c o (d + m * o)) /\
    (forall i c o, (i < ax0 (values t))%nat -> (c < ax1 (values t))%nat -> (o < ax2 (values t))%nat -> cel u i c o (ax3 (values u) - 1) = cel t i c o n).
Proof.
  intros n W G Vt A0 U SH Rch NB D. pose proof G as (Hh & Hm & H2 & Eo & Ed & Gd & Go). pose proof (wf_o1 _ W) as W2.
  assert (Hn1 : (1 <= n)%nat) by (unfold n; lia).
  destruct (iloc_dev_last t W) as (ul & Eul & Cul).
  destruct (iloc_dev_init t W H2) as (r & Er & Cr).
  fold n in Cul, Cr. pose proof (cl_eq _ _ Cr) as Eqr. pose proof (cl_eq _ _ Cul) as Equ.
  assert (r0 : ax0 (values r) = ax0 (values t)) by (rewrite Eqr; cbn; apply seq_length).
  assert (r1 : ax1 (values r) = ax1 (values t)) by (rewrite Eqr; cbn; apply seq_length).
  assert (r2 : ax2 (values r) = ax2 (values t)) by (rewrite Eqr; cbn; apply seq_length).
  assert (r3 : ax3 (values r) = n) by (rewrite Eqr; cbn; apply seq_length).
  assert (rk : kdims r = kdims t) by (rewrite Eqr; cbn; apply sel_seq_all; apply W).
  assert (rv : vdims r = vdims t) by (rewrite Eqr; cbn; apply sel_seq_all; apply W).
  assert (ro : odims r = odims t) by (rewrite Eqr; cbn; apply sel_seq_all; apply W).
  assert (rd : ddims r = Vals (map (fun k => o0 + a0 - 1 + Z.of_nat (h * k)) (seq 0 n))).
  { rewrite Eqr. cbn. rewrite Ed. cbn. f_equal. fold n.
    unfold sel. apply map_ext_in. intros k Hk. apply in_seq in Hk.
    rewrite app_nth1 by (rewrite map_length, seq_length; lia). rewrite nth_map_seq by lia. auto. }
  assert (rc : forall i c o d, in_range t i c o d -> (d < n)%nat -> cel r i c o d = cel t i c o d).
  { intros i c o d (R1 & R2 & R3 & R4) Hdn. rewrite Eqr. unfold cel. cbn. rewrite !seq_nth by auto. reflexivity. }
  pose proof (cl_wf _ _ Cr) as Wr.
  assert (Gr : val_grid r o0 a0 h m).
  { unfold val_grid. rewrite r2, r3, ro, rd. repeat (split; [auto; fail|]). rewrite Eqr. auto. }
  assert (Vr : vdate r = o0 + a0 - 1 + Z.of_nat (h * (n - 1))).
  { assert (Le : vdate r <= o0 + a0 - 1 + Z.of_nat (h * (n - 1))).
    { destruct (iloc_dev_reached _ _ _ _ _ Er Wr rd) as (o & d & Ho & Hd & L). rewrite (vgrid_month r o0 a0 h m) in L by auto. rewrite r3 in Hd. nia. }
    assert (Ge : ~ vdate r < o0 + a0 - 1 + Z.of_nat (h * (n - 1))).
    { intros L. pose proof (cl_fut _ _ Cr 0%nat (n - 1)%nat) as X. cbn [values sel_dev sel_tri sel_arr ax2 ax3] in X. 
      assert (Em : month_of (sel_dev t (seq 0 n)) 0 (n - 1) = o0 + a0 - 1 + Z.of_nat (h * (n - 1))).
      { rewrite month_of_sel_dev by (rewrite ?seq_length; lia). rewrite seq_nth by lia. apply (uval_month t o0 a0 h m 0 _ G). fold n. lia. }
      rewrite Em in X. cbn in X. rewrite !seq_length in X. specialize (X ltac:(lia) ltac:(lia)).
      apply Z.ltb_lt in L. rewrite L in X. symmetry in X. apply Z.ltb_lt in X. rewrite Vt in X. unfold ULT_VAL in X. lia. }
    lia. }
  assert (NFr : no_future r).
  { intros o d Ho Hd Hf. unfold future in Hf. rewrite (vgrid_month r o0 a0 h m) in Hf by auto. rewrite r3 in Hd. rewrite Vr in Hf. nia. }
  assert (Ur : before_ultimate r).
  { intros o d Ho Hd. rewrite (vgrid_month r o0 a0 h m) by auto. rewrite r3 in Hd. nia. }
  assert (SHr : short_history r).
  { unfold short_history. rewrite Vr, ro, Eo, hd_map_seq by auto. lia. }
  destruct (to_ages r o0 a0 h m Wr Gr NFr Ur SHr) as (w & Ew & Sw & Gw & Lw & _ & Cw).
  { rewrite r2, r3. nia. }
  { intros i c o d (R1 & R2 & R3 & R4) H. rewrite r0 in R1. rewrite r1 in R2. rewrite r2 in R3. rewrite r3 in R4.
    rewrite rc in H by (repeat split; auto; lia). apply NB in H; [|repeat split; auto; lia|auto].
    rewrite (vgrid_month r o0 a0 h m) by (auto; rewrite r3; auto). rewrite ro, Eo, nth_map_seq by auto. nia. }
  { destruct D as [D|(i & c & o & d & R & H1 & H3 & H4)]; [left; rewrite r2; auto|]. right. exists i, c, o, d. rewrite rc by auto.
    destruct R as (R1 & R2 & R3 & R4). unfold in_range. rewrite r0, r1, r2, r3. repeat split; auto. }
  rewrite r3 in Lw.
  assert (Es : shift_to_dev false r = Ok w).
  { rewrite <- Ew. rewrite (val_to_dev_plain r _ Wr rd Ur). rewrite map_length, seq_length. destruct (Nat.eqb_spec n 1) as [N1|N1]; [|reflexivity].
    assert (A2 : ax2 (values t) = 1%nat) by nia. unfold shift_to_dev. destruct (val_dev (-1) r) as [obj|] eqn:Ev; [|reflexivity]. cbn [rbind].
    assert (Eobj : odims obj = odims r).
    { unfold val_dev in Ev. destruct (dstep _ _); [|discriminate]. cbn [rbind] in Ev. destruct (match _ with [] => _ | _ => _ end) as (adj, nn). destruct (forallb _ _); [|discriminate]. injection Ev as <-. reflexivity. }
    destruct (_ && _); [|reflexivity]. rewrite Eobj, ro, Eo, hd_map_seq, last_map_seq by auto. rewrite A2. reflexivity. }
  assert (wx2 : ax2 (values w) = ax2 (values t)) by (rewrite (sr_2 _ _ Sw); auto).
  assert (Ww : wf w).
  { pose proof Gw as (_ & _ & Ewo & Ewd & _). constructor.
    - rewrite (sr_0 _ _ Sw), (sr_k _ _ Sw). apply Wr.
    - rewrite (sr_1 _ _ Sw), (sr_v _ _ Sw). apply Wr.
    - rewrite (sr_2 _ _ Sw), (sr_o _ _ Sw). apply Wr.
    - rewrite Ewd. cbn. rewrite map_length, seq_length. reflexivity.
    - lia.
    - lia.
    - rewrite (sr_o _ _ Sw). apply Wr.
    - rewrite Ewd. cbn [dlist]. rewrite Lw. apply sorted_ap; lia.
    - rewrite (sr_vd _ _ Sw), Vr. unfold ULT_VAL. nia.
    - rewrite Ewd, Ewo, Lw, wx2, (sr_vd _ _ Sw), Vr. repeat split.
      + apply in_map_iff in H. destruct H as (k & <- & Hk). nia.
      + apply in_map_iff in H. destruct H as (k & <- & Hk). apply in_seq in Hk. nia.
      + intros o Ho. apply in_map_iff in Ho. destruct Ho as (k & <- & Hk). apply in_seq in Hk. assert (m * k <= n - 1)%nat by nia. assert (h * (m * k) <= h * (n - 1))%nat by nia. lia.
      + intros o a Ho Ha _. apply in_map_iff in Ho, Ha. destruct Ho as (k & <- & Hk), Ha as (j & <- & Hj). apply in_seq in Hk, Hj. unfold ULT_VAL.
        assert (m * k <= m * (ax2 (values t) - 1))%nat by nia. assert (h * (j + m * k) <= h * (n - 1 + m * (ax2 (values t) - 1)))%nat by nia. lia. }
  set (N := (n - m * (ax2 (values t) - 1))%nat).
  assert (EN : count_true (ax3 (values w)) (fun d => valuation w (ax2 (values w) - 1) d <=? vdate w) = N).
  { rewrite Lw, wx2. transitivity (count_true n (fun d => (d <? N)%nat)); [|apply count_below; unfold N; lia].
    apply count_true_ext. intros d Hd. rewrite valuation_month by (auto; lia). rewrite (grid_month w o0 a0 h m) by (auto; lia). rewrite (sr_vd _ _ Sw), Vr.
    destruct (Nat.ltb_spec d N) as [L|L]; [apply Z.leb_le|apply Z.leb_gt]; unfold N in L; nia. }
  destruct (iloc_dev_upto w N Ww) as (cu & Ecu & Ccu); [rewrite Lw; unfold N; lia|].
  pose proof (cl_eq _ _ Ccu) as Eqc.
  assert (c0 : ax0 (values cu) = ax0 (values t)) by (rewrite Eqc; cbn; rewrite seq_length, (sr_0 _ _ Sw); auto).
  assert (c1 : ax1 (values cu) = ax1 (values t)) by (rewrite Eqc; cbn; rewrite seq_length, (sr_1 _ _ Sw); auto).
  assert (c2 : ax2 (values cu) = ax2 (values t)) by (rewrite Eqc; cbn; rewrite seq_length; auto).
  assert (c3 : ax3 (values cu) = N) by (rewrite Eqc; cbn; apply seq_length).
  assert (ck : kdims cu = kdims t) by (rewrite Eqc; cbn; rewrite sel_seq_all by apply Ww; rewrite (sr_k _ _ Sw); auto).
  assert (cv : vdims cu = vdims t) by (rewrite Eqc; cbn; rewrite sel_seq_all by apply Ww; rewrite (sr_v _ _ Sw); auto).
  assert (co : odims cu = odims t) by (rewrite Eqc; cbn; rewrite sel_seq_all by apply Ww; rewrite (sr_o _ _ Sw); auto).
  assert (cd : ddims cu = Ages (map (fun k => a0 + Z.of_nat (h * k)) (seq 0 N))).
  { rewrite Eqc. cbn. pose proof Gw as (_ & _ & _ & -> & _). cbn. f_equal. unfold sel. apply map_ext_in. intros k Hk. apply in_seq in Hk.
    rewrite nth_map_seq by (rewrite Lw; unfold N in Hk; lia). auto. }
  assert (cc : forall i c o d, in_range t i c o (d + m * o) -> (d < N)%nat -> cel cu i c o d = cel t i c o (d + m * o)).
  { intros i c o d (R1 & R2 & R3 & R4) HdN. rewrite Eqc. unfold cel at 1. cbn. rewrite !seq_nth by (rewrite ?(sr_0 _ _ Sw), ?(sr_1 _ _ Sw), ?(sr_2 _ _ Sw), ?r0, ?r1, ?r2; auto).
    cbn [Nat.add]. fold (cel w i c o d). rewrite Cw by (rewrite ?r2, ?r3; auto; unfold N in HdN; lia). rewrite r3.
    assert (L : (d + m * o < n)%nat) by (unfold N in HdN; nia). rewrite (proj2 (Nat.ltb_lt _ _) L). apply rc; [repeat split; auto|auto]. }
  (* the ultimate column *)
  assert (u0 : ax0 (values ul) = ax0 (values t)) by (rewrite Equ; cbn; apply seq_length).
  assert (u1 : ax1 (values ul) = ax1 (values t)) by (rewrite Equ; cbn; apply seq_length).
  assert (u2 : ax2 (values ul) = ax2 (values t)) by (rewrite Equ; cbn; apply seq_length).
  assert (u3 : ax3 (values ul) = 1%nat) by (rewrite Equ; reflexivity).
  assert (uk : kdims ul = kdims t) by (rewrite Equ; cbn; apply sel_seq_all; apply W).
  assert (uv : vdims ul = vdims t) by (rewrite Equ; cbn; apply sel_seq_all; apply W).
  assert (uo : odims ul = odims t) by (rewrite Equ; cbn; apply sel_seq_all; apply W).
  assert (uc : forall i c o, (i < ax0 (values t))%nat -> (c < ax1 (values t))%nat -> (o < ax2 (values t))%nat -> cel ul i c o 0 = cel t i c o n).
  { intros i c o R1 R2 R3. rewrite Equ. unfold cel. cbn. rewrite !seq_nth by auto. reflexivity. }
  assert (uvd : vdate ul = ULT_VAL).
  { destruct (cl_ex _ _ Cul) as [E|(o & d & Ho & Hd' & E)]; [rewrite E; exact Vt|]. cbn in Ho, Hd'. rewrite !seq_length in Ho. rewrite E.
    rewrite month_of_sel_dev by auto. replace d with 0%nat by lia. cbn [nth]. apply (uval_last t o0 a0 h m); auto. }
  assert (NU : NoDup (map (fun k => a0 + Z.of_nat (h * k)) (seq 0 N) ++ [ULT_AGE])).
  { apply sorted_NoDup, sorted_app_Z; [apply sorted_ap; lia|repeat constructor|]. intros x y Hx [ <- | [] ]. apply in_map_iff in Hx. destruct Hx as (k & <- & Hk).
    apply in_seq in Hk. unfold ULT_AGE. unfold N in Hk. nia. }
  pose proof (concat_dev2 cu (set_ddims ul (Ages [ULT_AGE])) (Ages (map (fun k => a0 + Z.of_nat (h * k)) (seq 0 N) ++ [ULT_AGE]))) as CC.
  rewrite cd in CC. cbn [ddims set_ddims set_dims kdims vdims odims ddim_app dlist values vdate] in CC.
  rewrite uk, uv, uo, u0, u1, u2, ck, cv, co, c0, c1, c2 in CC.
  specialize (CC eq_refl eq_refl eq_refl eq_refl NU eq_refl eq_refl eq_refl).
  set (x := set_vdate _ _) in CC.
  assert (x3 : ax3 (values x) = (N + 1)%nat) by (unfold x; cbn; rewrite u3, c3; auto).
  exists x. split.
  { unfold val_to_dev. rewrite Ed. rewrite app_length, map_length, seq_length. fold n.
    replace ((n + List.length [ULT_VAL] =? 1)%nat) with false by (symmetry; apply Nat.eqb_neq; cbn; lia). cbn [andb].
    replace (is_ultimate t) with true.
    2:{ symmetry. unfold is_ultimate. apply existsb_exists. exists ULT_VAL. split; [|reflexivity]. apply in_valuations.
        exists 0%nat, n. rewrite <- (wf_o _ W), <- (wf_d _ W). split; [lia|]. split; [lia|].
        rewrite valuation_month by (auto; lia). apply (uval_last t o0 a0 h m); auto. }
    rewrite (proj2 (Nat.ltb_lt 1 (ax3 (values t)))) by lia. cbn [andb]. rewrite Eul, Er. cbn [rbind]. rewrite Es. cbn [rbind]. cbv zeta. rewrite EN, Ecu. cbn [rbind].
    exact CC. }
  assert (xvd : vdate x = ULT_VAL).
  { change (vdate x) with (Z.max (vdate ul) (vdate cu)). rewrite uvd. pose proof (wf_vd _ (cl_wf _ _ Ccu)). lia. }
  split.
  { constructor.
    - exact ck.
    - change (key_labels cu = key_labels t). rewrite Eqc. change (key_labels w = key_labels t). rewrite (sr_kl _ _ Sw), Eqr. reflexivity.
    - exact cv.
    - exact co.
    - rewrite xvd. auto.
    - change (ograin cu = ograin t). rewrite Eqc. change (ograin w = ograin t). rewrite (sr_og _ _ Sw), Eqr. reflexivity.
    - change (dgrain cu = dgrain t). rewrite Eqc. change (dgrain w = dgrain t). rewrite (sr_dg _ _ Sw), Eqr. reflexivity.
    - change (is_pattern cu = is_pattern t). rewrite Eqc. change (is_pattern w = is_pattern t). rewrite (sr_pat _ _ Sw), Eqr. reflexivity.
    - change (is_cumulative cu = is_cumulative t). rewrite Eqc. change (is_cumulative w = is_cumulative t). rewrite (sr_cum _ _ Sw), Eqr. reflexivity.
    - exact c0.
    - exact c1.
    - exact c2. }
  assert (N1 : (1 <= N)%nat) by (unfold N; lia).
  split.
  { unfold ultimate_grid. rewrite x3. replace (N + 1 - 1)%nat with N by lia. repeat (split; [auto; lia|]).
    split; [change (odims x) with (odims cu); change (ax2 (values x)) with (ax2 (values cu)); rewrite co, c2; auto|].
    split; [reflexivity|]. change (dgrain x) with (dgrain cu). change (ograin x) with (ograin cu). rewrite Eqc. change (grain_months (dgrain w) = Z.of_nat h /\ grain_months (ograin w) = Z.of_nat (h * m)).
    rewrite (sr_dg _ _ Sw), (sr_og _ _ Sw), Eqr. auto. }
  split; [exact x3|]. split.
  - intros i c o d (R1 & R2 & R3 & R4) HdN. rewrite x3 in HdN. change (i < ax0 (values cu))%nat in R1. change (c < ax1 (values cu))%nat in R2. change (o < ax2 (values cu))%nat in R3.
    rewrite c0 in R1. rewrite c1 in R2. rewrite c2 in R3.
    unfold cel at 1. unfold x. cbn [values set_vdate set_values cat2 av]. rewrite c3. destruct (Nat.ltb_spec d N) as [L|L]; [|lia].
    fold (cel cu i c o d). apply cc; auto. repeat split; auto. unfold N in L. fold n in H2. unfold n in *. nia.
  - intros i c o R1 R2 R3. rewrite x3. replace (N + 1 - 1)%nat with N by lia.
    unfold cel at 1. unfold x. cbn [values set_vdate set_values cat2 av]. rewrite c3, Nat.ltb_irrefl, Nat.sub_diag. apply uc; auto.
Qed.

Lemma sorted_Z_ext l : forall m, StronglySorted Z.lt l -> StronglySorted Z.lt m -> (forall x, In x l <-> In x m) -> l = m.
Proof.
  induction l as [|a l IH]; intros [|b m] Hl Hm E; auto.
  - destruct (proj2 (E b) (or_introl eq_refl)).
  - destruct (proj1 (E a) (or_introl eq_refl)).
  - inversion Hl as [|? ? Sl Fl]; inversion Hm as [|? ? Sm Fm]; subst. rewrite Forall_forall in Fl, Fm.
    assert (a = b).
    { destruct (proj1 (E a) (or_introl eq_refl)) as [|Ha]; [auto|]. destruct (proj2 (E b) (or_introl eq_refl)) as [|Hb]; [auto|]. specialize (Fl _ Hb). specialize (Fm _ Ha). lia. }
    subst b. f_equal. apply IH; auto. intros x. specialize (E x). cbn in E. split; intros H.
    + destruct (proj1 E (or_intror H)) as [<-|]; auto. specialize (Fl _ H). lia.
    + destruct (proj2 E (or_intror H)) as [<-|]; auto. specialize (Fm _ H). lia.
Qed.

Lemma total_at_own t o0 a0 h m i c o d q : wf t -> ultimate_grid t o0 a0 h m -> (o < ax2 (values t))%nat -> (d < ax3 (values t))%nat ->
  total_at t i c o (month_of t o d) q -> q = amount t i c o d.
Proof.
  intros W G Ho Hd [(_ & H)|(e & He & Le & Mx & ->)]; [specialize (H d Hd); lia|]. f_equal.
  assert (d <= e)%nat by (apply Mx; auto; lia). destruct (Nat.eq_dec d e); auto. exfalso.
  pose proof (proj1 G) as Hh.
  assert (Hd' : (d < ax3 (values t) - 1)%nat) by lia. destruct (ugrid_month t o0 a0 h m o d W G Ho Hd') as (E1 & L1 & _).
  destruct (Nat.eq_dec e (ax3 (values t) - 1)) as [->|Hn]; [rewrite (ugrid_last t o0 a0 h m) in Le by auto; lia|].
  destruct (ugrid_month t o0 a0 h m o e W G Ho ltac:(lia)) as (E2 & _). rewrite E1, E2 in Le. nia.
Qed.
Lemma total_at_before t o0 a0 h m i c o k q : wf t -> ultimate_grid t o0 a0 h m -> (o < ax2 (values t))%nat -> (k < m * o)%nat ->
  o0 + a0 - 1 + Z.of_nat (h * k) < ULT_VAL -> total_at t i c o (o0 + a0 - 1 + Z.of_nat (h * k)) q -> q = 0%Qc.
Proof.
  intros W G Ho Hk HU [(-> & _)|(e & He & Le & _)]; auto. exfalso. pose proof (proj1 G) as Hh.
  destruct (Nat.eq_dec e (ax3 (values t) - 1)) as [->|Hn]; [rewrite (ugrid_last t o0 a0 h m) in Le by auto; lia|].
  destruct (ugrid_month t o0 a0 h m o e W G Ho ltac:(lia)) as (E2 & _). rewrite E2 in Le. nia.
Qed.

Lemma ultimate_round_trip t o0 a0 h m : let n := (ax3 (values t) - 1)%nat in
  wf t -> ultimate_grid t o0 a0 h m -> no_future t -> is_pattern t = false -> is_cumulative t = Some true ->
  (ax2 (values t) = 1 \/ m <= n)%nat -> amounts_beyond_first t n ->
  o0 + a0 - 1 + Z.of_nat (h * (n - 1 + 2 * m * (ax2 (values t) - 1))) < 12 * 2261 -> a0 + Z.of_nat (h * (n - 1 + m * (ax2 (values t) - 1))) < 9999 ->
  exists u w, dev_to_val t = Ok u /\ val_to_dev u = Ok w /\ same_rows t w /\ ddims w = ddims t /\ ax3 (values w) = ax3 (values t) /\
    forall i c o d, in_range t i c o d -> stores (cel w i c o d) (amount t i c o d).
Proof.
  intros n W G NF Hp Hc Hg D U SH. pose proof (wf_o1 _ W) as W2. pose proof G as (Hh & Hm & H2 & Eo & Ed & Gd & Go).
  assert (Hn1 : (1 <= n)%nat) by (unfold n; lia).
  assert (Vt : vdate t = ULT_VAL).
  { pose proof (wf_vd _ W). specialize (NF 0%nat n ltac:(lia) ltac:(unfold n; lia)). unfold future, n in NF. rewrite (ugrid_last t o0 a0 h m) in NF by auto. lia. }
  assert (A0 : 1 <= a0).
  { pose proof (wf_dev _ W) as X. rewrite Ed in X. destruct X as (X & _). apply (X a0). apply in_or_app. left. apply in_map_iff. exists 0%nat. split; [lia|]. apply in_seq. fold n. lia. }
  destruct (ultimate_to_valuation t o0 a0 h m W G NF Hp Hc Hg D) as (u & vs & Eu & Su & Edu & Svs & Lu & Mem & Cu).
  set (A := (ax2 (values t) - 1)%nat) in *.
  set (n' := (n + m * A)%nat).
  assert (Evs : vs = map (fun k => o0 + a0 - 1 + Z.of_nat (h * k)) (seq 0 n') ++ [ULT_VAL]).
  { assert (Lt : forall k, (k < n')%nat -> o0 + a0 - 1 + Z.of_nat (h * k) < ULT_VAL).
    { intros k Hk. unfold n' in Hk. assert (h * k <= h * (n - 1 + 2 * m * A))%nat by nia. unfold ULT_VAL. lia. }
    apply sorted_Z_ext; [auto| |].
    - apply sorted_app_Z; [apply sorted_ap; lia|repeat constructor|]. intros x y Hx [ <- | [] ]. apply in_map_iff in Hx. destruct Hx as (k & <- & Hk). apply in_seq in Hk. apply Lt. lia.
    - intros v. rewrite Mem, in_app_iff, in_map_iff. split.
      + intros (o & d & Ho & Hd & E). destruct (Nat.eq_dec d n) as [->|Hn].
        * right. left. rewrite <- E. symmetry. apply (ugrid_last t o0 a0 h m); auto.
        * left. exists (d + m * o)%nat. destruct (ugrid_month t o0 a0 h m o d W G Ho ltac:(fold n; lia)) as (E2 & _). split; [congruence|].
          apply in_seq. unfold n', A. assert (m * o <= m * (ax2 (values t) - 1))%nat by nia. unfold n in *. lia.
      + intros [(k & E & Hk)|[E|[]]].
        * apply in_seq in Hk. assert (Hk' : (k < n')%nat) by lia. unfold n' in Hk'.
          assert (X : exists o d, (o < ax2 (values t))%nat /\ (d < n)%nat /\ k = (d + m * o)%nat).
          { destruct (Nat.le_gt_cases (k / m) A) as [Hq|Hq].
            - destruct Hg as [Hg|Hg]; [exists 0%nat, k; unfold A in *; rewrite Hg in *; cbn in Hk'; repeat split; lia|].
              exists (k / m)%nat, (k mod m)%nat. pose proof (Nat.mod_upper_bound k m ltac:(lia)). pose proof (Nat.div_mod k m ltac:(lia)). repeat split; unfold A in *; lia.
            - exists A, (k - m * A)%nat. pose proof (Nat.div_mod k m ltac:(lia)). assert (m * A <= k)%nat by nia. repeat split; unfold A in *; lia. }
          destruct X as (o & d & Ho & Hd & ->). exists o, d. split; [auto|]. split; [unfold n in Hd; lia|].
          destruct (ugrid_month t o0 a0 h m o d W G Ho Hd) as (E2 & _). congruence.
        * exists 0%nat, n. split; [lia|]. split; [unfold n; lia|]. rewrite <- E. apply (ugrid_last t o0 a0 h m); auto. }
  assert (Lu' : ax3 (values u) = (n' + 1)%nat) by (rewrite Lu, Evs, app_length, map_length, seq_length; reflexivity).
  assert (Gu : ultimate_val_grid u o0 a0 h m).
  { unfold ultimate_val_grid. rewrite Lu', (sr_o _ _ Su), (sr_2 _ _ Su), (sr_dg _ _ Su), (sr_og _ _ Su), Edu, Evs. replace (n' + 1 - 1)%nat with n' by lia.
    repeat (split; [auto; unfold n'; lia|]). auto. }
  assert (Wu : wf u).
  { constructor.
    - rewrite (sr_0 _ _ Su), (sr_k _ _ Su). apply W.
    - rewrite (sr_1 _ _ Su), (sr_v _ _ Su). apply W.
    - rewrite (sr_2 _ _ Su), (sr_o _ _ Su). apply W.
    - rewrite Edu. auto.
    - rewrite (sr_2 _ _ Su). auto.
    - lia.
    - rewrite (sr_o _ _ Su). apply W.
    - rewrite Edu. auto.
    - rewrite (sr_vd _ _ Su). apply W.
    - rewrite Edu. intros v Hv. apply Mem in Hv. destruct Hv as (o & d & Ho & Hd & <-). destruct (Nat.eq_dec d n) as [->|Hn].
      + unfold n. rewrite (ugrid_last t o0 a0 h m) by auto. lia.
      + destruct (ugrid_month t o0 a0 h m o d W G Ho ltac:(fold n; lia)) as (_ & L & _). lia. }
  assert (Mu : forall o k, (k < n')%nat -> month_of u o k = o0 + a0 - 1 + Z.of_nat (h * k)).
  { intros o k Hk. apply (uval_month u o0 a0 h m); auto. rewrite Lu'. lia. }
  assert (Own : forall i c o d, in_range t i c o d -> (d < n)%nat -> stores (cel u i c o (d + m * o)) (amount t i c o d)).
  { intros i c o d (R1 & R2 & R3 & R4) Hd. assert (L : (d + m * o < n')%nat) by (unfold n', A; nia).
    destruct (Cu i c o (d + m * o)%nat) as (q & T & S).
    { unfold in_range. rewrite (sr_0 _ _ Su), (sr_1 _ _ Su), (sr_2 _ _ Su), Lu'. repeat split; auto; lia. }
    rewrite Mu in T by auto. destruct (ugrid_month t o0 a0 h m o d W G R3 Hd) as (E2 & _). rewrite <- E2 in T.
    rewrite (total_at_own t o0 a0 h m i c o d q W G R3 R4 T) in S. exact S. }
  destruct (ultimate_to_ages u o0 a0 h m Wu Gu) as (w & Ew & Sw & Gw & Lw & Cw & Cl); rewrite ?Lu', ?(sr_2 _ _ Su); replace (n' + 1 - 1)%nat with n' by lia; fold A.
  { rewrite (sr_vd _ _ Su). auto. }
  { auto. }
  { unfold n'. replace (n + m * A - 1 + m * A)%nat with (n - 1 + 2 * m * A)%nat by lia. auto. }
  { unfold n'. replace (n + m * A - 1)%nat with (n - 1 + m * A)%nat by lia. auto. }
  { unfold n'. lia. }
  { intros i c o d R Hd Hq. destruct (Nat.le_gt_cases (m * o) d) as [|Hlt]; auto. exfalso. apply Hq.
    destruct (Cu i c o d R) as (q & T & S). rewrite Mu in T by auto. destruct R as (R1 & R2 & R3 & R4). rewrite (sr_2 _ _ Su) in R3.
    rewrite (total_at_before t o0 a0 h m i c o d q W G R3 Hlt) in S; auto; [apply S; auto|].
    unfold n' in Hd. assert (h * d <= h * (n - 1 + 2 * m * A))%nat by nia. unfold ULT_VAL. lia. }
  { destruct D as [D|(i & c & o & d & R & H1 & H3 & H4)]; [left; auto|]. right. exists i, c, o, (d + m * o)%nat.
    pose proof (Own i c o d R H3) as S. destruct R as (R1 & R2 & R3 & R4). split; [|split; [auto|split; [unfold n', A; nia|]]].
    - unfold in_range. rewrite (sr_0 _ _ Su), (sr_1 _ _ Su), (sr_2 _ _ Su), Lu'. repeat split; auto. unfold n', A. nia.
    - intros F. destruct S as (_ & S). rewrite F in S. specialize (S H4). discriminate. }
  assert (Lw' : ax3 (values w) = ax3 (values t)).
  { rewrite Lw, Lu', (sr_2 _ _ Su). fold A. unfold n', n. lia. }
  exists u, w. split; [exact Eu|]. split; [exact Ew|]. split; [eapply same_rows_trans; eauto|]. split.
  { destruct Gw as (_ & _ & _ & _ & -> & _). rewrite Lw', Ed. reflexivity. }
  split; [exact Lw'|]. intros i c o d (R1 & R2 & R3 & R4). destruct (Nat.eq_dec d n) as [->|Hn].
  - replace n with (ax3 (values w) - 1)%nat at 1 by (rewrite Lw'; reflexivity). rewrite Cl by (rewrite ?(sr_0 _ _ Su), ?(sr_1 _ _ Su), ?(sr_2 _ _ Su); auto).
    rewrite Lu'. replace (n' + 1 - 1)%nat with n' by lia.
    destruct (Cu i c o n') as (q & T & S).
    { unfold in_range. rewrite (sr_0 _ _ Su), (sr_1 _ _ Su), (sr_2 _ _ Su), Lu'. repeat split; auto; lia. }
    assert (E : month_of u o n' = month_of t o n).
    { replace n' with (ax3 (values u) - 1)%nat by lia. rewrite (uval_last u o0 a0 h m) by auto. symmetry. apply (ugrid_last t o0 a0 h m); auto. }
    rewrite E in T. rewrite (total_at_own t o0 a0 h m i c o n q W G R3 R4 T) in S. exact S.
  - rewrite Cw; [apply Own; [repeat split; auto|unfold n in *; lia]| |rewrite Lw'; unfold n in *; lia].
    unfold in_range. rewrite (sr_0 _ _ Sw), (sr_1 _ _ Sw), (sr_2 _ _ Sw), (sr_0 _ _ Su), (sr_1 _ _ Su), (sr_2 _ _ Su), Lw'. repeat split; auto.
Qed.

Lemma full_way_back t o0 a0 h m : let n := ax3 (values t) in let n' := (n + m * (ax2 (values t) - 1))%nat in
  wf t -> age_grid t o0 a0 h m -> no_future t -> is_pattern t = false -> is_cumulative t = Some true -> (2 <= n)%nat -> no_gap t h m ->
  before_ultimate t -> amounts_beyond_first t n -> short_history t ->
  exists u w, dev_to_val t = Ok u /\ val_to_dev u = Ok w /\ same_rows t w /\ age_grid w o0 a0 h m /\ ax3 (values w) = n' /\
    forall i c o d, in_range w i c o d ->
      if (d + m * o <? n')%nat then stores (cel w i c o d) (amount t i c o (Nat.min d (n - 1))) else cel w i c o d = None.
Proof.
  intros n n' W G NF Hp Hc H2 Hg U D SH. pose proof (wf_o1 _ W) as W2. pose proof G as (Hh & Hm & Eo & Ed & H9 & Gd & Go).
  destruct (full_to_valuation t o0 a0 h m W G NF Hp Hc H2 Hg U D) as (u & vs & Eu & Su & Edu & Svs & Lu & Mem & Cu).
  set (A := (ax2 (values t) - 1)%nat) in *.
  assert (Hg' : (ax2 (values t) = 1 \/ m <= n)%nat).
  { destruct Hg as [Hg|[Hg|Hg]]; auto. left. specialize (NF A (n - 1)%nat ltac:(unfold A; lia) ltac:(unfold n in *; lia)). unfold future in NF.
    rewrite (grid_month t o0 a0 h m) in NF by (auto; unfold A, n in *; lia). rewrite (grid_month t o0 a0 h m) in Hg by (auto; unfold n in *; lia). fold n in Hg.
    destruct (Nat.eq_dec A 0); [unfold A in *; lia|]. exfalso. assert (1 <= m * A)%nat by nia. nia. }
  assert (Evs : vs = map (fun k => o0 + a0 - 1 + Z.of_nat (h * k)) (seq 0 n')).
  { apply sorted_Z_ext; [auto|apply sorted_ap; lia|]. intros v. rewrite Mem, in_map_iff. split.
    - intros (o & d & Ho & Hd & E). exists (d + m * o)%nat. rewrite (grid_month t o0 a0 h m) in E by auto. split; [auto|].
      apply in_seq. unfold n'. assert (m * o <= m * A)%nat by (unfold A; nia). unfold n. lia.
    - intros (k & E & Hk). apply in_seq in Hk. assert (Hk' : (k < n')%nat) by lia. unfold n' in Hk'.
      assert (X : exists o d, (o < ax2 (values t))%nat /\ (d < n)%nat /\ k = (d + m * o)%nat).
      { destruct (Nat.le_gt_cases (k / m) A) as [Hq|Hq].
        - destruct Hg' as [Hg'|Hg']; [exists 0%nat, k; unfold A in *; rewrite Hg' in *; cbn in Hk'; repeat split; lia|].
          exists (k / m)%nat, (k mod m)%nat. pose proof (Nat.mod_upper_bound k m ltac:(lia)). pose proof (Nat.div_mod k m ltac:(lia)). repeat split; unfold A in *; lia.
        - exists A, (k - m * A)%nat. pose proof (Nat.div_mod k m ltac:(lia)). assert (m * A <= k)%nat by nia. repeat split; unfold A in *; lia. }
      destruct X as (o & d & Ho & Hd & ->). exists o, d. split; [auto|]. split; [auto|]. rewrite (grid_month t o0 a0 h m) by auto. auto. }
  assert (Lu' : ax3 (values u) = n') by (rewrite Lu, Evs, map_length, seq_length; reflexivity).
  assert (Gu : val_grid u o0 a0 h m).
  { unfold val_grid. rewrite Lu', (sr_o _ _ Su), (sr_2 _ _ Su), (sr_dg _ _ Su), (sr_og _ _ Su), Edu, Evs. repeat (split; [auto; fail|]). auto. }
  assert (Hup : forall o d, (o < ax2 (values t))%nat -> (d < n)%nat -> month_of t o d <= vdate t).
  { intros o d Ho Hd. specialize (NF o d Ho Hd). unfold future in NF. lia. }
  assert (Mu : forall o k, (k < n')%nat -> month_of u o k = o0 + a0 - 1 + Z.of_nat (h * k)) by (intros o k Hk; apply (vgrid_month u o0 a0 h m); auto; rewrite Lu'; auto).
  assert (Kmax : forall k, (k < n')%nat -> o0 + a0 - 1 + Z.of_nat (h * k) <= month_of t A (n - 1)).
  { intros k Hk. rewrite (grid_month t o0 a0 h m) by (auto; unfold A, n in *; lia). unfold n' in Hk. nia. }
  assert (HA : (A < ax2 (values t))%nat) by (unfold A; lia). assert (Hn : (n - 1 < n)%nat) by lia.
  assert (Wu : wf u).
  { constructor.
    - rewrite (sr_0 _ _ Su), (sr_k _ _ Su). apply W.
    - rewrite (sr_1 _ _ Su), (sr_v _ _ Su). apply W.
    - rewrite (sr_2 _ _ Su), (sr_o _ _ Su). apply W.
    - rewrite Edu. auto.
    - rewrite (sr_2 _ _ Su). auto.
    - unfold n' in Lu'. lia.
    - rewrite (sr_o _ _ Su). apply W.
    - rewrite Edu. auto.
    - rewrite (sr_vd _ _ Su). apply W.
    - rewrite Edu. intros v Hv. apply Mem in Hv. destruct Hv as (o & d & Ho & Hd & <-). pose proof (Hup o d Ho Hd). pose proof (wf_vd _ W). lia. }
  assert (Own : forall i c o k, (i < ax0 (values t))%nat -> (c < ax1 (values t))%nat -> (o < ax2 (values t))%nat -> (k < n')%nat ->
     if (k <? m * o)%nat then cel u i c o k = None else stores (cel u i c o k) (amount t i c o (Nat.min (k - m * o) (n - 1)))).
  { intros i c o k R1 R2 R3 Hk.
    destruct (Cu i c o k) as (q & T & S).
    { unfold in_range. rewrite (sr_0 _ _ Su), (sr_1 _ _ Su), (sr_2 _ _ Su), Lu'. auto. }
    rewrite Mu in T by auto. destruct (Nat.ltb_spec k (m * o)) as [L|L].
    - destruct T as [(-> & _)|(e & He & Le & _)]; [apply S; auto|]. exfalso. rewrite (grid_month t o0 a0 h m) in Le by auto. nia.
    - destruct T as [(_ & T)|(e & He & Le & Mx & ->)].
      + exfalso. specialize (T 0%nat ltac:(unfold n in *; lia)). rewrite (grid_month t o0 a0 h m) in T by (auto; unfold n in *; lia). nia.
      + replace (Nat.min (k - m * o) (n - 1)) with e; auto. rewrite (grid_month t o0 a0 h m) in Le by auto.
        assert (e + m * o <= k)%nat by nia. assert (Nat.min (k - m * o) (n - 1) <= e)%nat; [|fold n in He; lia].
        apply Mx; [fold n; lia|]. rewrite (grid_month t o0 a0 h m) by (auto; fold n; lia). nia. }
  destruct (to_ages u o0 a0 h m Wu Gu) as (w & Ew & Sw & Gw & Lw & _ & Cw).
  { intros o d Ho Hd Hf. unfold future in Hf. rewrite Lu' in Hd. rewrite Mu in Hf by auto. pose proof (Kmax d Hd). pose proof (Hup A (n - 1)%nat HA Hn). rewrite (sr_vd _ _ Su) in Hf. lia. }
  { intros o d Ho Hd. rewrite Lu' in Hd. rewrite Mu by auto. pose proof (Kmax d Hd). pose proof (U A (n - 1)%nat HA Hn). lia. }
  { unfold short_history in *. rewrite (sr_vd _ _ Su), (sr_o _ _ Su). auto. }
  { left. rewrite Lu'. unfold n'. lia. }
  { intros i c o d (R1 & R2 & R3 & R4) Hq. rewrite (sr_0 _ _ Su) in R1. rewrite (sr_1 _ _ Su) in R2. rewrite (sr_2 _ _ Su) in R3. rewrite Lu' in R4.
    pose proof (Own i c o d R1 R2 R3 R4) as X. destruct (Nat.ltb_spec d (m * o)) as [L|L]; [congruence|]. rewrite Mu by auto. rewrite (sr_o _ _ Su), Eo, nth_map_seq by auto. nia. }
  { destruct D as [D|(i & c & o & d & R & H1 & H3 & H4)]; [left; rewrite (sr_2 _ _ Su); auto|]. right. exists i, c, o, (d + m * o)%nat.
    destruct R as (R1 & R2 & R3 & R4). assert (L : (d + m * o < n')%nat) by (unfold n', A; nia).
    pose proof (Own i c o (d + m * o)%nat R1 R2 R3 L) as X. destruct (Nat.ltb_spec (d + m * o) (m * o)); [lia|].
    replace (d + m * o - m * o)%nat with d in X by lia. rewrite Nat.min_l in X by lia.
    split; [unfold in_range; rewrite (sr_0 _ _ Su), (sr_1 _ _ Su), (sr_2 _ _ Su), Lu'; auto|]. split; [auto|].
    intros F. destruct X as (_ & S). rewrite F in S. specialize (S H4). discriminate. }
  exists u, w. split; [exact Eu|]. split; [exact Ew|]. split; [eapply same_rows_trans; eauto|]. split; [exact Gw|]. split; [rewrite Lw; exact Lu'|].
  intros i c o d (R1 & R2 & R3 & R4). rewrite (sr_0 _ _ Sw), (sr_0 _ _ Su) in R1. rewrite (sr_1 _ _ Sw), (sr_1 _ _ Su) in R2. rewrite (sr_2 _ _ Sw), (sr_2 _ _ Su) in R3.
  rewrite Lw in R4. rewrite Cw by (auto; rewrite (sr_2 _ _ Su); auto). rewrite Lu'. destruct (Nat.ltb_spec (d + m * o) n') as [L|L]; auto.
  pose proof (Own i c o (d + m * o)%nat R1 R2 R3 L) as X. destruct (Nat.ltb_spec (d + m * o) (m * o)); [lia|]. replace (d + m * o - m * o)%nat with d in X by lia. exact X.
Qed.
