(** The link ratios of a triangle meet the conditions of the calendar year test. *)
From Coq Require Import Lia.
From Verif Require Import Spec TriFacts ArrFacts ConvFacts SliceFacts P_Core P_Agg P_Corr2 NumFacts SpecCorr.
Local Open Scope Z_scope.

Lemma link_ratio_frame t : wf t -> blank_future t -> is_pattern t = false ->
  (exists o d, (o < ax2 (values t))%nat /\ (S d < ax3 (values t))%nat /\ month_of t o (S d) <= vdate t) ->
  exists u, link_ratio t = Ok u /\ wf u /\ blank_future u /\ is_cumulative u = Some false /\
    ograin u = ograin t /\ dgrain u = dgrain t /\ key_labels u = key_labels t /\ (vdate u <= vdate t)%Z.
Proof.
  intros W B Hp (o1 & d1 & Ho1 & Hd1 & Hm1). unfold link_ratio. rewrite Hp.
  assert (Hn : (2 <= ax3 (values t))%nat) by lia. set (n := ax3 (values t)) in *.
  destruct (iloc_dev_init t W Hn) as (a & -> & Ca). cbn [rbind].
  destruct (iloc_dev_tail t W Hn) as (b & -> & Cb). cbn [rbind]. fold n in Ca, Cb.
  pose proof (cl_eq _ _ Ca) as Ea. pose proof (cl_eq _ _ Cb) as Eb.
  unfold mul_arr.
  assert (Va : values a = values (sel_dev t (seq 0 (n - 1)))) by (rewrite Ea; reflexivity).
  assert (Vb : values b = values (sel_dev t (seq 1 (n - 1)))) by (rewrite Eb; reflexivity).
  destruct (bmap2_same cmul (values (rdiv_scalar 1%Qc a)) (values b)) as (v & -> & D0 & D1 & D2 & D3 & Dv);
    try (cbn; rewrite Va, Vb; cbn; rewrite ?seq_length; reflexivity).
  cbn [rbind]. cbn [rdiv_scalar set_values values map_arr ax0 ax1 ax2 ax3] in D0, D1, D2, D3, Dv.
  assert (A0 : ax0 (values a) = ax0 (values t)) by (rewrite Va; cbn; apply seq_length).
  assert (A1 : ax1 (values a) = ax1 (values t)) by (rewrite Va; cbn; apply seq_length).
  assert (A2 : ax2 (values a) = ax2 (values t)) by (rewrite Va; cbn; apply seq_length).
  assert (A3 : ax3 (values a) = (n - 1)%nat) by (rewrite Va; cbn; apply seq_length).
  change (set_values (rdiv_scalar 1%Qc a) v) with (set_values a v).
  set (obj := set_values a v).
  assert (Wobj : wf obj) by (apply wf_set_values; auto; apply Ca).
  assert (Hmon : forall o d, (o < ax2 (values t))%nat -> (d < n - 1)%nat -> month_of obj o d = month_of t o d).
  { intros o d Ho Hd. change (month_of obj o d) with (month_of a o d). rewrite Ea.
    change (month_of (set_vdate ?s ?w) o d) with (month_of s o d). unfold sel_dev.
    rewrite month_of_sel by (rewrite seq_length; auto). rewrite !seq_nth by auto. reflexivity. }
  assert (Hfut : forall o d, (o < ax2 (values t))%nat -> (d < n - 1)%nat -> (vdate obj <? month_of t o d) = (vdate t <? month_of t o d)).
  { intros o d Ho Hd. rewrite <- Hmon by auto.
    assert (E : month_of obj o d = month_of (sel_dev t (seq 0 (n - 1))) o d).
    { change (month_of obj o d) with (month_of a o d). rewrite Ea. reflexivity. }
    rewrite E. apply (cl_fut _ _ Ca); cbn; rewrite seq_length; auto. }
  assert (Hcell : forall i c o d, (i < ax0 (values t))%nat -> (c < ax1 (values t))%nat -> (o < ax2 (values t))%nat -> (d < n - 1)%nat ->
     av v i c o d = cmul (n2n (cdiv (Some 1%Qc) (cel t i c o d))) (cel t i c o (S d))).
  { intros i c o d Hi Hc Ho Hd. rewrite Dv by lia. rewrite Va, Vb. cbn [values sel_dev sel_tri sel_arr av map_arr].
    rewrite !seq_nth by auto. reflexivity. }
  assert (Kk : kdims obj = kdims t) by (unfold obj; rewrite Ea; cbn; apply sel_seq_all; apply W).
  assert (Kv : vdims obj = vdims t) by (unfold obj; rewrite Ea; cbn; apply sel_seq_all; apply W).
  assert (Ko : odims obj = odims t) by (unfold obj; rewrite Ea; cbn; apply sel_seq_all; apply W).
  assert (Kd : ddims obj = dmap (fun l => sel l 0 (seq 0 (n - 1))) (ddims t)) by (unfold obj; rewrite Ea; reflexivity).
  assert (Ln : n = List.length (dlist (ddims t))) by apply W.
  destruct (is_full obj) eqn:Ef.
  - (* nothing to filter *)
    cbn [rbind]. eexists. split; [reflexivity|].
    split. { apply (wf_set_values (set_cumulative (set_pattern obj true) (Some false))); [|reflexivity..]. apply (wf_same_frame obj); [exact Wobj|]. repeat split. }
    split.
    { intros i c o d (Ri & Rc & Ro & Rd) Fu. cbn in Ri, Rc, Ro, Rd. unfold cel. cbn.
      rewrite Hcell by lia. assert (Ft : future t o d). { unfold future in *. change (vdate obj < month_of obj o d) in Fu. rewrite Hmon in Fu by lia. apply Z.ltb_lt. rewrite <- Hfut by lia. apply Z.ltb_lt, Fu. }
      rewrite (B i c o d); [|repeat split; lia|exact Ft]. destruct (cel t i c o (S d)); reflexivity. }
    split; [reflexivity|]. cbn. rewrite Ea. repeat split. change (vdate a <= vdate t). apply Ca.
  - (* filter valuations before the valuation date *)
    assert (Hmin : (Nat.min (ax2 (values t)) (n - 1) =? 1)%nat = false).
    { destruct (Nat.eqb_spec (Nat.min (ax2 (values t)) (n - 1)) 1) as [E|E]; auto.
      exfalso. rewrite <- not_true_iff_false in Ef. apply Ef. unfold is_full. apply forallb_forall. intros o _.
      apply forallb_forall. intros d _. unfold nan_triangle. cbn [obj set_values values]. rewrite D2, D3, A2, A3, E. reflexivity. }
    assert (Hv : vdate obj = vdate t).
    { destruct (cl_max _ _ Ca) as [E|E]; [exact E|]. exfalso.
      rewrite <- not_true_iff_false in Ef. apply Ef. unfold is_full. apply forallb_forall. intros o Ho. apply in_seq in Ho.
      apply forallb_forall. intros d Hd. apply in_seq in Hd. cbn [obj set_values values] in Ho, Hd. rewrite D2, A2 in Ho. rewrite D3, A3 in Hd.
      rewrite nan_triangle_cases; auto; [|cbn; lia|cbn; lia]. cbn [obj set_values values]. rewrite D2, D3, A2, A3, Hmin.
      fold obj. rewrite Hmon by lia.
      specialize (E o d). cbn [sel_dev sel_tri values sel_arr ax2 ax3] in E. rewrite !seq_length in E.
      change (vdate obj) with (vdate a).
      assert (E2 : month_of (sel_dev t (seq 0 (n - 1))) o d = month_of t o d).
      { unfold sel_dev. rewrite month_of_sel by (rewrite seq_length; lia). rewrite !seq_nth by lia. reflexivity. }
      rewrite E2 in E. destruct (Z.ltb_spec (vdate a) (month_of t o d)); [|reflexivity]. lia. }
    unfold getitem_valuation. cbn [obj set_values values]. rewrite D3, A3. fold obj.
    pose proof (wf_o1 _ W) as O1.
    assert (Hn1 : (1 <? n - 1)%nat = true).
    { apply Nat.ltb_lt. destruct (Nat.eqb_spec (Nat.min (ax2 (values t)) (n - 1)) 1); [discriminate|]. lia. }
    rewrite Hn1.
    set (key := fun o d => valuation obj o d <? vdate obj).
    assert (O2 : ax2 (values obj) = ax2 (values t)) by (cbn; lia).
    assert (O3 : ax3 (values obj) = (n - 1)%nat) by (cbn; lia).
    assert (Hkey : forall o d, (o < ax2 (values t))%nat -> (d < n - 1)%nat -> (key o d = true <-> month_of t o d < vdate t)).
    { intros o d Ho Hd. unfold key. rewrite valuation_month by (auto; lia). rewrite Hmon, Hv by auto. apply Z.ltb_lt. }
    assert (Hpre_r : exists k, (k <= ax2 (values t))%nat /\ kept_rows obj key = seq 0 k).
    { unfold kept_rows. rewrite O2, O3. apply filter_prefix. intros x y Hy Hx Hf.
      apply existsb_exists in Hf. destruct Hf as (d & Hd & Hk). apply in_seq in Hd. apply existsb_exists. exists d.
      split; [apply in_seq; lia|]. apply Hkey in Hk; [|lia|lia]. apply Hkey; [lia|lia|].
      pose proof (month_mono_o t y x d W). lia. }
    assert (Hpre_c : exists k, (k <= n - 1)%nat /\ kept_cols obj key = seq 0 k).
    { unfold kept_cols. rewrite O2, O3. apply filter_prefix. intros x y Hy Hx Hf.
      apply existsb_exists in Hf. destruct Hf as (o & Ho & Hk). apply in_seq in Ho. apply existsb_exists. exists o.
      split; [apply in_seq; lia|]. apply Hkey in Hk; [|lia|lia]. apply Hkey; [lia|lia|].
      pose proof (month_mono t o y x W). lia. }
    destruct Hpre_r as (kr & Hkr & Er). destruct Hpre_c as (kc & Hkc & Ec).
    assert (Hk1 : key o1 d1 = true).
    { apply Hkey; [auto|lia|]. pose proof (month_strict t o1 d1 (S d1) W Ho1). lia. }
    assert (Ir : In o1 (kept_rows obj key)) by (apply in_kept_rows; split; [lia|]; exists d1; split; auto; lia).
    assert (Ic : In d1 (kept_cols obj key)) by (apply in_kept_cols; split; [lia|]; exists o1; split; auto; lia).
    rewrite Er in Ir. rewrite Ec in Ic. apply in_seq in Ir, Ic.
    destruct (contig_prefix kr) as (so & Eso & Sso); [lia|]. destruct (contig_prefix kc) as (sd & Esd & Ssd); [lia|].
    destruct (slice_valuation_ok obj key so sd Wobj) as (w & Ew & Sw); auto.
    + exists o1, d1. repeat split; auto; lia.
    + rewrite Er; auto.
    + rewrite Ec; auto.
    + rewrite Ew. cbn [rbind]. eexists. split; [reflexivity|].
      split. { apply (wf_set_values (set_cumulative (set_pattern w true) (Some false))); [|reflexivity..]. apply (wf_same_frame w); [exact (sl_wf _ _ _ Sw)|]. repeat split. }
      split.
      { intros i c o d (Ri & Rc & Ro & Rd) Fu. cbn in Ri, Rc, Ro, Rd.
        rewrite (sl_0 _ _ _ Sw) in Ri. rewrite (sl_1 _ _ _ Sw) in Rc. rewrite (sl_2 _ _ _ Sw), Er, seq_length in Ro.
        rewrite (sl_3 _ _ _ Sw), Ec, seq_length in Rd. cbn [obj set_values values] in Ri, Rc. rewrite D0, A0 in Ri. rewrite D1, A1 in Rc.
        unfold cel. cbn. change (av (values w) i c o d) with (cel w i c o d).
        rewrite (sl_cell _ _ _ Sw); [|cbn; lia|cbn; lia|rewrite Er, seq_length; lia|rewrite Ec, seq_length; lia].
        rewrite Er, Ec, !seq_nth by auto. cbn [Nat.add]. destruct (key o d) eqn:Ek; [|reflexivity]. exfalso.
        pose proof (sl_vge _ _ _ Sw o d ltac:(lia) ltac:(lia) Ek) as G. change (vdate w < month_of w o d) in Fu.
        assert (Mw : month_of w o d = month_of obj o d).
        { unfold month_of. rewrite (sl_d _ _ _ Sw), (sl_o _ _ _ Sw), Er, Ec. destruct (ddims obj) as [l|l]; cbn [dmap]; unfold sel;
            rewrite !nth_map_seq by lia; reflexivity. }
        rewrite Mw in Fu. apply Hkey in Ek; [|lia|lia]. rewrite (Hmon o d) in * by lia. lia. }
      split; [reflexivity|]. cbn. rewrite (sl_og _ _ _ Sw), (sl_dg _ _ _ Sw), (sl_kl _ _ _ Sw). pose proof (sl_vle _ _ _ Sw). cbn. rewrite Ea. repeat split. lia.
Qed.

Lemma firstn_map_seq {A} (f : nat -> A) n k : (k <= n)%nat -> firstn k (map f (seq 0 n)) = map f (seq 0 k).
Proof.
  intros H. rewrite firstn_map. f_equal. replace n with (k + (n - k))%nat by lia. rewrite seq_app, firstn_app, seq_length, Nat.sub_diag. cbn [firstn].
  rewrite app_nil_r. rewrite <- (seq_length k 0) at 1. apply firstn_all.
Qed.
Lemma link_testable t o0 a0 h m : wf t -> blank_future t -> is_pattern t = false -> age_grid t o0 a0 h m -> before_ultimate t ->
  (m < ax3 (values t))%nat -> ~ future t 0 m -> two_amounts t ->
  exists lr, link_ratio t = Ok lr /\ testable lr o0 a0 h m /\
    ax0 (values lr) = ax0 (values t) /\ ax1 (values lr) = ax1 (values t) /\
    (ax2 (values lr) <= ax2 (values t))%nat /\ (ax3 (values lr) < ax3 (values t))%nat /\
    (forall o d, (o < ax2 (values lr))%nat -> (d < ax3 (values lr))%nat -> month_of t o (S d) = month_of lr o d + Z.of_nat h) /\
    (forall i c o d, in_range lr i c o d -> age_to_age (cel t i c o d) (cel t i c o (S d)) (cel lr i c o d)).
Proof.
  intros W B Hp G U Hm Fm (i & c & o & d & (Ri & Rc & Ro & Rd) & O1 & A1 & A2).
  assert (Nf : ~ future t o (S d)).
  { intros F. apply A2. unfold amount. rewrite (B i c o (S d)); auto. repeat split; auto. }
  assert (Ex : exists o d, (o < ax2 (values t))%nat /\ (S d < ax3 (values t))%nat /\ month_of t o (S d) <= vdate t) by (exists o, d; unfold future in Nf; repeat split; auto; lia).
  destruct (link_ratio_ok t W B Hp Ex) as (u & no & nd & Eu & K & V & Eo & Ed & Hno & Hnd & D0 & D1 & D2 & D3 & Pt & Cells & Out).
  destruct (link_ratio_frame t W B Hp Ex) as (u' & Eu' & Wu & Bu & Cu & Og & Dg & Kl & Vd). assert (u' = u) by congruence. subst u'.
  destruct G as (H1 & M1 & Go & Gd & G9 & Gg & Gog).
  assert (In' : (o < no)%nat /\ (d < nd)%nat).
  { destruct (Nat.ltb_spec o no), (Nat.ltb_spec d nd); auto; exfalso; apply Nf, Out; auto; lia. }
  assert (Gu : age_grid u o0 a0 h m).
  { split; [auto|]. split; [auto|]. rewrite D2, D3, Eo, Ed, Go, Gd. cbn [dmap]. rewrite !firstn_map_seq by lia. repeat split; auto; try congruence. intros k Hk. apply G9. lia. }
  assert (Mn : forall o d, (o < no)%nat -> (d < nd)%nat -> month_of u o d = month_of t o d).
  { intros o' d' Ho' Hd'. unfold month_of. rewrite Ed, Eo, Gd, Go. cbn [dmap]. rewrite !firstn_map_seq by lia. rewrite !nth_map_seq by lia. reflexivity. }
  exists u. split; auto. split; [|split; [auto|split; [auto|split; [lia|split; [lia|split; [|exact Cells]]]]]].
  - constructor; auto; try congruence.
    + right. left. rewrite D3. destruct (Nat.leb_spec m nd) as [L|L]; auto. exfalso. apply Fm. destruct m as [|m']; [lia|]. apply Out; [pose proof (wf_o1 _ W); lia|auto|lia].
    + right. exists i, c, o, d. split; [repeat split; lia|]. split; auto. destruct (Cells i c o d) as (C1 & _); [repeat split; lia|]. rewrite C1; auto. discriminate.
    + intros o' d' Ho' Hd'. rewrite Mn by lia. apply U; lia.
  - intros o' d' Ho' Hd'. rewrite Mn by lia. unfold month_of. rewrite Gd. unfold age_month. rewrite !nth_map_seq by lia.
    destruct (Z.eqb_spec (a0 + Z.of_nat (h * S d')) 9999) as [E|E]; [exfalso; apply (G9 (S d')); auto; lia|].
    destruct (Z.eqb_spec (a0 + Z.of_nat (h * d')) 9999) as [E'|E']; [exfalso; apply (G9 d'); auto; lia|]. nia.
Qed.
