(** Proofs about the Munich chain ladder: the triangles the residuals are taken from. *)
From Coq Require Import Lia.
From Verif Require Import Spec TriFacts ArrFacts ConvFacts SliceFacts P_Core P_Filter P_Arith P_Agg P_Corr2 P_Corr3 P_Corr5 NumFacts Arith SpecCorr.
Local Open Scope nat_scope.

(** The latest origin has no link ratio. *)
Lemma square_link_rows t n o0 a0 h : wf t -> blank_future t -> is_pattern t = false -> square t n o0 a0 h -> 3 <= n ->
  exists u, link_ratio t = Ok u /\ ax2 (values u) = n - 1.
Proof.
  intros W B Hp Q Hn3. pose proof Q as (R & E2 & E3). unfold link_ratio. rewrite Hp.
  assert (Hn : 2 <= ax3 (values t)) by lia.
  destruct (iloc_dev_init t W Hn) as (a & -> & Ca). cbn [rbind].
  destruct (iloc_dev_tail t W Hn) as (b & -> & Cb). cbn [rbind]. rewrite E3 in Ca, Cb.
  pose proof (cl_eq _ _ Ca) as Ea. pose proof (cl_eq _ _ Cb) as Eb.
  unfold mul_arr.
  assert (Va : values a = values (sel_dev t (seq 0 (n - 1)))) by (rewrite Ea; reflexivity).
  assert (Vb : values b = values (sel_dev t (seq 1 (n - 1)))) by (rewrite Eb; reflexivity).
  destruct (bmap2_same cmul (values (rdiv_scalar 1%Qc a)) (values b)) as (v & -> & D0 & D1 & D2 & D3 & _);
    try (cbn; rewrite Va, Vb; cbn; rewrite ?seq_length; reflexivity).
  cbn [rbind]. cbn [rdiv_scalar set_values values map_arr ax0 ax1 ax2 ax3] in D0, D1, D2, D3.
  assert (A2 : ax2 (values a) = n) by (rewrite Va; cbn; rewrite seq_length; auto).
  assert (A3 : ax3 (values a) = n - 1) by (rewrite Va; cbn; apply seq_length).
  change (set_values (rdiv_scalar 1%Qc a) v) with (set_values a v).
  set (obj := set_values a v).
  assert (Wobj : wf obj) by (apply wf_set_values; auto; apply Ca).
  assert (Hmon : forall o d, o < n -> d < n - 1 -> month_of obj o d = month_of t o d).
  { intros o d Ho Hd. change (month_of obj o d) with (month_of a o d). rewrite Ea.
    change (month_of (set_vdate ?s ?w) o d) with (month_of s o d). unfold sel_dev.
    rewrite month_of_sel by (rewrite seq_length; lia). rewrite !seq_nth by lia. reflexivity. }
  assert (Hfut : forall o d, o < n -> d < n - 1 -> (vdate obj <? month_of t o d)%Z = (vdate t <? month_of t o d)%Z).
  { intros o d Ho Hd. rewrite <- Hmon by auto.
    assert (E : month_of obj o d = month_of (sel_dev t (seq 0 (n - 1))) o d).
    { change (month_of obj o d) with (month_of a o d). rewrite Ea. reflexivity. }
    rewrite E. apply (cl_fut _ _ Ca); cbn; rewrite seq_length; auto; lia. }
  assert (O2 : ax2 (values obj) = n) by (cbn; lia).
  assert (O3 : ax3 (values obj) = n - 1) by (cbn; lia).
  assert (Fl : (vdate t < month_of t (n - 1) 1)%Z) by (apply (square_future _ _ _ _ _ _ _ Q); lia).
  assert (Ef : is_full obj = false).
  { apply not_true_iff_false. intros F. unfold is_full in F. rewrite forallb_forall in F. specialize (F (n - 1) ltac:(apply in_seq; lia)).
    rewrite forallb_forall in F. specialize (F 1 ltac:(apply in_seq; lia)). rewrite nan_triangle_cases in F; auto; try lia.
    rewrite O2, O3, Hmon, Hfut in F by lia. destruct (Nat.eqb_spec (Nat.min n (n - 1)) 1); [lia|].
    destruct (Z.ltb_spec (vdate t) (month_of t (n - 1) 1)); [|lia]. discriminate F. }
  rewrite Ef.
  assert (Vle : (vdate obj <= vdate t)%Z) by (change (vdate a <= vdate t)%Z; apply Ca).
  assert (Vge : (vdate t <= vdate obj)%Z).
  { pose proof (Hfut 1 (n - 2) ltac:(lia) ltac:(lia)) as H. rewrite (square_month _ _ _ _ _ _ _ Q) in H by lia. rewrite (square_vdate _ _ _ _ _ Q) in *.
    replace (1 + (n - 2)) with (n - 1) in H by lia. rewrite Z.ltb_irrefl in H. apply Z.ltb_ge in H. exact H. }
  set (key := fun o d => (valuation obj o d <? vdate obj)%Z).
  assert (K : forall o d, o < n -> d < n - 1 -> (key o d = true <-> o + d < n - 1)).
  { intros o d Ho Hd. unfold key. rewrite valuation_month by (auto; lia). rewrite Hmon by auto. replace (vdate obj) with (vdate t) by lia.
    rewrite (square_month _ _ _ _ _ _ _ Q), (square_vdate _ _ _ _ _ Q), Z.ltb_lt by lia. assert (1 <= h) by apply R. nia. }
  destruct (getitem_valuation_ok obj key Wobj ltac:(lia)) as (u & Eu & Su).
  - exists 0, 0. split; [lia|]. split; [lia|]. apply K; lia.
  - apply (evenly_interval _ _ 0 (n - 1)). rewrite O2, O3. intros o Ho. split; [intros (d & Hd & Kd); apply K in Kd; lia|]. intros L. exists 0. split; [lia|]. apply K; lia.
  - apply (evenly_interval _ _ 0 (n - 1)). rewrite O2, O3. intros d Hd. split; [lia|]. intros L. exists 0. split; [lia|]. apply K; lia.
  - fold key. rewrite Eu. cbn [rbind]. eexists. split; [reflexivity|]. cbn [set_values values map_arr ax2].
    rewrite (sl_2 _ _ _ Su). unfold kept_rows. rewrite O2, O3.
    replace (seq 0 n) with (seq 0 (n - 1) ++ [n - 1]) by (replace n with (S (n - 1)) at 3 by lia; rewrite seq_S; reflexivity).
    rewrite filter_app. cbn [filter]. destruct (existsb _ _) eqn:E.
    + exfalso. apply existsb_exists in E. destruct E as (d & Hd & Kd). apply in_seq in Hd. apply K in Kd; lia.
    + rewrite app_nil_r, filter_all, seq_length; auto. intros o Ho. apply in_seq in Ho. apply existsb_exists. exists 0. split; [apply in_seq; lia|]. apply K; lia.
Qed.

(** The triangle less its latest diagonal. *)
Lemma less_latest t n o0 a0 h : wf t -> blank_future t -> square t n o0 a0 h -> complete t -> 2 <= n ->
  exists l u, getitem_valuation t (fun o d => (valuation t o d =? vdate t)%Z) = Ok l /\ tri_op OSub t l = Ok u /\
    forall i c o d, i < ax0 (values t) -> c < ax1 (values t) -> o < n -> d < n ->
      cel u i c o d = if o + d <? n - 1 then Some (amount t i c o d) else None.
Proof.
  intros W B Q Cm Hn. pose proof Q as (R & E2 & E3). set (key := fun o d => (valuation t o d =? vdate t)%Z).
  assert (H1 : 1 <= h) by apply R.
  assert (K : forall o d, o < n -> d < n -> (key o d = true <-> o + d = n - 1)).
  { intros o d Ho Hd. unfold key. rewrite valuation_month by (auto; lia). rewrite (square_month _ _ _ _ _ _ _ Q Ho Hd), (square_vdate _ _ _ _ _ Q), Z.eqb_eq. nia. }
  assert (Rw : kept_rows t key = seq 0 n).
  { unfold kept_rows. rewrite E2. apply filter_all. intros o Ho. apply in_seq in Ho. apply existsb_exists. exists (n - 1 - o). split; [apply in_seq; lia|]. apply K; lia. }
  assert (Cl : kept_cols t key = seq 0 n).
  { unfold kept_cols. rewrite E3. apply filter_all. intros o Ho. apply in_seq in Ho. apply existsb_exists. exists (n - 1 - o). split; [apply in_seq; lia|]. apply K; lia. }
  destruct (getitem_valuation_ok t key W ltac:(lia)) as (l & El & Sl).
  - exists 0, (n - 1). split; [lia|]. split; [lia|]. apply K; lia.
  - apply (evenly_interval _ _ 0 n). intros o Ho. split; [lia|]. intros L. exists (n - 1 - o). split; [lia|]. apply K; lia.
  - apply (evenly_interval _ _ 0 n). intros d Hd. split; [lia|]. intros L. exists (n - 1 - d). split; [lia|]. apply K; lia.
  - assert (C : forall i c o d, i < ax0 (values t) -> c < ax1 (values t) -> o < n -> d < n -> cel l i c o d = if o + d =? n - 1 then n2n (cel t i c o d) else None).
    { intros i c o d Hi Hc Ho Hd. rewrite (sl_cell _ _ _ Sl) by (rewrite ?Rw, ?Cl, ?seq_length; auto). rewrite Rw, Cl, !seq_nth by lia. cbn [Nat.add].
      destruct (key o d) eqn:Kd; destruct (Nat.eqb_spec (o + d) (n - 1)) as [L|L]; auto; [apply K in Kd; auto; contradiction|].
      exfalso. assert (key o d = true) by (apply K; auto). congruence. }
    assert (Ol : odims l = odims t) by (rewrite (sl_o _ _ _ Sl), Rw; apply sel_seq_all; rewrite <- (wf_o _ W); auto).
    assert (Dl : ddims l = ddims t).
    { rewrite (sl_d _ _ _ Sl), Cl. pose proof (wf_d _ W) as Wd. destruct (ddims t) as [x|x]; cbn [dmap dlist] in *; f_equal; apply sel_seq_all; congruence. }
    assert (S : same_axes t l) by (constructor; try apply Sl; auto).
    assert (L2 : ax2 (values l) = n) by (rewrite (sl_2 _ _ _ Sl), Rw, seq_length; auto).
    assert (L3 : ax3 (values l) = n) by (rewrite (sl_3 _ _ _ Sl), Cl, seq_length; auto).
    assert (Vl : vdate l = vdate t).
    { pose proof (sl_vle _ _ _ Sl). pose proof (sl_vge _ _ _ Sl 0 (n - 1) ltac:(lia) ltac:(lia) ltac:(apply K; lia)) as G.
      rewrite (square_month _ _ _ _ _ _ _ Q) in G by lia. rewrite (square_vdate _ _ _ _ _ Q) in *. cbn [Nat.add] in G. lia. }
    assert (Bl : blank_future l).
    { intros i c o d (Ri & Rc & Ro & Rd) F. rewrite (sl_0 _ _ _ Sl) in Ri. rewrite (sl_1 _ _ _ Sl) in Rc. rewrite L2 in Ro. rewrite L3 in Rd.
      assert (F' : future t o d) by (unfold future in *; rewrite Vl in F; unfold month_of in *; rewrite Ol, Dl in F; exact F).
      rewrite (square_future _ _ _ _ _ _ _ Q) in F' by auto. rewrite C by auto. destruct (Nat.eqb_spec (o + d) (n - 1)); auto. lia. }
    destruct (addsub_same OSub t l) as (u & Eu & Wu & _ & _ & _ & St); auto; [right; reflexivity|apply Sl|].
    exists l, u. split; [exact El|]. split; [exact Eu|]. intros i c o d Hi Hc Ho Hd. specialize (St i c o d ltac:(repeat split; auto; lia)).
    cbn [qop] in St. assert (Al : amount l i c o d = if o + d =? n - 1 then amount t i c o d else 0%Qc).
    { unfold amount. rewrite C by auto. destruct (o + d =? n - 1); auto. unfold n2n. destruct (cel t i c o d) as [x|]; auto. cbn [nz]. destruct (Qc_eqb_spec x 0%Qc); auto. }
    rewrite Al in St. destruct St as (S0 & S1). destruct (Nat.ltb_spec (o + d) (n - 1)) as [L|L].
    + destruct (Nat.eqb_spec (o + d) (n - 1)); [lia|]. assert (N : amount t i c o d <> 0%Qc) by (apply Cm; [repeat split; auto; lia|]; rewrite (square_future _ _ _ _ _ _ _ Q) by auto; lia).
      replace (amount t i c o d - 0)%Qc with (amount t i c o d) in S1 by ring. apply S1, N.
    + apply S0. destruct (Nat.eqb_spec (o + d) (n - 1)); [ring|]. unfold amount. rewrite (B i c o d); [cbn; ring|repeat split; auto; lia|]. rewrite (square_future _ _ _ _ _ _ _ Q) by auto. lia.
Qed.
