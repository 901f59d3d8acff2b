(** Proofs for C01-C04, C10, C11, C17. *)
From Coq Require Import Lia Sorted.
From Verif Require Export SliceFacts.
Local Open Scope Z_scope.

Lemma stores_n2n q : stores (n2n (Some q)) q.
Proof. split; intros H; [subst; reflexivity | apply n2n_Some; auto]. Qed.
Lemma stores_n2n_nz x : stores (n2n x) (nz x).
Proof. destruct x; [apply stores_n2n|]. split; [auto|intros H; exfalso; apply H; reflexivity]. Qed.
Lemma stores_None : stores None 0%Qc.
Proof. split; auto. congruence. Qed.
Lemma stores_nz x q : stores x q -> nz x = q.
Proof.
  intros [H1 H2]. destruct (Qc_eqb_spec q 0%Qc) as [E|E].
  - rewrite (H1 E), E; auto.
  - rewrite (H2 E); auto.
Qed.
Lemma stores_n2n_id x q : stores x q -> n2n x = x.
Proof.
  intros [H1 H2]. destruct (Qc_eqb_spec q 0%Qc) as [E|E].
  - rewrite (H1 E); auto.
  - rewrite (H2 E). apply n2n_Some; auto.
Qed.

Lemma wf_same_frame t u : wf t -> same_frame t u -> wf u.
Proof.
  intros W F. destruct F as [F1 F2 F3 F4 F5 F6 F7 F8 F9 F10 F11 F12].
  destruct W as [A1 A2 A3 A4 A5 A6 A7 A8 A9 A10].
  constructor; rewrite ?F1, ?F3, ?F4, ?F5, ?F6, ?F9, ?F10, ?F11, ?F12; auto.
Qed.
Lemma month_same_frame t u o d : same_frame t u -> month_of u o d = month_of t o d.
Proof. intros F. unfold month_of. rewrite (sf_d _ _ F), (sf_o _ _ F). reflexivity. Qed.
Lemma future_same_frame t u o d : same_frame t u -> future u o d <-> future t o d.
Proof. intros F. unfold future. rewrite (month_same_frame t u), (sf_vd _ _ F); auto. tauto. Qed.
Lemma range_same_frame t u i c o d : same_frame t u -> in_range u i c o d <-> in_range t i c o d.
Proof. intros F. unfold in_range. rewrite (sf_0 _ _ F), (sf_1 _ _ F), (sf_2 _ _ F), (sf_3 _ _ F). tauto. Qed.
Lemma same_frame_trans a b c : same_frame a b -> same_frame b c -> same_frame a c.
Proof. intros [] []. constructor; congruence. Qed.
Lemma same_frame_refl a : same_frame a a.
Proof. constructor; reflexivity. Qed.
Lemma same_frame_sym a b : same_frame a b -> same_frame b a.
Proof. intros []. constructor; congruence. Qed.

(** In the shapes where conversion is exact, the two masks agree with "not in the future". *)
Lemma rt_cum_mask t o d : round_trip_shape t -> (o < ax2 (values t))%nat -> (d < ax3 (values t))%nat ->
  ((Nat.min (ax2 (values t)) (ax3 (values t)) =? 1)%nat || negb (vdate t <? month_of t o d)) = negb (vdate t <? month_of t o d).
Proof.
  intros [[H1 H2]|[H1 H2]] Ho Hd.
  - destruct (Nat.eqb_spec (Nat.min (ax2 (values t)) (ax3 (values t))) 1); [lia|]. reflexivity.
  - specialize (H2 o d Ho Hd). unfold future in H2. destruct (Z.ltb_spec (vdate t) (month_of t o d)); [lia|]. apply orb_true_r.
Qed.
Lemma rt_diff_mask t o d : round_trip_shape t -> (o < ax2 (values t))%nat -> (d < ax3 (values t))%nat ->
  diff_kept t o d = negb (vdate t <? month_of t o d).
Proof.
  intros [[H1 H2]|[H1 H2]] Ho Hd; unfold diff_kept.
  - destruct (Nat.eqb_spec (Nat.min (ax2 (values t)) (ax3 (values t) - 1)) 1); [lia|]. reflexivity.
  - specialize (H2 o d Ho Hd). unfold future in H2. destruct (Z.ltb_spec (vdate t) (month_of t o d)); [lia|]. apply orb_true_r.
Qed.
Lemma rt_nd t : round_trip_shape t -> (2 <= ax3 (values t))%nat.
Proof. intros [[]|[]]; lia. Qed.
Lemma rt_same_frame t u : same_frame t u -> round_trip_shape t -> round_trip_shape u.
Proof.
  intros F [[H1 H2]|[H1 H2]].
  - left. rewrite (sf_2 _ _ F), (sf_3 _ _ F). auto.
  - right. split; [rewrite (sf_3 _ _ F); auto|]. intros o d Ho Hd.
    rewrite (sf_2 _ _ F) in Ho. rewrite (sf_3 _ _ F) in Hd. rewrite (future_same_frame t u); auto.
Qed.

Lemma incr_cum_incr t : wf t -> blank_future t -> is_pattern t = false -> is_cumulative t <> Some true ->
  round_trip_shape t ->
  exists u, cum_to_incr (incr_to_cum t) = Ok u /\ same_frame t u /\ is_cumulative u = Some false /\
    forall i c o d, in_range t i c o d -> stores (cel u i c o d) (amount t i c o d).
Proof.
  intros W B Hp Hc R. destruct (incr_to_cum_frame t Hp Hc) as (F & Fc & Fp).
  set (m := incr_to_cum t) in *.
  assert (Wm : wf m) by (eapply wf_same_frame; eauto).
  assert (Rm : round_trip_shape m) by (eapply rt_same_frame; eauto).
  destruct (cum_to_incr_cell m Wm Fp) as (u & Eu & Fu & Uc & Up & Ucell);
    [congruence | apply rt_nd; auto |].
  exists u. split; [exact Eu|]. split; [eapply same_frame_trans; eauto|]. split; [exact Uc|].
  intros i c o d Rg. rewrite Ucell by (apply (range_same_frame t m); auto).
  destruct Rg as (Ri & Rc & Ro & Rd).
  assert (Hm : forall k, (k < ax3 (values t))%nat -> cel m i c o k =
      if negb (vdate t <? month_of t o k) then n2n (Some (sumn (S k) (fun j => amount t i c o j))) else None).
  { intros k Hk. unfold m. rewrite incr_to_cum_cell by auto. rewrite rt_cum_mask by auto. reflexivity. }
  destruct d as [|d].
  - rewrite Hm by auto. destruct (Z.ltb_spec (vdate t) (month_of t o 0)); cbn [negb].
    + assert (E : cel t i c o 0 = None) by (apply B; [repeat split|]; auto).
      unfold amount. rewrite E. apply stores_None.
    + replace (sumn 1 (fun j => amount t i c o j)) with (amount t i c o 0%nat) by (simpl; ring).
      apply stores_n2n.
  - rewrite rt_diff_mask; [|auto|rewrite (sf_2 _ _ F); auto | rewrite (sf_3 _ _ F); auto].
    rewrite (month_same_frame t m) by auto. rewrite (sf_vd _ _ F).
    destruct (Z.ltb_spec (vdate t) (month_of t o (S d))) as [L|L]; cbn [negb].
    + assert (E : cel t i c o (S d) = None) by (apply B; [repeat split|]; auto).
      unfold amount. rewrite E. apply stores_None.
    + assert (L' : month_of t o d <= vdate t).
      { pose proof (month_mono t o d (S d) W Ro). lia. }
      unfold amount at 1 2. rewrite !Hm by lia.
      destruct (Z.ltb_spec (vdate t) (month_of t o (S d))); [lia|].
      destruct (Z.ltb_spec (vdate t) (month_of t o d)); [lia|]. cbn [negb].
      rewrite !nz_n2n. cbn [nz].
      replace (sumn (S (S d)) (fun j => amount t i c o j) - sumn (S d) (fun j => amount t i c o j))%Qc
        with (amount t i c o (S d)) by (simpl; ring).
      apply stores_n2n.
Qed.

Lemma cum_incr_cum t : wf t -> blank_future t -> is_pattern t = false -> is_cumulative t <> Some false ->
  (2 <= ax3 (values t))%nat ->
  exists u, cum_to_incr t = Ok u /\ same_frame t (incr_to_cum u) /\ is_cumulative (incr_to_cum u) = Some true /\
    forall i c o d, in_range t i c o d -> stores (cel (incr_to_cum u) i c o d) (amount t i c o d).
Proof.
  intros W B Hp Hc R.
  destruct (cum_to_incr_cell t W Hp Hc R) as (u & Eu & F & Uc & Up & Ucell).
  exists u. split; [exact Eu|].
  destruct (incr_to_cum_frame u Up ltac:(congruence)) as (Fu & Fc & _).
  split; [eapply same_frame_trans; eauto|]. split; [exact Fc|].
  intros i c o d Rg.
  assert (Wu : wf u) by (eapply wf_same_frame; eauto).
  destruct Rg as (Ri & Rc & Ro & Rd).
  assert (Ro' : (o < ax2 (values u))%nat) by (rewrite (sf_2 _ _ F); auto).
  assert (Rd' : (d < ax3 (values u))%nat) by (rewrite (sf_3 _ _ F); auto).
  rewrite incr_to_cum_cell; auto; [|congruence].
  rewrite (month_same_frame t u) by auto. rewrite (sf_vd _ _ F), (sf_2 _ _ F), (sf_3 _ _ F).
  assert (E : (Nat.min (ax2 (values t)) (ax3 (values t)) =? 1)%nat || negb (vdate t <? month_of t o d) = true ->
     sumn (S d) (fun k => amount u i c o k) = amount t i c o d).
  { intros Hk. apply orb_true_iff in Hk.
    assert (Hkept : forall e, (e <= d)%nat -> diff_kept t o e = true).
    { intros e He. unfold diff_kept. destruct Hk as [Hk|Hk].
      - apply Nat.eqb_eq in Hk. destruct (Nat.eqb_spec (Nat.min (ax2 (values t)) (ax3 (values t) - 1)) 1); [reflexivity|].
        pose proof (wf_o1 _ W). lia.
      - apply negb_true_iff, Z.ltb_ge in Hk. pose proof (month_mono t o e d W Ro ltac:(lia)).
        destruct (Z.ltb_spec (vdate t) (month_of t o e)); [lia|]. apply orb_true_r. }
    clear Rd' Hk. induction d as [|d IH].
    - simpl. unfold amount at 1. rewrite Ucell by (repeat split; auto). unfold amount. ring.
    - change (sumn (S (S d)) ?f) with (sumn (S d) f + f (S d))%Qc.
      rewrite IH; [|lia|auto].
      unfold amount at 2. rewrite Ucell by (repeat split; auto).
      rewrite Hkept by lia. rewrite nz_n2n. cbn [nz]. ring. }
  destruct (_ || negb (vdate t <? month_of t o d)) eqn:Ek.
  - rewrite E by auto. apply stores_n2n.
  - apply orb_false_iff in Ek. destruct Ek as [_ Ek]. apply negb_false_iff, Z.ltb_lt in Ek.
    assert (E0 : cel t i c o d = None) by (apply B; [repeat split|]; auto).
    unfold amount. rewrite E0. apply stores_None.
Qed.

(** Both conversions leave an already converted triangle as it is. *)
Lemma incr_to_cum_idem t : incr_to_cum (incr_to_cum t) = incr_to_cum t.
Proof.
  unfold incr_to_cum at 2 3. destruct (is_cumulative t) as [[|]|] eqn:E.
  - unfold incr_to_cum. rewrite E. reflexivity.
  - destruct (is_pattern t); reflexivity.
  - destruct (is_pattern t); reflexivity.
Qed.
Lemma cum_to_incr_flag t u : cum_to_incr t = Ok u -> is_cumulative u = Some false.
Proof.
  unfold cum_to_incr. intros H.
  destruct (is_cumulative t) as [[|]|] eqn:E; [| congruence |];
    destruct (is_pattern t);
    repeat match type of H with
    | rbind ?e _ = Ok _ => destruct e; cbn [rbind] in H; [|discriminate H]
    end; injection H as <-; reflexivity.
Qed.
Lemma cum_to_incr_idem t u : cum_to_incr t = Ok u -> cum_to_incr u = Ok u.
Proof. intros H. apply cum_to_incr_flag in H. unfold cum_to_incr. rewrite H. reflexivity. Qed.

(** ** Latest diagonal *)
Lemma slice_origin_all t key : (1 <= ax2 (values t))%nat -> (forall o, (o < ax2 (values t))%nat -> key o = true) ->
  slice_origin t key = Ok (sel_tri t (seq 0 (ax0 (values t))) (seq 0 (ax1 (values t))) (seq 0 (ax2 (values t))) (seq 0 (ax3 (values t)))).
Proof.
  intros H1 Hk. unfold slice_origin.
  assert (E : filter key (seq 0 (ax2 (values t))) = seq 0 (ax2 (values t))).
  { assert (G : forall l, (forall x, In x l -> key x = true) -> filter key l = l).
    { induction l as [|x l IH]; simpl; intros Hl; auto. rewrite Hl by auto. f_equal; auto. }
    apply G. intros x Hx. apply Hk. apply in_seq in Hx. lia. }
  rewrite E. destruct (contig_prefix (ax2 (values t)) H1) as (s & Es & Ss). rewrite Es. cbn [rbind].
  destruct s; [|discriminate].
  rewrite (contig_slice_positions (seq 0 (ax2 (values t))) (ax2 (values t)) _ Es).
  - reflexivity.
  - apply seq_NoDup.
  - intros x Hx. apply in_seq in Hx. lia.
Qed.

Lemma sorted_lt_ext l1 l2 : StronglySorted lt l1 -> StronglySorted lt l2 -> (forall x, In x l1 <-> In x l2) -> l1 = l2.
Proof.
  intros H1; revert l2; induction H1 as [|a l1 Hs IH Hf]; intros l2 H2 E.
  - destruct l2 as [|b l2]; auto. exfalso. apply (proj2 (E b)). left; auto.
  - destruct l2 as [|b l2]; [exfalso; apply (proj1 (E a)); left; auto|].
    inversion H2 as [|? ? Hs2 Hf2]; subst. rewrite Forall_forall in Hf, Hf2.
    assert (a = b).
    { destruct (proj1 (E a) (or_introl eq_refl)) as [|Ha]; auto.
      destruct (proj2 (E b) (or_introl eq_refl)) as [|Hb]; auto.
      specialize (Hf _ Hb). specialize (Hf2 _ Ha). lia. }
    subst b. f_equal. apply IH; auto. intros x. split; intros Hx.
    + destruct (proj1 (E x) (or_intror Hx)) as [->|]; auto. specialize (Hf _ Hx). lia.
    + destruct (proj2 (E x) (or_intror Hx)) as [->|]; auto. specialize (Hf2 _ Hx). lia.
Qed.
Lemma ap_sorted a s m : (1 <= s)%nat -> StronglySorted lt (map (fun k => a + s * k)%nat (seq 0 m)).
Proof.
  intros Hs. generalize 0%nat. induction m as [|m IH]; intros b; simpl; constructor; auto.
  apply Forall_forall. intros x Hx. apply in_map_iff in Hx. destruct Hx as (k & <- & Hk). apply in_seq in Hk. nia.
Qed.
Lemma contig_ap a s m : (1 <= s)%nat -> (1 <= m)%nat ->
  exists sl, contig_slice (map Z.of_nat (map (fun k => a + s * k)%nat (seq 0 m))) = Ok sl /\ is_slice sl = true.
Proof.
  intros Hs Hm. destruct m as [|[|m]]; [lia| |].
  - simpl. eexists; split; reflexivity.
  - unfold contig_slice. set (L := map Z.of_nat (map _ _)).
    assert (EL : L = Z.of_nat (a + s * 0) :: Z.of_nat (a + s * 1) :: map Z.of_nat (map (fun k => a + s * k)%nat (seq 2 m))) by reflexivity.
    assert (Hd : forall b n, forall x, In x (zdiffs (map Z.of_nat (map (fun k => a + s * k)%nat (seq b n)))) -> x = Z.of_nat s).
    { intros b n; revert b; induction n as [|n IH]; intros b x Hx; [destruct Hx|].
      destruct n as [|n]; [destruct Hx|]. cbn [seq map zdiffs In] in Hx. destruct Hx as [Hx|Hx]; [nia|]. apply (IH (S b)). exact Hx. }
    specialize (Hd 0%nat (S (S m))). fold L in Hd. rewrite EL in *.
    destruct (zdiffs (Z.of_nat (a + s * 0) :: Z.of_nat (a + s * 1) :: map Z.of_nat (map (fun k => a + s * k)%nat (seq 2 m)))) as [|d ds] eqn:E; [discriminate E|].
    assert (Em : zmaxl ds d = Z.of_nat s) by (apply Hd; apply zmaxl_in).
    assert (En : zminl ds d = Z.of_nat s) by (apply Hd; apply zminl_in).
    rewrite Em, En. rewrite Z.eqb_refl. cbv iota zeta.
    match goal with |- context [if ?b then _ else _] => destruct b end; eexists; split; reflexivity.
Qed.

Lemma latest_diagonal_ok t : wf t -> even_diag t ->
  exists l, latest_diagonal t = Ok l /\ kdims l = kdims t /\ key_labels l = key_labels t /\ vdims l = vdims t /\
    odims l = odims t /\ vdate l = vdate t /\
    ax0 (values l) = ax0 (values t) /\ ax1 (values l) = ax1 (values t) /\ ax2 (values l) = ax2 (values t) /\ ax3 (values l) = 1%nat /\
    (forall i c o d, in_range t i c o d -> month_of t o d = vdate t -> stores (cel l i c o 0%nat) (amount t i c o d)) /\
    ((exists o o' d d', (o < ax2 (values t) /\ o' < ax2 (values t) /\ d < d' < ax3 (values t))%nat /\
        month_of t o d = vdate t /\ month_of t o' d' = vdate t) -> ddims l = Vals [vdate t]).
Proof.
  intros W [Hall (a & s & m & Hs & Hap)].
  pose proof (wf_o1 _ W) as O1. pose proof (wf_d1 _ W) as D1.
  unfold latest_diagonal, getitem_valuation.
  set (key := fun o d => valuation t o d =? vdate t).
  assert (Hkey : forall o d, (o < ax2 (values t))%nat -> (d < ax3 (values t))%nat -> (key o d = true <-> month_of t o d = vdate t)).
  { intros o d Ho Hd. unfold key. rewrite valuation_month by auto. apply Z.eqb_eq. }
  destruct (Nat.ltb_spec 1 (ax3 (values t))) as [Hn|Hn].
  - (* several columns *)
    assert (Er : kept_rows t key = seq 0 (ax2 (values t))).
    { apply sorted_lt_ext; [apply incr_pos_filter|apply (incr_pos_seq 0 _ (ax2 (values t))); lia|].
      intros x. rewrite in_kept_rows, in_seq. split; [intros [H _]; lia|].
      intros H. split; [lia|]. destruct (Hall x) as (d & Hd & E); [lia|]. exists d. split; auto. apply Hkey; auto; lia. }
    set (m' := List.length (filter (fun k => (a + s * k <? ax3 (values t))%nat) (seq 0 m))).
    assert (Em' : filter (fun k => (a + s * k <? ax3 (values t))%nat) (seq 0 m) = seq 0 m').
    { assert (G : forall n, exists k, filter (fun k => (a + s * k <? ax3 (values t))%nat) (seq 0 n) = seq 0 k).
      { induction n as [|n [k IH]]; [exists 0%nat; reflexivity|].
        rewrite seq_S, filter_app, IH. simpl. destruct (Nat.ltb_spec (a + s * n) (ax3 (values t))) as [L|L].
        - exists (S n). rewrite seq_S. simpl. f_equal.
          assert (E : filter (fun k0 => (a + s * k0 <? ax3 (values t))%nat) (seq 0 n) = seq 0 n).
          { assert (G : forall l, (forall x, In x l -> (a + s * x <? ax3 (values t))%nat = true) -> filter (fun k0 => (a + s * k0 <? ax3 (values t))%nat) l = l).
            { induction l as [|x l IHl]; intros Hl; auto. cbn [filter]. rewrite Hl by (left; auto). f_equal. apply IHl. intros; apply Hl; right; auto. }
            apply G. intros x Hx. apply in_seq in Hx. apply Nat.ltb_lt. nia. }
          congruence.
        - exists k. apply app_nil_r. }
      destruct (G m) as (k & Ek). unfold m'. rewrite Ek, seq_length. reflexivity. }
    assert (Ec : kept_cols t key = map (fun k => a + s * k)%nat (seq 0 m')).
    { apply sorted_lt_ext; [apply incr_pos_filter|apply ap_sorted; auto|].
      intros x. rewrite in_kept_cols, in_map_iff. split.
      - intros (Hx & o & Ho & Hk). apply Hkey in Hk; auto.
        destruct (proj1 (Hap x Hx) (ex_intro _ o (conj Ho Hk))) as (k & Hk' & ->).
        exists k; split; auto. rewrite <- Em'. apply filter_In. split; [apply in_seq; lia|]. apply Nat.ltb_lt; auto.
      - intros (k & <- & Hk). rewrite <- Em' in Hk. apply filter_In in Hk. destruct Hk as [Hk Hlt].
        apply in_seq in Hk. apply Nat.ltb_lt in Hlt. split; auto.
        destruct (proj2 (Hap _ Hlt)) as (o & Ho & E); [exists k; split; auto; lia|]. exists o; split; auto. apply Hkey; auto. }
    destruct (Hall 0%nat) as (d0 & Hd0 & E0); [lia|].
    assert (Hm' : (1 <= m')%nat).
    { assert (In d0 (kept_cols t key)).
      { apply in_kept_cols. split; auto. exists 0%nat. split; [lia|]. apply Hkey; auto. }
      rewrite Ec in H. destruct m'; [destruct H|lia]. }
    destruct (contig_prefix (ax2 (values t)) O1) as (so & Eso & Sso).
    destruct (contig_ap a s m' Hs Hm') as (sd & Esd & Ssd).
    destruct (slice_valuation_ok t key so sd W) as (u & Eu & Su); auto.
    + exists 0%nat, d0. repeat split; auto. apply Hkey; auto.
    + rewrite Er; auto.
    + rewrite Ec; auto.
    + rewrite Eu. cbn [rbind]. eexists; split; [reflexivity|].
      assert (Hv : vdate u = vdate t).
      { pose proof (sl_vle _ _ _ Su). pose proof (sl_vge _ _ _ Su 0%nat d0 ltac:(lia) Hd0 (proj2 (Hkey 0%nat d0 ltac:(lia) Hd0) E0)).
        rewrite E0 in H0. lia. }
      assert (Ho : odims u = odims t) by (rewrite (sl_o _ _ _ Su), Er; apply sel_seq_all; apply W).
      unfold sum_axis. set (b := (1 <? List.length (dlist (ddims u)))%nat).
      split; [destruct b; apply Su|]. split; [destruct b; apply Su|]. split; [destruct b; apply Su|].
      split; [destruct b; exact Ho|]. split; [destruct b; exact Hv|].
      split; [destruct b; apply Su|]. split; [destruct b; apply Su|].
      split; [destruct b; cbn; rewrite (sl_2 _ _ _ Su), Er; apply seq_length|].
      split; [destruct b; reflexivity|].
      split.
      * intros i c o d (Ri & Rc & Ro & Rd) Hmon.
        assert (Ecel : forall x, cel (if b then set_ddims x (Vals [vdate u]) else x) i c o 0%nat = cel x i c o 0%nat) by (intros; destruct b; reflexivity).
        rewrite Ecel. unfold cel. cbn [set_values values map_arr nansum_axis axis_num av].
        assert (In d (kept_cols t key)).
        { apply in_kept_cols. split; auto. exists o; split; auto. apply Hkey; auto. }
        destruct (pos_of_nth _ _ H) as (k & Hk & Ek).
        replace (nansum (ax3 (values u)) (fun k0 => av (values u) i c o k0)) with (amount t i c o d); [apply stores_n2n|].
        unfold nansum. rewrite (sl_3 _ _ _ Su).
        assert (Hlr : (o < List.length (kept_rows t key))%nat) by (rewrite Er, seq_length; auto).
        assert (Hno : nth o (kept_rows t key) 0%nat = o) by (rewrite Er, seq_nth by auto; reflexivity).
        rewrite (sumn_single _ k); auto.
        -- pose proof (sl_cell _ _ _ Su i c o k Ri Rc Hlr Hk) as Hcell. unfold cel in Hcell.
           rewrite Hcell, Hno, Ek. rewrite (proj2 (Hkey o d Ro Rd) Hmon). rewrite nz_n2n. reflexivity.
        -- intros j Hj Hjk. pose proof (sl_cell _ _ _ Su i c o j Ri Rc Hlr Hj) as Hcell. unfold cel in Hcell.
           rewrite Hcell, Hno. destruct (key o (nth j (kept_cols t key) 0%nat)) eqn:Ej; auto.
           exfalso. assert (Hjin : In (nth j (kept_cols t key) 0%nat) (kept_cols t key)) by (apply nth_In; auto).
           assert (Hjr : (nth j (kept_cols t key) 0 < ax3 (values t))%nat) by (apply in_kept_cols in Hjin; tauto).
           apply Hkey in Ej; auto.
           assert (nth j (kept_cols t key) 0%nat = d) by (apply (month_inj t o); auto; lia).
           apply Hjk. pose proof (incr_pos_NoDup _ _ (incr_pos_filter (fun d => existsb (fun o => key o d) (seq 0 (ax2 (values t)))) (ax3 (values t)))) as Nd.
           fold (kept_cols t key) in Nd. apply (proj1 (NoDup_nth _ 0%nat) Nd); auto. congruence.
      * intros (o & o' & d & d' & (R1 & R2 & R3) & M1 & M2).
        assert (I1 : In d (kept_cols t key)) by (apply in_kept_cols; split; [lia|]; exists o; split; auto; apply Hkey; auto; lia).
        assert (I2 : In d' (kept_cols t key)) by (apply in_kept_cols; split; [lia|]; exists o'; split; auto; apply Hkey; auto; lia).
        assert (L : (1 < List.length (kept_cols t key))%nat).
        { destruct (kept_cols t key) as [|x [|y l]]; simpl in *; try lia; destruct I1, I2; try contradiction; try lia. }
        unfold b. replace (List.length (dlist (ddims u))) with (List.length (kept_cols t key)).
        -- destruct (Nat.ltb_spec 1 (List.length (kept_cols t key))); [|lia]. cbn. rewrite Hv. reflexivity.
        -- rewrite (sl_d _ _ _ Su), dlist_dmap_sel, sel_length. reflexivity.
  - (* one column *)
    assert (N1 : ax3 (values t) = 1%nat) by lia.
    rewrite slice_origin_all; auto.
    + cbn [rbind]. eexists; split; [reflexivity|]. unfold sum_axis.
      set (u := sel_tri _ _ _ _ _).
      assert (Eb : (1 <? List.length (dlist (ddims u)))%nat = false).
      { unfold u. cbn [sel_tri ddims]. rewrite dlist_dmap_sel, sel_length, seq_length, N1. reflexivity. }
      rewrite Eb. unfold u. cbn. rewrite !seq_length.
      repeat split; try (apply sel_seq_all; apply W).
      * destruct H as (Ri & Rc & Ro & Rd). intros Hz. unfold cel. cbn. rewrite N1. cbn [seq nth].
        rewrite !seq_nth by auto. cbn [Nat.add].
        unfold amount, cel in Hz. assert (d = 0)%nat by lia. subst d. unfold nansum. cbn [sumn]. rewrite Hz.
        reflexivity.
      * destruct H as (Ri & Rc & Ro & Rd). intros Hz. unfold cel. cbn. rewrite N1. cbn [seq nth].
        rewrite !seq_nth by auto. cbn [Nat.add].
        unfold amount, cel in *. assert (d = 0)%nat by lia. subst d. unfold nansum. cbn [sumn].
        replace (0 + nz (av (values t) i c o 0%nat))%Qc with (nz (av (values t) i c o 0%nat)) by ring.
        apply n2n_Some; auto.
      * intros (o & o' & d & d' & (R1 & R2 & R3) & _). lia.
    + intros o Ho. destruct (Hall o Ho) as (d & Hd & E). assert (d = 0)%nat by lia. subst d. apply Hkey; auto.
Qed.

Lemma regular_month t o0 a0 h m dl o d : regular t o0 a0 h m dl -> (o < ax2 (values t))%nat -> (d < ax3 (values t))%nat ->
  month_of t o d = o0 + Z.of_nat (h * m * o) + a0 + Z.of_nat (h * d) - 1.
Proof.
  intros (Hh & Hm & Eo & Ed & H9 & _) Ho Hd. unfold month_of. rewrite Eo, Ed.
  rewrite !nth_map_seq by auto. unfold age_month. specialize (H9 d Hd).
  destruct (Z.eqb_spec (a0 + Z.of_nat (h * d)) 9999); lia.
Qed.
Lemma regular_even_diag t o0 a0 h m dl : wf t -> regular t o0 a0 h m dl -> even_diag t.
Proof.
  intros W R. pose proof R as (Hh & Hm & Eo & Ed & H9 & Hv & Hr). pose proof (wf_o1 _ W).
  split.
  - intros o Ho. exists (dl + m * (ax2 (values t) - 1 - o))%nat.
    assert (L : (dl + m * (ax2 (values t) - 1 - o) < ax3 (values t))%nat) by nia.
    split; auto. rewrite (regular_month t o0 a0 h m dl) by auto. rewrite Hv.
    assert (E : (h * m * (ax2 (values t) - 1) + h * dl = h * m * o + h * (dl + m * (ax2 (values t) - 1 - o)))%nat).
    { replace (ax2 (values t) - 1)%nat with (o + (ax2 (values t) - 1 - o))%nat at 1 by lia. ring. }
    lia.
  - exists dl, m, (ax2 (values t)). split; auto. intros d Hd. split.
    + intros (o & Ho & E). exists (ax2 (values t) - 1 - o)%nat. split; [lia|].
      rewrite (regular_month t o0 a0 h m dl) in E by auto. rewrite Hv in E.
      assert (E2 : (h * m * (ax2 (values t) - 1) + h * dl = h * m * o + h * d)%nat) by lia.
      replace (ax2 (values t) - 1)%nat with (o + (ax2 (values t) - 1 - o))%nat in E2 by lia. nia.
    + intros (k & Hk & ->). exists (ax2 (values t) - 1 - k)%nat. split; [lia|].
      rewrite (regular_month t o0 a0 h m dl); auto; [|lia]. rewrite Hv.
      assert (E : (h * m * (ax2 (values t) - 1) + h * dl = h * m * (ax2 (values t) - 1 - k) + h * (dl + m * k))%nat).
      { replace (ax2 (values t) - 1)%nat with ((ax2 (values t) - 1 - k) + k)%nat at 1 by lia. ring. }
      lia.
Qed.

(** C03: summing the increments of a row gives its latest diagonal. *)
Lemma increments_sum_to_latest t : wf t -> blank_future t -> is_pattern t = false -> is_cumulative t <> Some false ->
  round_trip_shape t -> even_diag t ->
  exists u l, cum_to_incr t = Ok u /\ latest_diagonal t = Ok l /\
    forall i c o, (i < ax0 (values t))%nat -> (c < ax1 (values t))%nat -> (o < ax2 (values t))%nat ->
      sumn (ax3 (values t)) (fun d => amount u i c o d) = amount l i c o 0%nat.
Proof.
  intros W B Hp Hc R He.
  destruct (cum_to_incr_cell t W Hp Hc (rt_nd t R)) as (u & Eu & F & _ & _ & Ucell).
  destruct (latest_diagonal_ok t W He) as (l & El & _ & _ & _ & _ & _ & _ & _ & _ & _ & Lc & _).
  exists u, l. split; [exact Eu|]. split; [exact El|]. intros i c o Hi Hcc Ho.
  destruct (proj1 He o Ho) as (d & Hd & Hm).
  unfold amount at 2. rewrite (stores_nz _ _ (Lc i c o d (conj Hi (conj Hcc (conj Ho Hd))) Hm)).
  replace (ax3 (values t)) with (S d + (ax3 (values t) - S d))%nat by lia.
  rewrite sumn_app.
  rewrite (sumn_zero (ax3 (values t) - S d)).
  2:{ intros k Hk. unfold amount. rewrite Ucell by (repeat split; auto; lia).
      replace (S d + k)%nat with (S (d + k)) by lia. rewrite rt_diff_mask by (auto; lia).
      pose proof (month_strict t o d (S (d + k)) W Ho ltac:(lia)).
      destruct (Z.ltb_spec (vdate t) (month_of t o (S (d + k)))); [reflexivity|lia]. }
  assert (G : forall e, (e <= d)%nat -> sumn (S e) (fun k => amount u i c o k) = amount t i c o e).
  { induction e as [|e IH]; intros He'.
    - simpl. unfold amount at 1. rewrite Ucell by (repeat split; auto; lia). unfold amount. ring.
    - change (sumn (S (S e)) ?f) with (sumn (S e) f + f (S e))%Qc. rewrite IH by lia.
      unfold amount at 2. rewrite Ucell by (repeat split; auto; lia).
      rewrite rt_diff_mask by (auto; lia).
      pose proof (month_mono t o (S e) d W Ho ltac:(lia)).
      destruct (Z.ltb_spec (vdate t) (month_of t o (S e))); [lia|].
      cbn [negb]. rewrite nz_n2n. cbn [nz]. ring. }
  rewrite G by lia. ring.
Qed.

(** ** Link ratios (C10) *)
Lemma filter_prefix f n : (forall x y, (y <= x)%nat -> (x < n)%nat -> f x = true -> f y = true) ->
  exists k, (k <= n)%nat /\ filter f (seq 0 n) = seq 0 k.
Proof.
  induction n as [|n IH]; intros H; [exists 0%nat; split; auto|].
  destruct IH as (k & Hk & E). { intros x y H1 H2 H3; apply (H x y); auto. }
  rewrite seq_S, filter_app, E. simpl. destruct (f n) eqn:En.
  - exists (S n). split; auto. rewrite seq_S. simpl. f_equal. rewrite <- E.
    assert (G : forall l, (forall x, In x l -> f x = true) -> filter f l = l).
    { induction l as [|x l IHl]; simpl; intros Hl; auto. rewrite Hl by auto. f_equal; auto. }
    apply G. intros x Hx. apply in_seq in Hx. apply (H n x); auto; lia.
  - exists k. split; [lia|]. apply app_nil_r.
Qed.
Lemma sel_firstn {A} (l : list A) d k : (k <= List.length l)%nat -> sel l d (seq 0 k) = firstn k l.
Proof.
  revert k; induction l as [|a l IH]; intros k Hk; simpl in Hk.
  - assert (k = 0)%nat by lia; subst; reflexivity.
  - destruct k as [|k]; [reflexivity|]. simpl. f_equal. unfold sel in *.
    rewrite <- seq_shift, map_map. apply IH. lia.
Qed.
Lemma wf_set_values t v : wf t -> ax0 v = ax0 (values t) -> ax1 v = ax1 (values t) -> ax2 v = ax2 (values t) ->
  ax3 v = ax3 (values t) -> wf (set_values t v).
Proof.
  intros W H0 H1 H2 H3. destruct W as [A1 A2 A3 A4 A5 A6 A7 A8 A9 A10].
  constructor; cbn; rewrite ?H0, ?H1, ?H2, ?H3; auto.
Qed.
Lemma month_mono_o t o o' d : wf t -> (o <= o' < ax2 (values t))%nat -> (d < ax3 (values t))%nat ->
  month_of t o d <= month_of t o' d.
Proof.
  intros W Ho Hd. unfold month_of. destruct (ddims t); [|lia].
  rewrite (wf_o _ W) in Ho. pose proof (sorted_nth_le (odims t) o o' 0 (wf_osort _ W) Ho).
  unfold age_month. destruct (nth d l 0 =? 9999); lia.
Qed.
Lemma link_cell x y : age_to_age x y (n2n (cmul (n2n (cdiv (Some 1%Qc) x)) y)).
Proof.
  split.
  - intros Hx Hy. destruct x as [x|], y as [y|]; cbn [nz] in *; try congruence.
    rewrite cdiv_Some by auto.
    assert (Hi : (1 / x)%Qc <> 0%Qc).
    { intros E. apply Hx. assert (x * (1 / x) = x * 0)%Qc by (rewrite E; auto).
      replace (x * (1 / x))%Qc with 1%Qc in H by (field; auto). rewrite Qcmult_0_r in H. discriminate. }
    rewrite n2n_Some by auto. cbn [cmul].
    replace (1 / x * y)%Qc with (y / x)%Qc by (field; auto). apply n2n_Some.
    intros E. apply Hy. replace y with (x * (y / x))%Qc by (field; auto). rewrite E. ring.
  - intros [Hx|Hy].
    + destruct x as [x|]; cbn [nz] in Hx; [subst x|]; reflexivity.
    + destruct y as [y|]; cbn [nz] in Hy; [subst y|].
      * destruct (n2n (cdiv (Some 1%Qc) x)); cbn [cmul]; [rewrite Qcmult_0_r|]; reflexivity.
      * destruct (n2n (cdiv (Some 1%Qc) x)); reflexivity.
Qed.

Lemma link_ratio_ok t : wf t -> blank_future t -> is_pattern t = false ->
  (exists o d, (o < ax2 (values t))%nat /\ (S d < ax3 (values t))%nat /\ month_of t o (S d) <= vdate t) ->
  exists u no nd, link_ratio t = Ok u /\
    kdims u = kdims t /\ vdims u = vdims t /\
    odims u = firstn no (odims t) /\ ddims u = dmap (firstn nd) (ddims t) /\
    (no <= ax2 (values t))%nat /\ (nd < ax3 (values t))%nat /\
    ax0 (values u) = ax0 (values t) /\ ax1 (values u) = ax1 (values t) /\ ax2 (values u) = no /\ ax3 (values u) = nd /\
    is_pattern u = true /\
    (forall i c o d, in_range u i c o d -> age_to_age (cel t i c o d) (cel t i c o (S d)) (cel u i c o d)) /\
    (forall o d, (o < ax2 (values t))%nat -> (S d < ax3 (values t))%nat -> ~ ((o < no)%nat /\ (d < nd)%nat) -> future t o (S d)).
Proof.
  intros W B Hp (o1 & d1 & Ho1 & Hd1 & Hm1). unfold link_ratio. rewrite Hp.
  assert (Hn : (2 <= ax3 (values t))%nat) by lia. set (n := ax3 (values t)) in *.
  destruct (iloc_dev_init t W Hn) as (a & -> & Ca). cbn [rbind].
  destruct (iloc_dev_tail t W Hn) as (b & -> & Cb). cbn [rbind]. fold n in Ca, Cb.
  pose proof (cl_eq _ _ Ca) as Ea. pose proof (cl_eq _ _ Cb) as Eb.
  unfold mul_arr.
  assert (Va : values a = values (sel_dev t (seq 0 (n - 1)))) by (rewrite Ea; reflexivity).
  assert (Vb : values b = values (sel_dev t (seq 1 (n - 1)))) by (rewrite Eb; reflexivity).
  destruct (bmap2_same cmul (values (rdiv_scalar 1%Qc a)) (values b)) as (v & -> & D0 & D1 & D2 & D3 & Dv);
    try (cbn; rewrite Va, Vb; cbn; rewrite ?seq_length; reflexivity).
  cbn [rbind]. cbn [rdiv_scalar set_values values map_arr ax0 ax1 ax2 ax3] in D0, D1, D2, D3, Dv.
  assert (A0 : ax0 (values a) = ax0 (values t)) by (rewrite Va; cbn; apply seq_length).
  assert (A1 : ax1 (values a) = ax1 (values t)) by (rewrite Va; cbn; apply seq_length).
  assert (A2 : ax2 (values a) = ax2 (values t)) by (rewrite Va; cbn; apply seq_length).
  assert (A3 : ax3 (values a) = (n - 1)%nat) by (rewrite Va; cbn; apply seq_length).
  change (set_values (rdiv_scalar 1%Qc a) v) with (set_values a v).
  set (obj := set_values a v).
  assert (Wobj : wf obj) by (apply wf_set_values; auto; apply Ca).
  assert (Hmon : forall o d, (o < ax2 (values t))%nat -> (d < n - 1)%nat -> month_of obj o d = month_of t o d).
  { intros o d Ho Hd. change (month_of obj o d) with (month_of a o d). rewrite Ea.
    change (month_of (set_vdate ?s ?w) o d) with (month_of s o d). unfold sel_dev.
    rewrite month_of_sel by (rewrite seq_length; auto). rewrite !seq_nth by auto. reflexivity. }
  assert (Hfut : forall o d, (o < ax2 (values t))%nat -> (d < n - 1)%nat -> (vdate obj <? month_of t o d) = (vdate t <? month_of t o d)).
  { intros o d Ho Hd. rewrite <- Hmon by auto.
    assert (E : month_of obj o d = month_of (sel_dev t (seq 0 (n - 1))) o d).
    { change (month_of obj o d) with (month_of a o d). rewrite Ea. reflexivity. }
    rewrite E. apply (cl_fut _ _ Ca); cbn; rewrite seq_length; auto. }
  assert (Hcell : forall i c o d, (i < ax0 (values t))%nat -> (c < ax1 (values t))%nat -> (o < ax2 (values t))%nat -> (d < n - 1)%nat ->
     av v i c o d = cmul (n2n (cdiv (Some 1%Qc) (cel t i c o d))) (cel t i c o (S d))).
  { intros i c o d Hi Hc Ho Hd. rewrite Dv by lia. rewrite Va, Vb. cbn [values sel_dev sel_tri sel_arr av map_arr].
    rewrite !seq_nth by auto. reflexivity. }
  assert (Kk : kdims obj = kdims t) by (unfold obj; rewrite Ea; cbn; apply sel_seq_all; apply W).
  assert (Kv : vdims obj = vdims t) by (unfold obj; rewrite Ea; cbn; apply sel_seq_all; apply W).
  assert (Ko : odims obj = odims t) by (unfold obj; rewrite Ea; cbn; apply sel_seq_all; apply W).
  assert (Kd : ddims obj = dmap (fun l => sel l 0 (seq 0 (n - 1))) (ddims t)) by (unfold obj; rewrite Ea; reflexivity).
  assert (Ln : n = List.length (dlist (ddims t))) by apply W.
  destruct (is_full obj) eqn:Ef.
  - (* nothing to filter *)
    cbn [rbind]. eexists; exists (ax2 (values t)), (n - 1)%nat. split; [reflexivity|].
    cbn [set_values set_cumulative set_pattern kdims vdims odims ddims values map_arr ax0 ax1 ax2 ax3 is_pattern].
    split; [exact Kk|]. split; [exact Kv|].
    split; [rewrite Ko, (wf_o _ W), firstn_all; reflexivity|].
    split. { rewrite Kd. destruct (ddims t) as [l|l]; cbn in *; rewrite sel_firstn; auto; lia. }
    split; [lia|]. split; [lia|]. cbn [obj set_values values].
    split; [congruence|]. split; [congruence|]. split; [congruence|]. split; [congruence|]. split; [reflexivity|].
    split.
    + intros i c o d (Ri & Rc & Ro & Rd). cbn in Ri, Rc, Ro, Rd. unfold cel. cbn.
      rewrite Hcell by lia. apply link_cell.
    + intros o d Ho Hd H. exfalso. apply H. split; auto. lia.
  - (* filter valuations before the valuation date *)
    assert (Hmin : (Nat.min (ax2 (values t)) (n - 1) =? 1)%nat = false).
    { destruct (Nat.eqb_spec (Nat.min (ax2 (values t)) (n - 1)) 1) as [E|E]; auto.
      exfalso. rewrite <- not_true_iff_false in Ef. apply Ef. unfold is_full. apply forallb_forall. intros o _.
      apply forallb_forall. intros d _. unfold nan_triangle. cbn [obj set_values values]. rewrite D2, D3, A2, A3, E. reflexivity. }
    assert (Hv : vdate obj = vdate t).
    { destruct (cl_max _ _ Ca) as [E|E]; [exact E|]. exfalso.
      rewrite <- not_true_iff_false in Ef. apply Ef. unfold is_full. apply forallb_forall. intros o Ho. apply in_seq in Ho.
      apply forallb_forall. intros d Hd. apply in_seq in Hd. cbn [obj set_values values] in Ho, Hd. rewrite D2, A2 in Ho. rewrite D3, A3 in Hd.
      rewrite nan_triangle_cases; auto; [|cbn; lia|cbn; lia]. cbn [obj set_values values]. rewrite D2, D3, A2, A3, Hmin.
      fold obj. rewrite Hmon by lia.
      specialize (E o d). cbn [sel_dev sel_tri values sel_arr ax2 ax3] in E. rewrite !seq_length in E.
      change (vdate obj) with (vdate a).
      assert (E2 : month_of (sel_dev t (seq 0 (n - 1))) o d = month_of t o d).
      { unfold sel_dev. rewrite month_of_sel by (rewrite seq_length; lia). rewrite !seq_nth by lia. reflexivity. }
      rewrite E2 in E. destruct (Z.ltb_spec (vdate a) (month_of t o d)); [|reflexivity]. lia. }
    unfold getitem_valuation. cbn [obj set_values values]. rewrite D3, A3. fold obj.
    pose proof (wf_o1 _ W) as O1.
    assert (Hn1 : (1 <? n - 1)%nat = true).
    { apply Nat.ltb_lt. destruct (Nat.eqb_spec (Nat.min (ax2 (values t)) (n - 1)) 1); [discriminate|]. lia. }
    rewrite Hn1.
    set (key := fun o d => valuation obj o d <? vdate obj).
    assert (O2 : ax2 (values obj) = ax2 (values t)) by (cbn; lia).
    assert (O3 : ax3 (values obj) = (n - 1)%nat) by (cbn; lia).
    assert (Hkey : forall o d, (o < ax2 (values t))%nat -> (d < n - 1)%nat -> (key o d = true <-> month_of t o d < vdate t)).
    { intros o d Ho Hd. unfold key. rewrite valuation_month by (auto; lia). rewrite Hmon, Hv by auto. apply Z.ltb_lt. }
    assert (Hpre_r : exists k, (k <= ax2 (values t))%nat /\ kept_rows obj key = seq 0 k).
    { unfold kept_rows. rewrite O2, O3. apply filter_prefix. intros x y Hy Hx Hf.
      apply existsb_exists in Hf. destruct Hf as (d & Hd & Hk). apply in_seq in Hd. apply existsb_exists. exists d.
      split; [apply in_seq; lia|]. apply Hkey in Hk; [|lia|lia]. apply Hkey; [lia|lia|].
      pose proof (month_mono_o t y x d W). lia. }
    assert (Hpre_c : exists k, (k <= n - 1)%nat /\ kept_cols obj key = seq 0 k).
    { unfold kept_cols. rewrite O2, O3. apply filter_prefix. intros x y Hy Hx Hf.
      apply existsb_exists in Hf. destruct Hf as (o & Ho & Hk). apply in_seq in Ho. apply existsb_exists. exists o.
      split; [apply in_seq; lia|]. apply Hkey in Hk; [|lia|lia]. apply Hkey; [lia|lia|].
      pose proof (month_mono t o y x W). lia. }
    destruct Hpre_r as (kr & Hkr & Er). destruct Hpre_c as (kc & Hkc & Ec).
    assert (Hk1 : key o1 d1 = true).
    { apply Hkey; [auto|lia|]. pose proof (month_strict t o1 d1 (S d1) W Ho1). lia. }
    assert (Ir : In o1 (kept_rows obj key)) by (apply in_kept_rows; split; [lia|]; exists d1; split; auto; lia).
    assert (Ic : In d1 (kept_cols obj key)) by (apply in_kept_cols; split; [lia|]; exists o1; split; auto; lia).
    rewrite Er in Ir. rewrite Ec in Ic. apply in_seq in Ir, Ic.
    destruct (contig_prefix kr) as (so & Eso & Sso); [lia|]. destruct (contig_prefix kc) as (sd & Esd & Ssd); [lia|].
    destruct (slice_valuation_ok obj key so sd Wobj) as (w & Ew & Sw); auto.
    + exists o1, d1. repeat split; auto; lia.
    + rewrite Er; auto.
    + rewrite Ec; auto.
    + rewrite Ew. cbn [rbind]. eexists; exists kr, kc. split; [reflexivity|].
      cbn [set_values set_cumulative set_pattern kdims vdims odims ddims values map_arr ax0 ax1 ax2 ax3 is_pattern].
      split; [rewrite (sl_k _ _ _ Sw); exact Kk|]. split; [rewrite (sl_v _ _ _ Sw); exact Kv|].
      split. { rewrite (sl_o _ _ _ Sw), Er, Ko. apply sel_firstn. rewrite <- (wf_o _ W). auto. }
      split. { rewrite (sl_d _ _ _ Sw), Ec, Kd. destruct (ddims t) as [l|l]; cbn in *; rewrite (sel_firstn l), sel_firstn by (rewrite ?firstn_length; lia);
               rewrite firstn_firstn; do 2 f_equal; lia. }
      split; [auto|]. split; [lia|].
      split; [rewrite (sl_0 _ _ _ Sw); cbn; congruence|]. split; [rewrite (sl_1 _ _ _ Sw); cbn; congruence|].
      split; [rewrite (sl_2 _ _ _ Sw), Er; apply seq_length|]. split; [rewrite (sl_3 _ _ _ Sw), Ec; apply seq_length|].
      split; [reflexivity|]. split.
      * intros i c o d (Ri & Rc & Ro & Rd). cbn in Ri, Rc, Ro, Rd.
        rewrite (sl_0 _ _ _ Sw) in Ri. rewrite (sl_1 _ _ _ Sw) in Rc. rewrite (sl_2 _ _ _ Sw), Er, seq_length in Ro.
        rewrite (sl_3 _ _ _ Sw), Ec, seq_length in Rd. cbn [obj set_values values] in Ri, Rc. rewrite D0, A0 in Ri. rewrite D1, A1 in Rc.
        unfold cel at 3. cbn.
        assert (Hw : cel w i c o d = if key o d then n2n (av v i c o d) else None).
        { rewrite (sl_cell _ _ _ Sw); [|cbn; lia|cbn; lia|rewrite Er, seq_length; lia|rewrite Ec, seq_length; lia].
          rewrite Er, Ec, !seq_nth by auto. reflexivity. }
        unfold cel in Hw at 1. rewrite Hw. destruct (key o d) eqn:Ek.
        -- rewrite n2n_idem, Hcell by lia. apply link_cell.
        -- assert (Hx : cel t i c o (S d) = None).
           { apply B; [repeat split; lia|]. unfold future.
             assert (~ (month_of t o d < vdate t)) by (rewrite <- Hkey; [congruence|lia|lia]).
             pose proof (month_strict t o d (S d) W ltac:(lia) ltac:(lia)). lia. }
           rewrite Hx. split; [intros _ H; exfalso; apply H; reflexivity|reflexivity].
      * intros o d Ho Hd H. unfold future.
        assert (~ (month_of t o d < vdate t)).
        { intros L. apply H. apply Hkey in L; [|auto|lia]. split.
          - assert (I : In o (kept_rows obj key)) by (apply in_kept_rows; split; [lia|]; exists d; split; auto; lia).
            rewrite Er in I. apply in_seq in I. lia.
          - assert (I : In d (kept_cols obj key)) by (apply in_kept_cols; split; [lia|]; exists o; split; auto; lia).
            rewrite Ec in I. apply in_seq in I. lia. }
        pose proof (month_strict t o d (S d) W Ho ltac:(lia)). lia.
Qed.
