(** Valuation slicing, latest diagonal, link ratios: cell by cell. *)
From Coq Require Import Lia Sorted.
From Verif Require Export ConvFacts.
Local Open Scope Z_scope.

(** Positions of rows / columns with at least one kept cell. *)
Definition kept_rows (t : tri) (key : nat -> nat -> bool) : list nat :=
  filter (fun o => existsb (fun d => key o d) (seq 0 (ax3 (values t)))) (seq 0 (ax2 (values t))).
Definition kept_cols (t : tri) (key : nat -> nat -> bool) : list nat :=
  filter (fun d => existsb (fun o => key o d) (seq 0 (ax2 (values t)))) (seq 0 (ax3 (values t))).

Lemma in_kept_rows t key o : In o (kept_rows t key) <->
  (o < ax2 (values t))%nat /\ exists d, (d < ax3 (values t))%nat /\ key o d = true.
Proof.
  unfold kept_rows. rewrite filter_In, in_seq, existsb_exists. split.
  - intros (H & d & Hd & E). apply in_seq in Hd. split; [lia|]. exists d; split; auto; lia.
  - intros (H & d & Hd & E). split; [lia|]. exists d; split; auto. apply in_seq; lia.
Qed.
Lemma in_kept_cols t key d : In d (kept_cols t key) <->
  (d < ax3 (values t))%nat /\ exists o, (o < ax2 (values t))%nat /\ key o d = true.
Proof.
  unfold kept_cols. rewrite filter_In, in_seq, existsb_exists. split.
  - intros (H & o & Ho & E). apply in_seq in Ho. split; [lia|]. exists o; split; auto; lia.
  - intros (H & o & Ho & E). split; [lia|]. exists o; split; auto. apply in_seq; lia.
Qed.

Lemma pos_of_nth (l : list nat) x : In x l -> exists k, (k < List.length l)%nat /\ nth k l 0%nat = x.
Proof. intros H. destruct (In_nth _ _ 0%nat H) as (k & Hk & E). exists k; auto. Qed.

Lemma contig_prefix k : (1 <= k)%nat -> exists s, contig_slice (map Z.of_nat (seq 0 k)) = Ok s /\ is_slice s = true.
Proof.
  intros Hk. destruct k as [|[|k]]; [lia| |].
  - simpl. eexists; split; reflexivity.
  - unfold contig_slice. set (L := map Z.of_nat (seq 0 (S (S k)))).
    assert (EL : L = 0 :: 1 :: map Z.of_nat (seq 2 k)) by reflexivity.
    assert (Hd : forall a n, forall x, In x (zdiffs (map Z.of_nat (seq a n))) -> x = 1).
    { intros a n; revert a; induction n as [|n IH]; intros a x Hx; [destruct Hx|].
      destruct n as [|n]; [destruct Hx|]. cbn [seq map zdiffs In] in Hx. destruct Hx as [Hx|Hx]; [lia|]. apply (IH (S a)). exact Hx. }
    specialize (Hd 0%nat (S (S k))). fold L in Hd. rewrite EL in *. 
    destruct (zdiffs (0 :: 1 :: map Z.of_nat (seq 2 k))) as [|d ds] eqn:E; [discriminate E|].
    assert (Em : zmaxl ds d = 1) by (apply Hd; apply zmaxl_in).
    assert (En : zminl ds d = 1) by (apply Hd; apply zminl_in).
    rewrite Em, En. change (1 =? 1) with true. cbv iota zeta. eexists; split; reflexivity.
Qed.

Section Valuation.
Variable t : tri.
Variable key : nat -> nat -> bool.
Let rows := kept_rows t key.
Let cols := kept_cols t key.

Record sliced (u : tri) : Prop := {
  sl_wf : wf u;
  sl_k : kdims u = kdims t; sl_kl : key_labels u = key_labels t; sl_v : vdims u = vdims t;
  sl_o : odims u = sel (odims t) 0 rows;
  sl_d : ddims u = dmap (fun l => sel l 0 cols) (ddims t);
  sl_0 : ax0 (values u) = ax0 (values t); sl_1 : ax1 (values u) = ax1 (values t);
  sl_2 : ax2 (values u) = List.length rows; sl_3 : ax3 (values u) = List.length cols;
  sl_cum : is_cumulative u = is_cumulative t; sl_pat : is_pattern u = is_pattern t;
  sl_og : ograin u = ograin t; sl_dg : dgrain u = dgrain t;
  sl_cell : forall i c o d, (i < ax0 (values t))%nat -> (c < ax1 (values t))%nat ->
     (o < List.length rows)%nat -> (d < List.length cols)%nat ->
     cel u i c o d = if key (nth o rows 0%nat) (nth d cols 0%nat)
                     then n2n (cel t i c (nth o rows 0%nat) (nth d cols 0%nat)) else None;
  sl_vle : vdate u <= vdate t;
  sl_vge : forall o d, (o < ax2 (values t))%nat -> (d < ax3 (values t))%nat -> key o d = true ->
            Z.min (month_of t o d) (vdate t) <= vdate u;
  sl_vex : vdate u = vdate t \/ exists o d, (o < ax2 (values t))%nat /\ (d < ax3 (values t))%nat /\
            key o d = true /\ month_of t o d = vdate u;
  sl_vub : exists o d, (o < ax2 (values t))%nat /\ (d < ax3 (values t))%nat /\ key o d = true /\ vdate u <= month_of t o d }.

Lemma slice_valuation_ok so sd : wf t ->
  (exists o d, (o < ax2 (values t))%nat /\ (d < ax3 (values t))%nat /\ key o d = true) ->
  contig_slice (map Z.of_nat rows) = Ok so -> is_slice so = true ->
  contig_slice (map Z.of_nat cols) = Ok sd -> is_slice sd = true ->
  exists u, slice_valuation t key = Ok u /\ sliced u.
Proof.
  intros W (o0 & d0 & Ho0 & Hd0 & Hk0) Eo So Ed Sd.
  unfold slice_valuation. fold (kept_rows t key) (kept_cols t key). fold rows cols.
  set (cells := flat_map _ (seq 0 (ax2 (values t)))).
  assert (Hcells : forall o d, In (o, d) cells <-> (o < ax2 (values t))%nat /\ (d < ax3 (values t))%nat).
  { intros o d. unfold cells. rewrite in_flat_map. split.
    - intros (x & Hx & H). apply in_map_iff in H. destruct H as (y & E & Hy). injection E as -> ->.
      apply in_seq in Hx, Hy. lia.
    - intros [Ho Hd]. exists o. split; [apply in_seq; lia|]. apply in_map_iff. exists d; split; auto. apply in_seq; lia. }
  set (kept := filter (fun p => key (fst p) (snd p)) cells).
  assert (Hkept : forall o d, In (o, d) kept <-> (o < ax2 (values t))%nat /\ (d < ax3 (values t))%nat /\ key o d = true).
  { intros o d. unfold kept. rewrite filter_In, Hcells. simpl. tauto. }
  set (ms := map (fun p => valuation t (fst p) (snd p)) kept).
  assert (Hms : forall v, In v ms <-> exists o d, (o < ax2 (values t))%nat /\ (d < ax3 (values t))%nat /\ key o d = true /\ month_of t o d = v).
  { intros v. unfold ms. rewrite in_map_iff. split.
    - intros ([o d] & <- & H). apply Hkept in H. destruct H as (A & B & C). exists o, d. simpl.
      rewrite valuation_month; auto.
    - intros (o & d & A & B & C & <-). exists (o, d). simpl. rewrite valuation_month by auto.
      split; auto. apply Hkept; auto. }
  destruct ms as [|v vs] eqn:Ems.
  { exfalso. apply (proj2 (Hms (month_of t o0 d0))). exists o0, d0; auto. }
  rewrite Eo, Ed. cbn [rbind]. set (M := zmaxl vs v).
  assert (HM : forall o d, (o < ax2 (values t))%nat -> (d < ax3 (values t))%nat -> key o d = true -> month_of t o d <= M).
  { intros o d A B C. apply zmaxl_ge. apply Hms. exists o, d; auto. }
  assert (HMin : exists o d, (o < ax2 (values t))%nat /\ (d < ax3 (values t))%nat /\ key o d = true /\ month_of t o d = M).
  { apply Hms. apply zmaxl_in. }
  set (t2 := set_values _ _).
  assert (Hr : incr_pos rows (ax2 (values t))) by apply incr_pos_filter.
  assert (Hc : incr_pos cols (ax3 (values t))) by apply incr_pos_filter.
  assert (Hr1 : (1 <= List.length rows)%nat).
  { assert (In o0 rows) by (apply in_kept_rows; eauto). destruct rows; [destruct H|simpl; lia]. }
  assert (Hc1 : (1 <= List.length cols)%nat).
  { assert (In d0 cols) by (apply in_kept_cols; eauto). destruct cols; [destruct H|simpl; lia]. }
  unfold get_idx. rewrite So, Sd. cbn [andb negb].
  rewrite !positions_all. cbn [rbind].
  change (ax2 (values t2)) with (ax2 (values t)). change (ax3 (values t2)) with (ax3 (values t)).
  rewrite (contig_slice_positions rows (ax2 (values t)) so Eo); [|eapply incr_pos_NoDup; eauto | apply Hr].
  rewrite (contig_slice_positions cols (ax3 (values t)) sd Ed); [|eapply incr_pos_NoDup; eauto | apply Hc].
  cbn [rbind]. set (s := sel_tri t2 _ _ rows cols).
  pose proof (wf_sel t (seq 0 (ax0 (values t))) (seq 0 (ax1 (values t))) rows cols W Hr Hc Hr1 Hc1) as Ws0.
  assert (Ws : wf s).
  { assert (Hdev := wf_dev _ Ws0). unfold s, t2 in *.
    destruct Ws0 as [A1 A2 A3 A4 A5 A6 A7 A8 A9 A10]. constructor; auto.
    - change (Z.min M (vdate t) <= ULT_VAL). simpl in A9. lia.
    - cbn [sel_tri set_values set_vdate ddims vdate odims] in *.
      pose proof (wf_dev _ W) as HW. destruct (ddims t) as [l|l] eqn:El; cbn [dmap] in *; auto.
      destruct Hdev as (H1 & H2 & H3). split; [|split]; auto.
      intros o Hin. apply Z.min_glb; auto.
      apply in_map_iff in Hin. destruct Hin as (r & <- & Hr').
      pose proof (proj1 (in_kept_rows t key r) Hr') as (Ro & d & Rd & Rk).
      specialize (HM r d Ro Rd Rk). unfold month_of in HM. rewrite El in HM.
      destruct HW as (HW1 & HW2 & _).
      assert (I : In (nth r (odims t) 0) (odims t)) by (apply nth_In; rewrite <- (wf_o _ W); auto).
      assert (I2 : In (nth d l 0) l) by (apply nth_In; rewrite (wf_d _ W), El in Rd; auto).
      pose proof (HW1 _ I2). pose proof (HW2 _ I). pose proof (wf_vd _ W).
      pose proof (age_month_ge (nth r (odims t) 0) (nth d l 0)). lia. }
  destruct (clip_vdate_ok s Ws) as (u & Eu & Cu). rewrite Eu. exists u. split; auto.
  assert (Hmon : forall o d, (o < List.length rows)%nat -> (d < List.length cols)%nat ->
            month_of s o d = month_of t (nth o rows 0%nat) (nth d cols 0%nat)).
  { intros o d A B. unfold s. rewrite month_of_sel by auto. reflexivity. }
  assert (Hv : vdate u = Z.min M (vdate t)).
  { pose proof (cl_le _ _ Cu) as Hle. change (vdate s) with (Z.min M (vdate t)) in Hle.
    destruct HMin as (o & d & A & B & C & D).
    assert (Hin : In o rows) by (apply in_kept_rows; eauto).
    assert (Hin' : In d cols) by (apply in_kept_cols; eauto).
    destruct (pos_of_nth _ _ Hin) as (ko & Ko & Eko). destruct (pos_of_nth _ _ Hin') as (kd & Kd & Ekd).
    pose proof (cl_fut _ _ Cu ko kd Ko Kd) as Hf. rewrite Hmon, Eko, Ekd, D in Hf by auto.
    change (vdate s) with (Z.min M (vdate t)) in Hf.
    destruct (Z.ltb_spec (vdate u) M), (Z.ltb_spec (Z.min M (vdate t)) M); try discriminate; try lia.
    destruct (cl_max _ _ Cu) as [E|E]; [exact E|].
    specialize (E ko kd Ko Kd). rewrite Hmon, Eko, Ekd, D in E by auto. lia. }
  assert (Eu' := cl_eq _ _ Cu). constructor.
  - apply Cu.
  - rewrite Eu'. cbn. apply sel_seq_all. apply W.
  - rewrite Eu'. reflexivity.
  - rewrite Eu'. cbn. apply sel_seq_all. apply W.
  - rewrite Eu'. reflexivity.
  - rewrite Eu'. reflexivity.
  - rewrite Eu'. cbn. apply seq_length.
  - rewrite Eu'. cbn. apply seq_length.
  - rewrite Eu'. reflexivity.
  - rewrite Eu'. reflexivity.
  - rewrite Eu'. reflexivity.
  - rewrite Eu'. reflexivity.
  - rewrite Eu'. reflexivity.
  - rewrite Eu'. reflexivity.
  - intros i c o d Hi Hcc Ho Hd. rewrite Eu'. unfold cel, s, t2.
    cbn [set_vdate values sel_tri sel_arr av set_values ax0 ax1]. rewrite !seq_nth by auto.
    cbn [Nat.add]. destruct (key (nth o rows 0%nat) (nth d cols 0%nat)).
    + f_equal. destruct (av (values t) i c (nth o rows 0%nat) (nth d cols 0%nat)); cbn; auto. f_equal; ring.
    + destruct (av (values t) i c (nth o rows 0%nat) (nth d cols 0%nat)); cbn [cmul]; auto.
      rewrite Qcmult_0_r. reflexivity.
  - rewrite Hv. lia.
  - intros o d A B C. rewrite Hv. specialize (HM o d A B C). lia.
  - rewrite Hv. destruct (Z.min_spec M (vdate t)) as [[_ ->]|[_ ->]]; auto.
  - destruct HMin as (o & d & A & B & C & D). exists o, d. rewrite Hv, D. repeat split; auto. lia.
Qed.
End Valuation.
