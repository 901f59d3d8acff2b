(** Assignment of numbers, and of triangles with other origins or ages. *)
From Coq Require Import Lia.
From Verif Require Import ArrFacts TriFacts LabelFacts UnionFacts BcastFacts P_Core P_Loc P_Align P_Align2 P_Methods P_Select P_Select2 SpecSelect.
Local Open Scope Z_scope.

Lemma first_column t l : wf t -> (1 <= ax0 (values t))%nat -> (1 <= ax1 (values t))%nat ->
  exists f, iloc (set_vdims t (vdims t ++ l)) (KSlice None None None) (KInt 0) (KSlice None None None) (KSlice None None None) = Ok f /\ picked t (every (ax0 (values t))) [0%nat] f.
Proof.
  intros W H0 H1.
  assert (A : asks_for (KInt 0) (ax1 (values t)) [0%nat]).
  { exists 0%nat. split; auto. split; [lia|]. auto. }
  destruct (norm_key_ok _ _ _ A) as (s1 & N1 & S1 & _); [split; [discriminate|exact I]|].
  unfold iloc. cbn [set_vdims set_dims values]. rewrite !norm_all, N1. cbn [rbind]. unfold get_idx. cbn [is_slice all_slice andb negb set_vdims set_dims values].
  unfold all_slice. rewrite !positions_all, S1. cbn [rbind].
  assert (E : sel_tri (set_vdims t (vdims t ++ l)) (seq 0 (ax0 (values t))) [0%nat] (seq 0 (ax2 (values t))) (seq 0 (ax3 (values t))) = sel_kv t (seq 0 (ax0 (values t))) [0%nat]).
  { unfold sel_kv, sel_tri. cbn [set_vdims set_dims kdims key_labels vdims odims ddims values vdate is_cumulative is_pattern ograin dgrain sel map].
    rewrite app_nth1; [reflexivity|]. rewrite <- (wf_v _ W). lia. }
  rewrite E. destruct (clip_vdate_ok (sel_kv t (seq 0 (ax0 (values t))) [0%nat])) as (f & Ef & C); [apply wf_sel_kv; auto|].
  exists f. split; auto. apply clipped_picked; auto.
Qed.
Lemma zero_column t l : wf t -> (1 <= ax0 (values t))%nat -> (1 <= ax1 (values t))%nat ->
  exists f z, iloc (set_vdims t (vdims t ++ l)) (KSlice None None None) (KInt 0) (KSlice None None None) (KSlice None None None) = Ok f /\
    mul_arr f (scalar_arr 0%Qc) = Ok z /\ wf z /\ kdims z = kdims t /\ key_labels z = key_labels t /\ vdims z = [nth 0 (vdims t) EmptyString] /\ odims z = odims t /\ ddims z = ddims t /\
    ograin z = ograin t /\ dgrain z = dgrain t /\ is_pattern z = is_pattern t /\ ax0 (values z) = ax0 (values t) /\ ax1 (values z) = 1%nat /\ ax2 (values z) = ax2 (values t) /\ ax3 (values z) = ax3 (values t) /\
    vdate z <= vdate t /\
    (forall o d, (o < ax2 (values t))%nat -> (d < ax3 (values t))%nat -> (vdate z <? month_of t o d) = (vdate t <? month_of t o d)) /\
    (forall i c o d, nz (cel z i c o d) = 0%Qc) /\
    (blank_future t -> blank_future z).
Proof.
  intros W H0 H1. destruct (first_column t l W H0 H1) as (f & Ef & P).
  pose proof (pk_0 _ _ _ _ P) as F0. pose proof (pk_1 _ _ _ _ P) as F1. pose proof (pk_2 _ _ _ _ P) as F2. pose proof (pk_3 _ _ _ _ P) as F3.
  unfold every in F0. rewrite seq_length in F0. cbn in F1. pose proof (wf_o1 _ W). pose proof (wf_d1 _ W).
  assert (B : bok (values f) (scalar_arr 0%Qc)) by (unfold bok; cbn [scalar_arr ax0 ax1 ax2 ax3]; lia).
  destruct (op_arr_ok OMul f (scalar_arr 0%Qc) B) as (z & Ez & R). cbn [op_arr] in Ez. destruct R.
  cbn [scalar_arr ax0 ax1 ax2 ax3] in ar_0, ar_1, ar_2, ar_3. rewrite Nat.max_l in ar_0, ar_1, ar_2, ar_3 by lia.
  assert (Ek : kdims f = kdims t) by (rewrite (pk_k _ _ _ _ P); apply sel_seq_all; apply W).
  assert (C0 : forall i c o d, nz (cel z i c o d) = 0%Qc).
  { intros i c o d. rewrite ar_cell. cbn [cop]. rewrite bav_scalar. destruct (bav _ _ _ _ _); cbn; [ring|reflexivity]. }
  exists f, z. split; auto. split; auto. destruct ar_fl as (A1 & A2 & A3 & A4). destruct P.
  split.
  { destruct pk_wf. constructor; rewrite ?ar_k, ?ar_v, ?ar_o, ?ar_d, ?ar_vd, ?ar_0, ?ar_1, ?ar_2, ?ar_3; auto. }
  split; [congruence|]. split; [congruence|]. split; [rewrite ar_v, pk_v; reflexivity|]. split; [congruence|]. split; [congruence|].
  split; [congruence|]. split; [congruence|]. split; [congruence|]. split; [congruence|]. split; [congruence|]. split; [congruence|]. split; [congruence|].
  split; [rewrite ar_vd; auto|]. split; [rewrite ar_vd; auto|]. split; [auto|].
  intros Bl i c o d R Fu. rewrite ar_cell. cbn [cop]. rewrite bav_scalar. destruct R as (Ri & Rc & Ro & Rd). rewrite bav_in by lia.
  fold (cel f i c o d). rewrite pk_c by lia. rewrite Bl; [reflexivity| |].
  - unfold in_range, every. rewrite seq_nth by lia. replace c with 0%nat by lia. cbn. lia.
  - unfold future in *. apply Z.ltb_lt. rewrite <- pk_fut by lia. apply Z.ltb_lt. rewrite <- ar_vd. replace (month_of t o d) with (month_of z o d); auto.
    unfold month_of. rewrite ar_d, ar_o, pk_d, pk_o. reflexivity.
Qed.

(** A number in a new column. *)
Lemma set_new_number t name q : wf t -> (1 <= ax0 (values t))%nat -> (1 <= ax1 (values t))%nat -> (2 <= ax2 (values t))%nat -> (2 <= ax3 (values t))%nat -> ~ In name (vdims t) ->
  exists u, setitem t name (VNum q) = (u, None) /\
    exists f, column_set t u name f /\ forall i o d, (i < ax0 (values t))%nat -> (o < ax2 (values t))%nat -> (d < ax3 (values t))%nat ->
      (month_of t o d <= vdate t -> stores (f i o d) q) /\ (future t o d -> f i o d = None).
Proof.
  intros W H0 H1 H2 H3 Hn. unfold setitem. destruct (mem_str name (vdims t)) eqn:M; [apply mem_str_spec in M; contradiction|].
  destruct (zero_column t [name] W H0 H1) as (f & z & Ef & Ez & Wz & K & KL & V & O & D & _ & _ & _ & Z0 & Z1 & Z2 & Z3 & Hle & Hf & Hz & _).
  unfold side_by_side. rewrite Ef. cbn [rbind]. rewrite Ez. cbn [rbind].
  assert (B : bok (values z) (scalar_arr q)) by (unfold bok; cbn [scalar_arr ax0 ax1 ax2 ax3]; lia).
  destruct (op_arr_ok OAdd z (scalar_arr q) B) as (s & Es & R). cbn [op_arr] in Es. rewrite Es. cbn [rbind].
  destruct R. cbn [scalar_arr ax0 ax1 ax2 ax3] in ar_0, ar_1, ar_2, ar_3. rewrite Nat.max_l in ar_0, ar_1, ar_2, ar_3 by lia.
  cbn [set_vdims set_dims values]. rewrite cat_ok_1, ar_0, ar_2, ar_3, Z0, Z2, Z3, !Nat.eqb_refl. cbn [andb].
  eexists. split; [reflexivity|]. exists (fun i o d => av (values s) i 0 o d). split; [apply appended; auto; congruence|].
  intros i o d Hi Ho Hd. fold (cel s i 0 o d).
  assert (E : cel s i 0 o d = if vdate t <? month_of t o d then None else n2n (Some q)).
  { rewrite ar_cell. cbn [cop]. rewrite bav_scalar, bav_in by lia. fold (cel z i 0 o d).
    assert (Nt : nan_triangle s o d = if vdate t <? month_of t o d then None else Some 1%Qc).
    { rewrite (nan_triangle_ext z s) by congruence. rewrite nan_triangle_cases by (auto; lia).
      replace (Nat.min (ax2 (values z)) (ax3 (values z)) =? 1)%nat with false by (symmetry; apply Nat.eqb_neq; lia).
      assert (Em : month_of z o d = month_of t o d) by (unfold month_of; rewrite D, O; reflexivity). rewrite Em, Hf by auto. reflexivity. }
    rewrite Nt. unfold nz_add. rewrite Hz. destruct (vdate t <? month_of t o d).
    - cbn [nz cmul]. unfold n2n. match goal with |- context [Qc_eqb ?a ?b] => replace a with 0%Qc by ring end. reflexivity.
    - cbn [nz cmul]. unfold n2n. match goal with |- context [Qc_eqb ?a ?b] => replace a with q by ring end. reflexivity. }
  rewrite E. split; intros H; unfold future in *.
  - rewrite (proj2 (Z.ltb_ge _ _)) by lia. apply stores_n2n.
  - rewrite (proj2 (Z.ltb_lt _ _)) by lia. reflexivity.
Qed.
(** A number over an existing column: every cell, known or not. *)
Lemma set_old_number t name q : wf t -> NoDup (vdims t) -> In name (vdims t) ->
  exists u, setitem t name (VNum q) = (u, None) /\ column_set t u name (fun _ _ _ => Some q).
Proof.
  intros W N Hin. unfold setitem. rewrite (proj2 (mem_str_spec _ _) Hin).
  destruct (replaced t name (scalar_arr q) (set_values t match put_column (values t) (pos_of name (vdims t)) (scalar_arr q) with Ok a => a | Err _ => values t end) W N Hin) as (a & Ea & C);
    try (unfold fits; cbn; rewrite ?orb_true_r; reflexivity).
  rewrite Ea in *. eexists. split; [reflexivity|]. exact (C eq_refl).
Qed.

(** One column against one column: the right operand's column name does not matter. *)
Lemma strs_eqb_refl l : strs_eqb l l = true.
Proof. apply strs_eqb_eq. reflexivity. Qed.
Lemma op_one_column op z v n : vdims z = [n] -> List.length (vdims v) = 1%nat -> ax1 (values z) = 1%nat -> ax1 (values v) = 1%nat ->
  tri_op op z v = tri_op op z (set_vdims v (vdims z)).
Proof.
  intros Ez Lv Az Av. assert (E : validate z v = validate z (set_vdims v (vdims z))); [|unfold tri_op; rewrite E; reflexivity].
  destruct (strs_eqb (vdims z) (vdims v)) eqn:S.
  { apply strs_eqb_eq in S. assert (E : set_vdims v (vdims z) = v) by (rewrite S; destruct v; reflexivity). rewrite E. reflexivity. }
  unfold validate. change (compatible z (set_vdims v (vdims z))) with (compatible z v). destruct (negb (compatible z v)); auto.
  change (is_pattern (set_vdims v (vdims z))) with (is_pattern v). change (vdate (set_vdims v (vdims z))) with (vdate v).
  set (p := Bool.eqb (is_pattern z) (is_pattern v)).
  set (z1 := set_vdate (if p then z else set_pattern z false) (Z.max (vdate z) (vdate v))).
  assert (V1 : vdims z1 = vdims z) by (unfold z1; destruct p; reflexivity). assert (A1 : ax1 (values z1) = 1%nat) by (unfold z1; destruct p; auto).
  assert (P1 : prep_columns z1 (if p then v else set_pattern v false) = Ok (z1, set_vdims (if p then v else set_pattern v false) (vdims z))).
  { unfold prep_columns. assert (L : vdims (if p then v else set_pattern v false) = vdims v) by (destruct p; reflexivity). rewrite L, V1, Lv, S, Ez. reflexivity. }
  assert (P2 : prep_columns z1 (if p then set_vdims v (vdims z) else set_pattern (set_vdims v (vdims z)) false) = Ok (z1, set_vdims (if p then v else set_pattern v false) (vdims z))).
  { unfold prep_columns. assert (L : vdims (if p then set_vdims v (vdims z) else set_pattern (set_vdims v (vdims z)) false) = vdims z) by (destruct p; reflexivity).
    assert (A2 : ax1 (values (if p then set_vdims v (vdims z) else set_pattern (set_vdims v (vdims z)) false)) = 1%nat) by (destruct p; auto).
    rewrite L, V1, A1, A2, strs_eqb_refl, Ez. cbn [List.length Nat.eqb Nat.ltb Nat.leb andb negb]. destruct p; reflexivity. }
  rewrite P1. cbn [rbind]. transitivity (do xy <- prep_columns z1 (if p then set_vdims v (vdims z) else set_pattern (set_vdims v (vdims z)) false);
    do xy <- prep_origin_dev (ax0 (values z)) (ax1 (values z)) (fst xy) (snd xy); prep_index (fst xy) (snd xy)); [|reflexivity].
  rewrite P2. reflexivity.
Qed.
Lemma amount_at_one_column v n m k o a : List.length (vdims v) = 1%nat -> nth 0 (vdims v) EmptyString = m ->
  amount_at (set_vdims v [n]) k n o a = amount_at v k m o a.
Proof.
  intros L E. unfold amount_at. destruct (vdims v) as [|m' [|]] eqn:Ev; try discriminate. cbn in E. subst m'.
  cbn [set_vdims set_dims kdims vdims odims ddims].
  unfold pick at 1 5. apply sumn_ext. intros i Hi. destruct (key_dec _ _); auto. unfold pick at 1 4. cbn [List.length sumn nth].
  destruct (string_dec n n); [|congruence]. destruct (string_dec m m); [|congruence]. reflexivity.
Qed.
Lemma StronglySorted_Zlt_NoDup l : StronglySorted Z.lt l -> NoDup l.
Proof. induction 1 as [|a l Hs IH Hf]; constructor; auto. intros Hin. rewrite Forall_forall in Hf. specialize (Hf _ Hin). lia. Qed.
Lemma set_by_label g h t name v : 0 < g -> 0 < h -> wf t -> wf v -> uniq_labels t -> blank_future t -> blank_future v ->
  kdims v = kdims t -> key_labels v = key_labels t -> List.length (vdims v) = 1%nat -> ograin v = ograin t -> dgrain v = dgrain t ->
  same_kind (ddims t) (ddims v) -> alignable g (odims t) (odims v) -> alignable h (dlist (ddims t)) (dlist (ddims v)) -> frame_fits t v ->
  incl (odims v) (odims t) -> incl (dlist (ddims v)) (dlist (ddims t)) -> (odims v <> odims t \/ ddims v <> ddims t) ->
  (1 <= ax1 (values t))%nat -> (1 <= ax0 (values t))%nat -> ~ In name (vdims t) ->
  exists u, setitem t name (VTri v) = (u, None) /\ exists f, column_set t u name f /\
    forall i o d, (i < ax0 (values t))%nat -> (o < ax2 (values t))%nat -> (d < ax3 (values t))%nat ->
      nz (f i o d) = amount_at v (nth i (kdims t) []) (nth 0 (vdims v) EmptyString) (nth o (odims t) 0) (nth d (dlist (ddims t)) 0).
Proof.
  intros Hg Hh W V U Bt Bv EK EKL LV OG DG SK AO AD FF IO ID Diff H1 H0 Hn. unfold setitem. destruct (mem_str name (vdims t)) eqn:M; [apply mem_str_spec in M; contradiction|].
  destruct (zero_column t [name] W H0 H1) as (f & z & Ef & Ez & Wz & K & KL & Vz & O & D & Og & Dg & Pz & Z0 & Z1 & Z2 & Z3 & Hle & Hf & Hz & Hb).
  set (n0 := nth 0 (vdims t) EmptyString) in *.
  assert (Nc : cat_ok 1 (values t) (values v) = false).
  { rewrite cat_ok_1, (wf_o _ W), (wf_o _ V), (wf_d _ W), (wf_d _ V).
    destruct (Nat.eqb_spec (ax0 (values t)) (ax0 (values v))); auto. cbn [andb].
    destruct (Nat.eqb_spec (List.length (odims t)) (List.length (odims v))) as [Lo|]; auto. cbn [andb].
    apply Nat.eqb_neq. intros Ld.
    assert (Go : odims v = odims t).
    { apply sorted_Z_ext; [apply V|apply W|]. intros x. split; [apply IO|].
      apply (NoDup_length_incl (StronglySorted_Zlt_NoDup _ (wf_osort _ V))); [lia|apply IO]. }
    assert (Gd : dlist (ddims v) = dlist (ddims t)).
    { apply sorted_Z_ext; [apply V|apply W|]. intros x. split; [apply ID|].
      apply (NoDup_length_incl (StronglySorted_Zlt_NoDup _ (wf_dsort _ V))); [lia|apply ID]. }
    destruct Diff as [Q|Q]; [congruence|]. apply Q. destruct (ddims t), (ddims v); cbn in SK, Gd; try contradiction; congruence. }
  unfold side_by_side. cbn [set_vdims set_dims values]. rewrite Nc. fold (set_vdims t (vdims t ++ [name])). rewrite Ef. cbn [rbind]. rewrite Ez. cbn [rbind].
  rewrite (op_one_column OAdd z v n0); auto; [|rewrite (wf_v _ V); auto].
  set (v' := set_vdims v (vdims z)).
  assert (Wv' : wf v') by (destruct V; constructor; auto; unfold v'; cbn; rewrite Vz; cbn; congruence).
  destruct (addsub_align OAdd g h z v') as (s & Es & Ws & Bs & Sk & Skl & Sv & So & Ssk & Sd & Svd & Sa); auto; try (unfold v'; cbn [set_vdims set_dims kdims key_labels vdims odims ddims ograin dgrain]; congruence).
  { left; auto. }
  { split; [rewrite K; apply U|]. rewrite Vz. repeat constructor. intros []. }
  { unfold frame_fits in *. rewrite D, O. exact FF. }
  rewrite Es. cbn [rbind].
  assert (Eo : odims s = odims t).
  { apply sorted_Z_ext; [apply Ws|apply W|]. intros x. rewrite So, O. unfold v'. cbn [set_vdims set_dims odims]. split; [intros [?|?]; auto|auto]. }
  assert (El : dlist (ddims s) = dlist (ddims t)).
  { apply sorted_Z_ext; [apply Ws|apply W|]. intros x. rewrite Sd, D. unfold v'. cbn [set_vdims set_dims ddims]. split; [intros [?|?]; auto|auto]. }
  assert (S0 : ax0 (values s) = ax0 (values t)) by (rewrite (wf_k _ Ws), (wf_k _ W), Sk, K; auto).
  assert (S1 : ax1 (values s) = 1%nat) by (rewrite (wf_v _ Ws), Sv, Vz; auto).
  assert (S2 : ax2 (values s) = ax2 (values t)) by (rewrite (wf_o _ Ws), (wf_o _ W), Eo; auto).
  assert (S3 : ax3 (values s) = ax3 (values t)) by (rewrite (wf_d _ Ws), (wf_d _ W), El; auto).
  cbn [set_vdims set_dims values]. rewrite cat_ok_1, S0, S2, S3, !Nat.eqb_refl. cbn [andb].
  eexists. split; [reflexivity|]. exists (fun i o d => av (values s) i 0 o d). split; [apply appended; auto|].
  intros i o d Hi Ho Hd. fold (cel s i 0 o d). change (nz (cel s i 0 o d)) with (amount s i 0 o d).
  assert (Us : uniq_labels s) by (split; [rewrite Sk, K; apply U|rewrite Sv, Vz; repeat constructor; intros []]).
  rewrite <- amount_at_pos; auto; [|unfold in_range; lia]. rewrite Sa, Sk, Sv, K, Vz, Eo, El. cbn [nth qop].
  replace (amount_at z _ _ _ _) with 0%Qc.
  - rewrite Qcplus_0_l. unfold v'. rewrite Vz. apply amount_at_one_column; auto.
  - symmetry. unfold amount_at. apply pick_zero. intros. apply pick_zero. intros. apply pick_zero. intros. apply pick_zero. intros. apply Hz.
Qed.
