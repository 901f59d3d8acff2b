(** Alignment of the operands of + and - by column and by index key. *)
From Coq Require Import Lia Sorted Permutation.
From Verif Require Export P_Align.
Local Open Scope Z_scope.

(** Two operands brought to the same labels. *)
Lemma finish op x y : is_addsub op -> wf x -> wf y -> uniq_labels x ->
  kdims y = kdims x -> vdims y = vdims x -> odims y = odims x -> ddims y = ddims x ->
  (forall i c o d, in_range x i c o d -> future x o d -> cel x i c o d = None /\ cel y i c o d = None) ->
  exists u, op_arr op x (values y) = Ok u /\ wf u /\ same_frame x u /\ blank_future u /\
    is_cumulative u = is_cumulative x /\ is_pattern u = is_pattern x /\
    forall k v o a, amount_at u k v o a = qop op (amount_at x k v o a) (amount_at y k v o a).
Proof.
  intros Hop Wx Wy U Ek Ev Eo Ed B.
  assert (Uy : uniq_labels y) by (destruct U; split; [rewrite Ek|rewrite Ev]; auto).
  assert (S0 : ax0 (values y) = ax0 (values x)) by (rewrite (wf_k _ Wx), (wf_k _ Wy), Ek; auto).
  assert (S1 : ax1 (values y) = ax1 (values x)) by (rewrite (wf_v _ Wx), (wf_v _ Wy), Ev; auto).
  assert (S2 : ax2 (values y) = ax2 (values x)) by (rewrite (wf_o _ Wx), (wf_o _ Wy), Eo; auto).
  assert (S3 : ax3 (values y) = ax3 (values x)) by (rewrite (wf_d _ Wx), (wf_d _ Wy), Ed; auto).
  destruct (addsub_arr op x (values y) Hop Wx S0 S1 S2 S3) as (u & Eu & F & Hc & Hp & Hcell).
  exists u. split; [auto|]. assert (Wu : wf u) by exact (wf_same_frame _ _ Wx F). do 2 (split; [auto|]).
  assert (St : forall i c o d, in_range x i c o d -> stores (cel u i c o d) (qop op (amount x i c o d) (amount y i c o d)) /\
     (future x o d -> cel u i c o d = None)).
  { intros i c o d R. rewrite Hcell by auto. fold (cel y i c o d) (amount y i c o d).
    assert (Z0 : future x o d -> qop op (amount x i c o d) (amount y i c o d) = 0%Qc).
    { intros Hf. destruct (B i c o d R Hf) as [Z1 Z2]. unfold amount. rewrite Z1, Z2. apply qop_0; auto. }
    destruct (Nat.min (ax2 (values x)) (ax3 (values x)) =? 1)%nat; cbn [orb].
    - split; [apply stores_n2n|]. intros Hf. rewrite Z0 by auto. apply n2n_0.
    - destruct (Z.ltb_spec (vdate x) (month_of x o d)) as [Hf|Hf]; cbn [negb].
      + split; [rewrite Z0 by auto; apply stores_None|auto].
      + split; [apply stores_n2n|]. unfold future. lia. }
  split. { intros i c o d R Hf. apply St; [apply (range_same_frame _ _ i c o d F); auto|apply (future_same_frame _ _ o d F); auto]. }
  do 2 (split; [auto|]).
  assert (Uu : uniq_labels u) by (destruct U; split; [rewrite (sf_k _ _ F)|rewrite (sf_v _ _ F)]; auto).
  apply amount_at_fun; auto.
  - intros i c o d R. apply (range_same_frame _ _ i c o d F) in R.
    rewrite (sf_k _ _ F), (sf_v _ _ F), (sf_o _ _ F), (sf_d _ _ F), amount_at_pos by auto.
    rewrite <- Ek, <- Ev, <- Eo, <- Ed, amount_at_pos; auto.
    + unfold amount at 1. apply stores_nz, St. auto.
    + unfold in_range in *. rewrite S0, S1, S2, S3; auto.
  - intros k v o a Hn. unfold has_labels in Hn. rewrite (sf_k _ _ F), (sf_v _ _ F), (sf_o _ _ F), (sf_d _ _ F) in Hn.
    rewrite !not_has_labels; [apply qop_0; auto| |]; unfold has_labels; rewrite ?Ek, ?Ev, ?Eo, ?Ed; auto.
Qed.

(** ** Columns *)
Definition newcols (cols vs : list string) : list string := filter (fun c => negb (mem_str c vs)) cols.
Lemma newcols_In cols vs c : In c (newcols cols vs) <-> In c cols /\ ~ In c vs.
Proof.
  unfold newcols. rewrite filter_In. split; intros [H1 H2]; split; auto.
  - intros H. apply mem_str_In in H. rewrite H in H2. discriminate.
  - destruct (mem_str c vs) eqn:E; auto. apply mem_str_In in E. contradiction.
Qed.
Lemma filter_ext_in' {A} (f g : A -> bool) l : (forall x, In x l -> f x = g x) -> filter f l = filter g l.
Proof. intros H. induction l as [|a l IH]; cbn; auto. rewrite (H a (or_introl eq_refl)), IH; auto. intros; apply H; right; auto. Qed.

Record widened (t t' : tri) (n : nat) : Prop := {
  wd_k : kdims t' = kdims t; wd_kl : key_labels t' = key_labels t; wd_o : odims t' = odims t; wd_d : ddims t' = ddims t;
  wd_vd : vdate t' = vdate t; wd_cum : is_cumulative t' = is_cumulative t; wd_pat : is_pattern t' = is_pattern t;
  wd_og : ograin t' = ograin t; wd_dg : dgrain t' = dgrain t;
  wd_0 : ax0 (values t') = ax0 (values t); wd_1 : ax1 (values t') = (ax1 (values t) + n)%nat;
  wd_2 : ax2 (values t') = ax2 (values t); wd_3 : ax3 (values t') = ax3 (values t);
  wd_c : forall i c o d, (c < ax1 (values t))%nat -> cel t' i c o d = cel t i c o d;
  wd_n : forall i c o d, (ax1 (values t) <= c < ax1 (values t) + n)%nat -> cel t' i c o d = None }.

Lemma widened_refl t : widened t t 0.
Proof. constructor; auto; intros; lia. Qed.
Lemma widened_trans a b c n m : widened a b n -> widened b c m -> widened a c (n + m).
Proof.
  intros [A1 A2 A3 A4 A5 A6 A7 A8 A9 Ax0 Ax1 Ax2 Ax3 Ac An] [B1 B2 B3 B4 B5 B6 B7 B8 B9 Bx0 Bx1 Bx2 Bx3 Bc Bn].
  constructor; try congruence; try lia.
  - intros i k o d H. rewrite Bc by lia. auto.
  - intros i k o d H. destruct (Nat.lt_ge_cases k (ax1 (values a) + n)).
    + rewrite Bc by lia. apply An. lia.
    + apply Bn. lia.
Qed.
Lemma widened_add t c : widened t (add_empty_col t c) 1.
Proof.
  unfold add_empty_col. constructor; cbn [kdims key_labels vdims odims ddims values vdate is_cumulative is_pattern ograin dgrain set_values set_vdims set_dims ax0 ax1 ax2 ax3]; auto; try lia; intros i k o d H; unfold cel; cbn [values set_values av].
  - destruct (Nat.ltb_spec k (ax1 (values t))); auto; lia.
  - destruct (Nat.ltb_spec k (ax1 (values t))); auto; lia.
Qed.

Lemma fill_cols_widened cols : forall t, NoDup cols ->
  vdims (fill_cols cols t) = vdims t ++ newcols cols (vdims t) /\ widened t (fill_cols cols t) (List.length (newcols cols (vdims t))).
Proof.
  induction cols as [|c cols IH]; intros t Hn.
  - cbn. rewrite app_nil_r. split; auto using widened_refl.
  - inversion Hn as [|? ? Hc Hn']; subst. unfold fill_cols. cbn [fold_left]. unfold newcols. cbn [filter].
    destruct (mem_str c (vdims t)) eqn:E; cbn [negb].
    + apply IH; auto.
    + fold (fill_cols cols (add_empty_col t c)). destruct (IH (add_empty_col t c) Hn') as [Ev Wd].
      assert (Ef : newcols cols (vdims (add_empty_col t c)) = filter (fun c0 => negb (mem_str c0 (vdims t))) cols).
      { unfold newcols. apply filter_ext_in'. intros x Hx. cbn [add_empty_col vdims set_values set_vdims set_dims]. f_equal.
        destruct (mem_str x (vdims t)) eqn:E2.
        - apply mem_str_In. apply mem_str_In in E2. apply in_or_app; auto.
        - destruct (mem_str x (vdims t ++ [c])) eqn:E3; auto. apply mem_str_In in E3. apply in_app_or in E3.
          destruct E3 as [E3|[->|[]]]; [apply mem_str_In in E3; congruence|contradiction]. }
      rewrite Ef in Ev, Wd. split.
      * rewrite Ev. cbn [add_empty_col vdims set_values set_vdims set_dims]. rewrite <- app_assoc. reflexivity.
      * cbn [List.length]. exact (widened_trans _ _ _ _ _ (widened_add t c) Wd).
Qed.

Lemma wf_widened t t' n : wf t -> widened t t' n -> List.length (vdims t') = (List.length (vdims t) + n)%nat -> wf t'.
Proof.
  intros W [A1 A2 A3 A4 A5 A6 A7 A8 A9 Ax0 Ax1 Ax2 Ax3 Ac An] Hl. constructor.
  - rewrite Ax0, A1. apply W.
  - rewrite Ax1, (wf_v _ W). lia.
  - rewrite Ax2, A3. apply W.
  - rewrite Ax3, A4. apply W.
  - rewrite Ax2. apply W.
  - rewrite Ax3. apply W.
  - rewrite A3. apply W.
  - rewrite A4. apply W.
  - rewrite A5. apply W.
  - rewrite A4, A3, A5. apply W.
Qed.

Lemma find_str_In c l : In c l -> exists n, find_str c l = Ok n /\ (n < List.length l)%nat /\ nth n l EmptyString = c.
Proof.
  induction l as [|x l IH]; [intros []|]. intros H. cbn [find_str]. destruct (String.eqb_spec c x) as [->|Hne].
  - exists 0%nat. cbn. repeat split; auto; lia.
  - destruct H as [H|H]; [congruence|]. destruct (IH H) as (n & E & Hn & En). rewrite E. exists (S n). cbn. repeat split; auto; lia.
Qed.
Lemma mapm_find l cols : (forall c, In c cols -> In c l) ->
  exists idx, mapm (fun c => find_str c l) cols = Ok idx /\ sel l EmptyString idx = cols /\ (forall x, In x idx -> (x < List.length l)%nat).
Proof.
  induction cols as [|c cols IH]; intros H.
  - exists []. cbn. repeat split; auto. intros x [].
  - destruct (find_str_In c l (H c (or_introl eq_refl))) as (n & E & Hn & En).
    destruct IH as (idx & Ei & Si & Hi); [intros; apply H; right; auto|].
    exists (n :: idx). cbn [mapm]. rewrite E. cbn [rbind]. rewrite Ei. cbn [rbind]. split; [auto|]. split.
    + cbn. rewrite En. f_equal. exact Si.
    + intros x [<-|Hx]; auto.
Qed.
Lemma contig_total l : l <> [] -> exists s, contig_slice l = Ok s.
Proof.
  destruct l as [|a [|b l]]; [congruence|intros; eexists; reflexivity|]. intros _. cbn [contig_slice zdiffs].
  destruct (_ =? _); [|eexists; reflexivity].
  match goal with |- context [if ?b then _ else _] => destruct b end; try (eexists; reflexivity).
Qed.
Lemma get_idx_col t s ic : positions s (ax1 (values t)) = Ok ic ->
  get_idx t all_slice s all_slice all_slice =
  clip_vdate (sel_tri t (seq 0 (ax0 (values t))) ic (seq 0 (ax2 (values t))) (seq 0 (ax3 (values t)))).
Proof. intros H. unfold get_idx. cbn [is_slice all_slice andb negb]. fold all_slice. rewrite !positions_all, H. reflexivity. Qed.
Lemma get_idx_row t s ik : positions s (ax0 (values t)) = Ok ik ->
  get_idx t s all_slice all_slice all_slice =
  clip_vdate (sel_tri t ik (seq 0 (ax1 (values t))) (seq 0 (ax2 (values t))) (seq 0 (ax3 (values t)))).
Proof. intros H. unfold get_idx. cbn [is_slice all_slice andb negb]. fold all_slice. rewrite !positions_all, H. reflexivity. Qed.

Lemma NoDup_sel {A} (l : list A) d ix : NoDup l -> NoDup ix -> (forall x, In x ix -> (x < List.length l)%nat) -> NoDup (sel l d ix).
Proof.
  intros Hl Hi H. induction Hi as [|i ix Hn Hi IH]; cbn; constructor.
  - intros Hin. apply in_map_iff in Hin. destruct Hin as (j & E & Hj). apply (NoDup_nth l d) in E; auto.
    + subst; contradiction.
    + apply H; right; auto.
    + apply H; left; auto.
  - apply IH. intros; apply H; right; auto.
Qed.

(** A selection of rows and columns (all origins and ages kept). *)
Definition sel_kv (t : tri) (ik ic : list nat) : tri := sel_tri t ik ic (seq 0 (ax2 (values t))) (seq 0 (ax3 (values t))).
Lemma wf_sel_kv t ik ic : wf t -> wf (sel_kv t ik ic).
Proof.
  intros W. apply wf_sel; auto; try apply incr_pos_seq; try lia; rewrite seq_length; apply W.
Qed.
Lemma sel_kv_o t ik ic : wf t -> odims (sel_kv t ik ic) = odims t.
Proof. intros W. cbn. apply sel_seq_all. apply W. Qed.
Lemma sel_kv_d t ik ic : wf t -> ddims (sel_kv t ik ic) = ddims t.
Proof. intros W. cbn. apply dmap_sel_all. apply W. Qed.
Lemma month_sel_kv t ik ic o d : wf t -> month_of (sel_kv t ik ic) o d = month_of t o d.
Proof. intros W. rewrite !month_of_lab, sel_kv_o, sel_kv_d by auto. reflexivity. Qed.

Record picked (t : tri) (ik ic : list nat) (u : tri) : Prop := {
  pk_wf : wf u;
  pk_k : kdims u = sel (kdims t) [] ik; pk_v : vdims u = sel (vdims t) EmptyString ic;
  pk_kl : key_labels u = key_labels t; pk_o : odims u = odims t; pk_d : ddims u = ddims t;
  pk_cum : is_cumulative u = is_cumulative t; pk_pat : is_pattern u = is_pattern t;
  pk_og : ograin u = ograin t; pk_dg : dgrain u = dgrain t;
  pk_0 : ax0 (values u) = List.length ik; pk_1 : ax1 (values u) = List.length ic;
  pk_2 : ax2 (values u) = ax2 (values t); pk_3 : ax3 (values u) = ax3 (values t);
  pk_le : vdate u <= vdate t;
  pk_fut : forall o d, (o < ax2 (values t))%nat -> (d < ax3 (values t))%nat -> (vdate u <? month_of t o d) = (vdate t <? month_of t o d);
  pk_c : forall i c o d, (o < ax2 (values t))%nat -> (d < ax3 (values t))%nat -> cel u i c o d = cel t (nth i ik 0%nat) (nth c ic 0%nat) o d }.

Lemma clipped_picked t ik ic u : wf t -> clipped (sel_kv t ik ic) u -> picked t ik ic u.
Proof.
  intros W C. pose proof (cl_eq _ _ C) as E. pose proof (cl_wf _ _ C). pose proof (cl_le _ _ C) as Hle. pose proof (cl_fut _ _ C) as Hf.
  assert (Ev : values u = values (sel_kv t ik ic)) by (rewrite E; reflexivity).
  constructor; auto; try (rewrite E; reflexivity).
  - rewrite E. cbn [odims set_vdate]. apply sel_kv_o; auto.
  - rewrite E. cbn [ddims set_vdate]. apply sel_kv_d; auto.
  - rewrite Ev. cbn. apply seq_length.
  - rewrite Ev. cbn. apply seq_length.
  - intros o d Ho Hd. specialize (Hf o d). cbn [sel_kv sel_tri values sel_arr ax2 ax3 vdate] in Hf. rewrite !seq_length in Hf.
    rewrite month_sel_kv in Hf by auto. auto.
  - intros i c o d Ho Hd. unfold cel at 1. rewrite Ev. cbn [sel_kv sel_tri values sel_arr av]. rewrite !seq_nth by auto. reflexivity.
Qed.

Lemma getitem_cols_ok t cols : wf t -> NoDup cols -> cols <> [] -> (forall c, In c cols -> In c (vdims t)) ->
  exists ic u, getitem_cols t cols = Ok u /\ picked t (seq 0 (ax0 (values t))) ic u /\ vdims u = cols /\
    NoDup ic /\ (forall x, In x ic -> (x < List.length (vdims t))%nat).
Proof.
  intros W Hn Hne Hin. destruct (mapm_find (vdims t) cols Hin) as (ic & Em & Es & Hr).
  assert (Ni : NoDup ic).
  { apply (NoDup_map_inv (fun i => nth i (vdims t) EmptyString)). unfold sel in Es. rewrite Es. auto. }
  assert (ic <> []) by (intros ->; cbn in Es; congruence).
  destruct (contig_total (map Z.of_nat ic)) as (s & Hs); [destruct ic; [congruence|discriminate]|].
  assert (Ps : positions s (ax1 (values t)) = Ok ic) by (apply contig_slice_positions; auto; rewrite (wf_v _ W); auto).
  destruct (clip_vdate_ok _ (wf_sel_kv t (seq 0 (ax0 (values t))) ic W)) as (u & Eu & C).
  exists ic, u. unfold getitem_cols. rewrite Em. cbn [rbind]. rewrite Hs. cbn [rbind]. rewrite (get_idx_col _ _ _ Ps).
  split; [exact Eu|]. assert (P := clipped_picked _ _ _ _ W C). split; [auto|]. split; [rewrite (pk_v _ _ _ _ P); auto|]. auto.
Qed.

Lemma iloc_rows_ok t rows : wf t -> NoDup rows -> rows <> [] -> (forall x, In x rows -> (x < List.length (kdims t))%nat) ->
  exists u, iloc_rows t rows = Ok u /\ picked t rows (seq 0 (ax1 (values t))) u.
Proof.
  intros W Hn Hne Hr.
  destruct (contig_total (map Z.of_nat rows)) as (s & Hs); [destruct rows; [congruence|discriminate]|].
  assert (Ps : positions s (ax0 (values t)) = Ok rows) by (apply contig_slice_positions; auto; rewrite (wf_k _ W); auto).
  destruct (clip_vdate_ok _ (wf_sel_kv t rows (seq 0 (ax1 (values t))) W)) as (u & Eu & C).
  exists u. unfold iloc_rows. rewrite Hs. cbn [rbind]. rewrite (get_idx_row _ _ _ Ps). split; [exact Eu|]. apply clipped_picked; auto.
Qed.

(** Amounts by label are not changed by selecting rows and columns. *)
Lemma picked_uniq t ik ic u : uniq_labels t -> picked t ik ic u -> NoDup ik -> NoDup ic ->
  (forall x, In x ik -> (x < List.length (kdims t))%nat) -> (forall x, In x ic -> (x < List.length (vdims t))%nat) -> uniq_labels u.
Proof. intros [U1 U2] P N1 N2 H1 H2. split; [rewrite (pk_k _ _ _ _ P)|rewrite (pk_v _ _ _ _ P)]; apply NoDup_sel; auto. Qed.
Lemma amount_at_picked t ik ic u k v o a : wf t -> uniq_labels t -> picked t ik ic u -> NoDup ik -> NoDup ic ->
  (forall x, In x ik -> (x < List.length (kdims t))%nat) -> (forall x, In x ic -> (x < List.length (vdims t))%nat) ->
  In k (kdims u) -> In v (vdims u) -> amount_at u k v o a = amount_at t k v o a.
Proof.
  intros W U P N1 N2 H1 H2 Hk Hv. pose proof (picked_uniq _ _ _ _ U P N1 N2 H1 H2) as Uu.
  destruct (In_nth _ _ [] Hk) as (i & Hi & <-). destruct (In_nth _ _ EmptyString Hv) as (c & Hc & <-).
  rewrite amount_at_kv by auto. rewrite (pk_o _ _ _ _ P), (pk_d _ _ _ _ P).
  rewrite (pk_k _ _ _ _ P), sel_length in Hi. rewrite (pk_v _ _ _ _ P), sel_length in Hc.
  rewrite (pk_k _ _ _ _ P), (pk_v _ _ _ _ P), !nth_sel by auto.
  rewrite amount_at_kv by (auto; first [apply H1|apply H2]; apply nth_In; auto).
  apply pick_ext. intros r Hr _. apply pick_ext. intros e He _. unfold amount. rewrite (pk_c _ _ _ _ P); auto.
  - rewrite (wf_o _ W); auto.
  - rewrite (wf_d _ W); auto.
Qed.
Lemma NoDup_app_disj {A} (l m : list A) x : NoDup (l ++ m) -> In x l -> In x m -> False.
Proof.
  induction l as [|y l IH]; [intros _ []|]. cbn. intros Hn Hl Hm. inversion Hn as [|? ? Hy Hn']; subst.
  destruct Hl as [->|Hl]; [apply Hy, in_or_app; auto|eauto].
Qed.
(** Adding empty columns does not change amounts by label. *)
Lemma amount_at_widened t t' n l : wf t -> uniq_labels t -> widened t t' n -> vdims t' = vdims t ++ l -> List.length l = n -> NoDup (vdims t') ->
  forall k v o a, amount_at t' k v o a = amount_at t k v o a.
Proof.
  intros W U Wd Ev Hl Hn. assert (W' : wf t') by (apply (wf_widened t t' n); auto; rewrite Ev, app_length; lia).
  assert (U' : uniq_labels t') by (destruct U; split; [rewrite (wd_k _ _ _ Wd)|]; auto).
  apply amount_at_fun; auto.
  - intros i c o d (Hi & Hc & Ho & Hd).
    rewrite (wd_0 _ _ _ Wd) in Hi. rewrite (wd_1 _ _ _ Wd) in Hc. rewrite (wd_2 _ _ _ Wd) in Ho. rewrite (wd_3 _ _ _ Wd) in Hd.
    rewrite (wd_k _ _ _ Wd), (wd_o _ _ _ Wd), (wd_d _ _ _ Wd), Ev.
    destruct (Nat.lt_ge_cases c (ax1 (values t))) as [H|H].
    + rewrite app_nth1 by (rewrite <- (wf_v _ W); auto). rewrite amount_at_pos by (auto; repeat split; auto).
      unfold amount. rewrite (wd_c _ _ _ Wd); auto.
    + unfold amount at 1. rewrite (wd_n _ _ _ Wd) by lia. symmetry. apply amount_at_absent. right. left.
      intros Hin. rewrite Ev in Hn. rewrite app_nth2 in Hin by (rewrite <- (wf_v _ W); auto). rewrite (wf_v _ W) in *.
      assert (In (nth (c - List.length (vdims t)) l EmptyString) l) by (apply nth_In; lia).
      exact (NoDup_app_disj _ _ _ Hn Hin H0).
  - intros k v o a Hh. apply not_has_labels. unfold has_labels in *. rewrite (wd_k _ _ _ Wd), (wd_o _ _ _ Wd), (wd_d _ _ _ Wd), Ev in Hh.
    rewrite in_app_iff in Hh. tauto.
Qed.

Lemma NoDup_app_new l cols : NoDup l -> NoDup cols -> NoDup (l ++ newcols cols l).
Proof.
  intros Hl Hc. assert (Hf : NoDup (newcols cols l)) by (apply NoDup_filter; auto).
  assert (D : forall x, In x l -> ~ In x (newcols cols l)) by (intros x Hx Hin; apply newcols_In in Hin; tauto).
  revert D Hf. generalize (newcols cols l) as m. intros m D Hf. induction Hl as [|x l Hx Hl IH]; cbn; auto. constructor.
  - intros H. apply in_app_or in H. destruct H; [contradiction|]. apply (D x); [left; auto|auto].
  - apply IH. intros y Hy. apply D. right; auto.
Qed.
Lemma strs_eqb_eq a b : strs_eqb a b = true <-> a = b.
Proof.
  revert b. induction a as [|x a IH]; destruct b as [|y b]; cbn; split; intros H; try congruence; auto.
  - apply andb_true_iff in H. destruct H as [H1 H2]. apply String.eqb_eq in H1. apply IH in H2. congruence.
  - injection H as -> ->. rewrite String.eqb_refl. apply IH; auto.
Qed.

(** One operand extended to the column list [cols]. *)
Lemma extend_cols t cols add : wf t -> uniq_labels t -> NoDup cols -> cols <> [] -> NoDup add ->
  (forall c, In c add <-> In c cols) -> (forall c, In c (vdims t) -> In c cols) ->
  exists u, getitem_cols (fill_cols add t) cols = Ok u /\ wf u /\ uniq_labels u /\ kdims u = kdims t /\ key_labels u = key_labels t /\
    vdims u = cols /\ odims u = odims t /\ ddims u = ddims t /\ ograin u = ograin t /\ dgrain u = dgrain t /\
    vdate u <= vdate t /\ is_cumulative u = is_cumulative t /\ is_pattern u = is_pattern t /\
    (forall o d, (o < ax2 (values t))%nat -> (d < ax3 (values t))%nat -> (vdate u <? month_of t o d) = (vdate t <? month_of t o d)) /\
    (forall i c o d, in_range u i c o d -> cel u i c o d = None \/ exists c', (c' < ax1 (values t))%nat /\ cel u i c o d = cel t i c' o d) /\
    forall k v o a, amount_at u k v o a = amount_at t k v o a.
Proof.
  intros W U Hn Hne Ha Hac Hin.
  destruct (fill_cols_widened add t Ha) as [Ev Wd]. set (f := fill_cols add t) in *.
  assert (Nf : NoDup (vdims f)) by (rewrite Ev; apply NoDup_app_new; auto; apply U).
  assert (Wf : wf f) by (apply (wf_widened _ _ _ W Wd); rewrite Ev, app_length; reflexivity).
  assert (Uf : uniq_labels f) by (split; [rewrite (wd_k _ _ _ Wd); apply U|auto]).
  assert (Hall : forall c, In c (vdims f) <-> In c cols).
  { intros c. rewrite Ev, in_app_iff, newcols_In. split.
    - intros [H|[H _]]; auto. apply Hac; auto.
    - intros H. destruct (in_dec string_dec c (vdims t)); auto. right; split; auto. apply Hac; auto. }
  destruct (getitem_cols_ok f cols Wf Hn Hne) as (ic & u & Eu & P & Ec & Nic & Ric); [intros; apply Hall; auto|].
  assert (Ek : kdims u = kdims t).
  { rewrite (pk_k _ _ _ _ P), sel_seq_all; [apply (wd_k _ _ _ Wd)|apply Wf]. }
  assert (Eo : odims u = odims t) by (rewrite (pk_o _ _ _ _ P); apply (wd_o _ _ _ Wd)).
  assert (Ed : ddims u = ddims t) by (rewrite (pk_d _ _ _ _ P); apply (wd_d _ _ _ Wd)).
  assert (Rk : forall x, In x (seq 0 (ax0 (values f))) -> (x < List.length (kdims f))%nat).
  { intros x Hx. apply in_seq in Hx. rewrite <- (wf_k _ Wf). lia. }
  exists u. split; [auto|]. split; [apply P|]. split; [eapply picked_uniq; eauto using seq_NoDup|].
  split; [auto|]. split; [rewrite (pk_kl _ _ _ _ P); apply (wd_kl _ _ _ Wd)|]. split; [auto|]. do 2 (split; [auto|]).
  split; [rewrite (pk_og _ _ _ _ P); apply Wd|]. split; [rewrite (pk_dg _ _ _ _ P); apply Wd|].
  split; [pose proof (pk_le _ _ _ _ P); rewrite (wd_vd _ _ _ Wd) in *; lia|].
  split; [rewrite (pk_cum _ _ _ _ P); apply Wd|]. split; [rewrite (pk_pat _ _ _ _ P); apply Wd|].
  assert (Em : forall o d, month_of f o d = month_of t o d) by (intros; rewrite !month_of_lab, (wd_o _ _ _ Wd), (wd_d _ _ _ Wd); auto).
  split.
  { intros o d Ho Hd. rewrite <- Em. rewrite (pk_fut _ _ _ _ P); [|rewrite (wd_2 _ _ _ Wd); auto|rewrite (wd_3 _ _ _ Wd); auto].
    rewrite (wd_vd _ _ _ Wd). reflexivity. }
  split.
  { intros i c o d (Hi & Hc & Ho & Hd).
    rewrite (pk_0 _ _ _ _ P), seq_length in Hi. rewrite (pk_1 _ _ _ _ P) in Hc. rewrite (pk_2 _ _ _ _ P) in Ho. rewrite (pk_3 _ _ _ _ P) in Hd.
    rewrite (pk_c _ _ _ _ P) by auto. rewrite seq_nth by auto. cbn [Nat.add].
    destruct (Nat.lt_ge_cases (nth c ic 0%nat) (ax1 (values t))) as [H|H].
    - right. exists (nth c ic 0%nat). split; auto. apply (wd_c _ _ _ Wd); auto.
    - left. apply (wd_n _ _ _ Wd). split; auto. rewrite <- (wd_1 _ _ _ Wd), (wf_v _ Wf). apply Ric. apply nth_In; auto. }
  intros k v o a. rewrite <- (amount_at_widened t f _ (newcols add (vdims t)) W U Wd Ev eq_refl Nf).
  destruct (in_dec key_dec k (kdims u)) as [Hk|Hk]; [destruct (in_dec string_dec v (vdims u)) as [Hv|Hv]|].
  - eapply amount_at_picked; eauto using seq_NoDup.
  - rewrite !amount_at_absent; auto. right; left. rewrite Hall, <- Ec. auto.
  - rewrite !amount_at_absent; auto. left. rewrite (wd_k _ _ _ Wd), <- Ek. auto.
Qed.

Lemma mem_newcols cols vs : newcols cols vs = [] <-> (forall c, In c cols -> In c vs).
Proof.
  split.
  - intros E c Hc. destruct (in_dec string_dec c vs) as [H|H]; auto. exfalso.
    assert (In c (newcols cols vs)) by (apply newcols_In; auto). rewrite E in *. auto.
  - intros H. destruct (newcols cols vs) as [|c l] eqn:E; auto. assert (In c (newcols cols vs)) by (rewrite E; left; auto).
    apply newcols_In in H0. destruct H0 as [H1 H2]. exfalso; auto.
Qed.

Lemma prep_columns_ext x y : wf x -> wf y -> uniq_labels x -> uniq_labels y ->
  (2 <= List.length (vdims x))%nat -> (2 <= List.length (vdims y))%nat -> (exists c, In c (vdims y) /\ ~ In c (vdims x)) ->
  let cols := vdims x ++ newcols (vdims y) (vdims x) in
  prep_columns x y = (do x' <- getitem_cols (fill_cols cols x) cols;
      do y' <- getitem_cols (fill_cols (vdims y ++ newcols (vdims x) (vdims y)) y) cols; Ok (x', y')).
Proof.
  intros Wx Wy Ux Uy L1 L2 (c & Hc & Hnc) cols. unfold prep_columns. fold (newcols (vdims y) (vdims x)) (newcols (vdims x) (vdims y)).
  destruct (Nat.eqb_spec (List.length (vdims x)) 1); [lia|]. destruct (Nat.eqb_spec (List.length (vdims y)) 1); [lia|]. cbn [andb].
  assert (Hne : strs_eqb (vdims x) (vdims y) = false).
  { destruct (strs_eqb (vdims x) (vdims y)) eqn:E; auto. apply strs_eqb_eq in E. exfalso. rewrite E in Hnc. auto. }
  rewrite Hne, andb_false_r. fold cols.
  assert (newcols (vdims y) (vdims x) <> []).
  { intros E. apply Hnc. apply (proj1 (mem_newcols _ _) E). auto. }
  destruct (newcols (vdims y) (vdims x)); [congruence|reflexivity].
Qed.

Lemma addsub_columns op x y : is_addsub op -> wf x -> wf y -> uniq_labels x -> uniq_labels y ->
  kdims y = kdims x -> key_labels y = key_labels x -> odims y = odims x -> ddims y = ddims x -> ograin y = ograin x -> dgrain y = dgrain x ->
  (2 <= List.length (vdims x))%nat -> (2 <= List.length (vdims y))%nat -> (exists c, In c (vdims y) /\ ~ In c (vdims x)) ->
  blank_future x -> blank_future y ->
  exists u, tri_op op x y = Ok u /\ wf u /\ blank_future u /\
    kdims u = kdims x /\ key_labels u = key_labels x /\ odims u = odims x /\ ddims u = ddims x /\
    NoDup (vdims u) /\ (forall c, In c (vdims u) <-> In c (vdims x) \/ In c (vdims y)) /\
    vdate u <= Z.max (vdate x) (vdate y) /\
    (forall o d, (o < ax2 (values x))%nat -> (d < ax3 (values x))%nat -> (future u o d <-> Z.max (vdate x) (vdate y) < month_of x o d)) /\
    forall k v o a, amount_at u k v o a = qop op (amount_at x k v o a) (amount_at y k v o a).
Proof.
  intros Hop Wx Wy Ux Uy Ek El Eo Ed Eog Edg L1 L2 Hex Bx By.
  destruct (lhs_fields x y) as (Lk & Ll & Lv & Lo & Ld & La & Lvd & Lc & Log & Ldg).
  destruct (rhs_fields x y) as (Rk & Rl & Rv & Ro & Rd & Ra & Rvd & Rog & Rdg).
  pose proof (wf_lhs x y Wx Wy) as Wl. pose proof (wf_rhs x y Wy) as Wr.
  assert (Ul : uniq_labels (lhs x y)) by (destruct Ux; split; [rewrite Lk|rewrite Lv]; auto).
  assert (Ur : uniq_labels (rhs x y)) by (destruct Uy; split; [rewrite Rk|rewrite Rv]; auto).
  set (cols := vdims x ++ newcols (vdims y) (vdims x)).
  assert (Nc : NoDup cols) by (apply NoDup_app_new; [apply Ux|apply Uy]).
  assert (Ncy : NoDup (vdims y ++ newcols (vdims x) (vdims y))) by (apply NoDup_app_new; [apply Uy|apply Ux]).
  assert (Ic : forall c, In c cols <-> In c (vdims x) \/ In c (vdims y)).
  { intros c. unfold cols. rewrite in_app_iff, newcols_In. destruct (in_dec string_dec c (vdims x)); tauto. }
  assert (Icy : forall c, In c (vdims y ++ newcols (vdims x) (vdims y)) <-> In c cols).
  { intros c. rewrite Ic, in_app_iff, newcols_In. destruct (in_dec string_dec c (vdims y)); tauto. }
  assert (Cne : cols <> []) by (unfold cols; destruct (vdims x); [cbn in L1; lia|discriminate]).
  destruct (extend_cols (lhs x y) cols cols Wl Ul Nc Cne Nc) as
    (x' & Ex & Wx' & Ux' & Xk & Xl & Xv & Xo & Xd & Xog & Xdg & Xle & Xcum & Xpat & Xf & Xc & Xa); [tauto|intros c; rewrite Lv, Ic; auto|].
  destruct (extend_cols (rhs x y) cols (vdims y ++ newcols (vdims x) (vdims y)) Wr Ur Nc Cne Ncy) as
    (y' & Ey & Wy' & Uy' & Yk & Yl & Yv & Yo & Yd & Yog & Ydg & Yle & Ycum & Ypat & Yf & Yc & Ya); [auto|intros c; rewrite Rv, Ic; auto|].
  unfold tri_op. rewrite validate_unfold by (apply compatible_same; auto).
  rewrite prep_columns_ext; auto; try (rewrite ?Lv, ?Rv; auto; fail).
  rewrite Lv, Rv. fold cols. rewrite Ex. cbn [rbind]. rewrite Ey. cbn [rbind fst snd].
  assert (So : odims y' = odims x') by congruence. assert (Sd : ddims y' = ddims x') by congruence.
  assert (Sk : kdims y' = kdims x') by congruence. assert (Sv : vdims y' = vdims x') by congruence.
  rewrite prep_od_same; auto.
  2: rewrite (wf_o _ Wx'), (wf_o _ Wy'), So; auto.
  2: rewrite (wf_d _ Wx'), (wf_d _ Wy'), Sd; auto.
  2: rewrite <- (wf_o _ Wx'); apply Wx'.
  2: rewrite <- (wf_d _ Wx'); apply Wx'.
  cbn [rbind fst snd]. rewrite prep_index_same by congruence. cbn [rbind].
  assert (S2 : ax2 (values x') = ax2 (values x)) by (rewrite (wf_o _ Wx'), Xo, Lo, <- (wf_o _ Wx); auto).
  assert (S3 : ax3 (values x') = ax3 (values x)) by (rewrite (wf_d _ Wx'), Xd, Ld, <- (wf_d _ Wx); auto).
  assert (Mx : forall o d, month_of x' o d = month_of x o d) by (intros; rewrite !month_of_lab; congruence).
  assert (My : forall o d, month_of y o d = month_of x o d) by (intros; rewrite !month_of_lab; congruence).
  assert (Ml : forall o d, month_of (lhs x y) o d = month_of x o d) by (intros; rewrite !month_of_lab; congruence).
  assert (FF : forall o d, (o < ax2 (values x))%nat -> (d < ax3 (values x))%nat -> (future x' o d <-> Z.max (vdate x) (vdate y) < month_of x o d)).
  { intros o d Ho Hd. unfold future. rewrite Mx. specialize (Xf o d). rewrite La, Ml, Lvd in Xf. specialize (Xf Ho Hd).
    rewrite <- !Z.ltb_lt, Xf. tauto. }
  assert (S0 : ax0 (values x') = ax0 (values x)) by (rewrite (wf_k _ Wx'), Xk, Lk, <- (wf_k _ Wx); auto).
  destruct (finish op x' y' Hop Wx' Wy' Ux' Sk Sv So Sd) as (u & Eu & Wu & F & Bu & Hc & Hp & Ha).
  { intros i c o d R Hf. assert (R' := R). destruct R' as (Hi & Hcc & Ho & Hd). rewrite S2 in Ho. rewrite S3 in Hd. rewrite S0 in Hi.
    apply FF in Hf; auto. split.
    - destruct (Xc i c o d R) as [E|(c' & Hc' & E)]; auto. rewrite E. unfold cel. rewrite La in *. apply Bx; [repeat split; auto|unfold future; lia].
    - assert (Ry : in_range y' i c o d).
      { unfold in_range in *. rewrite (wf_k _ Wy'), (wf_v _ Wy'), (wf_o _ Wy'), (wf_d _ Wy'), Sk, Sv, So, Sd.
        rewrite <- (wf_k _ Wx'), <- (wf_v _ Wx'), <- (wf_o _ Wx'), <- (wf_d _ Wx'). auto. }
      destruct (Yc i c o d Ry) as [E|(c' & Hc' & E)]; auto. rewrite E. unfold cel. rewrite Ra in *. apply By.
      + unfold in_range. rewrite (wf_k _ Wy), (wf_o _ Wy), (wf_d _ Wy), Ek, Eo, Ed, <- (wf_k _ Wx), <- (wf_o _ Wx), <- (wf_d _ Wx). auto.
      + unfold future. rewrite My. lia. }
  exists u. split; [auto|]. do 2 (split; [auto|]).
  split; [rewrite (sf_k _ _ F); congruence|]. split; [rewrite (sf_kl _ _ F); congruence|].
  split; [rewrite (sf_o _ _ F); congruence|]. split; [rewrite (sf_d _ _ F); congruence|].
  split; [rewrite (sf_v _ _ F), Xv; auto|]. split; [intros c; rewrite (sf_v _ _ F), Xv; auto|].
  split; [rewrite (sf_vd _ _ F); lia|].
  split. { intros o d Ho Hd. rewrite <- FF by auto. apply future_same_frame; auto. }
  intros k v o a. rewrite Ha, Xa, Ya.
  assert (Qx : amount_at (lhs x y) k v o a = amount_at x k v o a).
  { unfold amount_at. rewrite Lk, Lv, Lo, Ld. unfold amount, cel. rewrite La. reflexivity. }
  assert (Qy : amount_at (rhs x y) k v o a = amount_at y k v o a).
  { unfold amount_at. rewrite Rk, Rv, Ro, Rd. unfold amount, cel. rewrite Ra. reflexivity. }
  rewrite Qx, Qy. reflexivity.
Qed.

(** If the right operand brings no new column, the two-column case raises. *)
Lemma columns_unbound op x y : ograin y = ograin x -> dgrain y = dgrain x ->
  (2 <= List.length (vdims x))%nat -> (2 <= List.length (vdims y))%nat ->
  vdims y <> vdims x -> (forall c, In c (vdims y) -> In c (vdims x)) -> tri_op op x y = Err UnboundLocalError.
Proof.
  intros Eog Edg L1 L2 Hne Hin.
  destruct (lhs_fields x y) as (_ & _ & Lv & _). destruct (rhs_fields x y) as (_ & _ & Rv & _).
  unfold tri_op. rewrite validate_unfold by (apply compatible_same; auto). unfold prep_columns. rewrite Lv, Rv.
  fold (newcols (vdims y) (vdims x)).
  destruct (Nat.eqb_spec (List.length (vdims x)) 1); [lia|]. destruct (Nat.eqb_spec (List.length (vdims y)) 1); [lia|]. cbn [andb].
  assert (Hs : strs_eqb (vdims x) (vdims y) = false).
  { destruct (strs_eqb (vdims x) (vdims y)) eqn:E; auto. apply strs_eqb_eq in E. congruence. }
  rewrite Hs, andb_false_r. rewrite (proj2 (mem_newcols _ _) Hin). reflexivity.
Qed.
