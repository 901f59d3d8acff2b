(** The full triangle. *)
From Coq Require Import Lia Sorted.
From Verif Require Export P_FullExp P_Align.
Local Open Scope Z_scope.

(** Sums and differences of triangles never store a zero. *)
Lemma op_arr_stores op x b r : is_addsub op -> op_arr op x b = Ok r -> forall i c o d, stores (cel r i c o d) (amount r i c o d).
Proof.
  intros Hop H i c o d. destruct Hop as [-> | ->]; cbn [op_arr] in H; unfold add_arr, sub_arr in H; cbn in H; inv_do H; injection H as <-; unfold amount, cel, cleanup; cbn [values set_values av];
  rewrite nz_n2n; apply stores_n2n_nz.
Qed.
Lemma tri_op_stores op x y r : is_addsub op -> tri_op op x y = Ok r -> forall i c o d, stores (cel r i c o d) (amount r i c o d).
Proof.
  intros Hop H i c o d. unfold tri_op in H. inv_do H. destruct a as [x' b|x' y'].
  - eapply op_arr_stores; eauto.
  - inv_do H. inv_do H. inv_do H. injection H as <-. destruct Hop as [-> | ->]; unfold amount, cel, cleanup; cbn [values set_values av]; rewrite nz_n2n; apply stores_n2n_nz.
Qed.

(** Cell by cell form of [addsub_reframe]. *)
Lemma addsub_cells op x y : is_addsub op -> wf x -> wf y -> uniq_labels x ->
  kdims y = kdims x -> key_labels y = key_labels x -> vdims y = vdims x -> ograin y = ograin x -> dgrain y = dgrain x ->
  same_kind (ddims x) (ddims y) -> ablocks (odims x) (odims y) -> ablocks (dlist (ddims x)) (dlist (ddims y)) ->
  frame_fits x y -> blank_future x -> blank_future y -> ~ (odims x = odims y /\ dlist (ddims x) = dlist (ddims y)) ->
  exists u, tri_op op x y = Ok u /\ wf u /\ blank_future u /\
    (is_cumulative u = is_cumulative x /\ is_pattern u = (is_pattern x && is_pattern y)%bool /\ ograin u = ograin x /\ dgrain u = dgrain x) /\
    kdims u = kdims x /\ key_labels u = key_labels x /\ vdims u = vdims x /\ odims u = zunion (odims x) (odims y) /\
    same_kind (ddims x) (ddims u) /\ dlist (ddims u) = zunion (dlist (ddims x)) (dlist (ddims y)) /\ vdate u = Z.max (vdate x) (vdate y) /\
    forall i c o d, in_range u i c o d -> stores (cel u i c o d)
      (qop op (pick Z.eq_dec (odims x) (nth o (odims u) 0) 0 (fun r => pick Z.eq_dec (dlist (ddims x)) (nth d (dlist (ddims u)) 0) 0 (fun e => amount x i c r e)))
              (pick Z.eq_dec (odims y) (nth o (odims u) 0) 0 (fun r => pick Z.eq_dec (dlist (ddims y)) (nth d (dlist (ddims u)) 0) 0 (fun e => amount y i c r e)))).
Proof.
  intros Hop Wx Wy U Ek El Ev Eog Edg K Ao Ad Fit Bx By Hne.
  assert (Uy : uniq_labels y) by (destruct U; split; [rewrite Ek|rewrite Ev]; auto).
  destruct (addsub_reframe op x y Hop Wx Wy U Ek El Ev Eog Edg K Ao Ad Fit Bx By Hne) as (u & Eu & Wu & Bu & Fl & Uk & Ukl & Uv & Uo & Us & Ud & Uvd & Ua).
  assert (Uu : uniq_labels u) by (destruct U; split; [rewrite Uk|rewrite Uv]; auto).
  exists u. repeat (split; [assumption|]).
  split; [apply sorted_Z_ext; [apply Wu|apply zunion_sorted|intros z; rewrite zunion_In; apply Uo]|].
  split; [exact Us|]. split; [apply sorted_Z_ext; [apply Wu|apply zunion_sorted|intros z; rewrite zunion_In; apply Ud]|]. split; [exact Uvd|].
  intros i c o d R. eapply stores_eq; [eapply tri_op_stores; eauto|]. pose proof R as (Hi & Hc & Ho & Hd).
  rewrite <- (amount_at_pos u i c o d) by auto. rewrite Ua. rewrite (wf_k _ Wu), Uk in Hi. rewrite (wf_v _ Wu), Uv in Hc. rewrite Uk, Uv.
  f_equal; [|rewrite <- Ek, <- Ev]; apply amount_at_kv; auto; congruence.
Qed.

(** ** Ranges of a sorted list of labels *)
Definition rng (U : list Z) (a n : nat) : list Z := sel U 0 (seq a n).
Lemma rng_length U a n : List.length (rng U a n) = n.
Proof. unfold rng, sel. rewrite map_length. apply seq_length. Qed.
Lemma rng_nth U a n k e : (k < n)%nat -> nth k (rng U a n) e = nth (a + k) U 0.
Proof. intros H. unfold rng. rewrite TriFacts.nth_sel by (rewrite seq_length; auto). rewrite seq_nth by auto. reflexivity. Qed.
Lemma rng_all U : rng U 0 (List.length U) = U.
Proof. apply sel_seq_all. reflexivity. Qed.
Lemma rng_split U a n : (a + n <= List.length U)%nat -> U = rng U 0 a ++ rng U a n ++ rng U (a + n) (List.length U - (a + n)).
Proof.
  intros H. transitivity (rng U 0 (List.length U)); [symmetry; apply rng_all|]. unfold rng, sel. rewrite <- !map_app. f_equal.
  replace (List.length U) with (a + (n + (List.length U - (a + n))))%nat at 1 by lia. rewrite seq_app, seq_app. reflexivity.
Qed.
Lemma rng_In U a n x : In x (rng U a n) <-> exists k, (a <= k < a + n)%nat /\ nth k U 0 = x.
Proof. unfold rng, sel. rewrite in_map_iff. split; intros (k & H); exists k; rewrite in_seq in *; intuition. Qed.
Lemma rng_sorted U a n : StronglySorted Z.lt U -> (a + n <= List.length U)%nat -> StronglySorted Z.lt (rng U a n).
Proof. intros S H. unfold rng. apply sel_sorted; auto. apply incr_pos_seq; auto. Qed.
Lemma rng_block U a n : StronglySorted Z.lt U -> (a + n <= List.length U)%nat -> is_block U (rng U a n) (rng U 0 a) (rng U (a + n) (List.length U - (a + n))).
Proof.
  intros S H. split; [apply rng_split; auto|]. split; intros x Hx Hy; apply rng_In in Hx, Hy; destruct Hx as (k & K & Ek), Hy as (k' & K' & Ek');
  assert (k = k') by (apply (sorted_nth_inj U _ _ 0); auto; try lia; congruence); lia.
Qed.
Lemma rng_pick U a n k f : StronglySorted Z.lt U -> (a + n <= List.length U)%nat -> (k < List.length U)%nat ->
  pick Z.eq_dec (rng U a n) (nth k U 0) 0 f = if ((a <=? k) && (k <? a + n))%nat then f (k - a)%nat else 0%Qc.
Proof.
  intros S H Hk. rewrite (rng_split U a n H) at 2. rewrite pick_block.
  - rewrite !rng_length. reflexivity.
  - rewrite <- rng_split by auto. apply sorted_NoDup; auto.
  - rewrite <- rng_split by auto. auto.
Qed.
Lemma rng_union U a n b k : StronglySorted Z.lt U -> (a + n <= List.length U)%nat -> (b + k <= List.length U)%nat ->
  (forall p, (p < List.length U)%nat -> (a <= p < a + n \/ b <= p < b + k)%nat) -> zunion (rng U a n) (rng U b k) = U.
Proof.
  intros S H1 H2 Hc. apply sorted_Z_ext; [apply zunion_sorted|auto|]. intros x. rewrite zunion_In, !rng_In. split.
  - intros [(p & Hp & <-)|(p & Hp & <-)]; apply nth_In; lia.
  - intros Hx. destruct (In_nth _ _ 0 Hx) as (p & Hp & <-). destruct (Hc p Hp); [left|right]; exists p; auto.
Qed.
Lemma all_differ_nth a b : List.length a = List.length b -> (forall k, (k < List.length a)%nat -> nth k a 0 <> nth k b 0) -> all_differ a b = true.
Proof.
  revert b; induction a as [|x a IH]; intros [|y b] L H; try reflexivity; try discriminate. cbn [all_differ].
  destruct (Z.eqb_spec x y) as [E|E]; [exfalso; apply (H 0%nat); cbn; auto; lia|]. cbn. apply IH; [cbn in L; lia|]. intros k Hk. apply (H (S k)). cbn; lia.
Qed.
Lemma rng_ablocks U a n b k : StronglySorted Z.lt U -> (a + n <= List.length U)%nat -> (b + k <= List.length U)%nat -> (2 <= n)%nat -> (2 <= k)%nat ->
  (forall p, (p < List.length U)%nat -> (a <= p < a + n \/ b <= p < b + k)%nat) -> ablocks (rng U a n) (rng U b k).
Proof.
  intros S H1 H2 N K Hc. unfold ablocks. rewrite (rng_union U a n b k) by auto. rewrite !rng_length.
  split; [eexists; eexists; apply rng_block; auto|]. split; [eexists; eexists; apply rng_block; auto|].
  split; [destruct (Nat.eqb_spec k 1); [lia|reflexivity]|]. split; [destruct (Nat.eqb_spec n 1); [lia|reflexivity]|].
  intros Hne. destruct (Nat.eqb_spec n k) as [<-|E].
  - assert (a <> b) by congruence. rewrite all_differ_nth; [destruct (Nat.ltb_spec 1 n); [reflexivity|lia]|rewrite !rng_length; auto|].
    intros j Hj. rewrite rng_length in Hj. rewrite !rng_nth by auto. intros E. apply (sorted_nth_inj U) in E; auto; lia.
  - unfold bcast_ok. destruct (Nat.eqb_spec n k); [lia|]. destruct (Nat.eqb_spec n 1); [lia|]. destruct (Nat.eqb_spec k 1); [lia|]. reflexivity.
Qed.

Lemma removelast_len {X} (l : list X) : List.length (removelast l) = (List.length l - 1)%nat.
Proof. destruct l as [|a l]; auto. assert (H : a :: l <> []) by discriminate. pose proof (app_removelast_last a H) as E. apply (f_equal (@List.length _)) in E. rewrite app_length in E. cbn [List.length] in *. lia. Qed.

Section FullTri.
Variables t l u : tri.
Variable lat : nat -> nat.
Variables A : list Z.
Hypothesis MI : method_input t.
Hypothesis PF : pattern_for t l.
Hypothesis UF : ultimate_frame t u.
Hypothesis PJ : projectable t l.
Hypothesis UL : uniq_labels t.
Hypothesis LA : latest_ages t lat.
Hypothesis EH : enough_history t lat.
Hypothesis EA : even_ages t l.
Hypothesis DA : ddims l = Ages A.
Let Wt := mi_wf _ MI.
Let Wl := pf_wf _ _ PF.
Let no := ax2 (values t).
Let m := ax3 (values l).
Let dl := lat (no - 1).
Definition mon (o d : nat) : Z := nth o (odims t) 0 + nth d A 0 - 1.

Lemma A_len : List.length A = m.
Proof. pose proof (wf_d _ Wl) as X. rewrite DA in X. cbn in X. unfold m. lia. Qed.
Lemma A_sorted : StronglySorted Z.lt A.
Proof. pose proof (wf_dsort _ Wl) as X. rewrite DA in X. exact X. Qed.
Lemma A_prefix : ddims t = Ages (firstn (ax3 (values t)) A) /\ (ax3 (values t) <= m)%nat.
Proof.
  destruct (pf_d _ _ PF) as (xs & more & E1 & E2). rewrite E2 in DA. injection DA as <-. pose proof (wf_d _ Wt) as X. rewrite E1 in X. cbn in X.
  split; [|apply pf_len; auto]. rewrite E1, X, firstn_app, Nat.sub_diag, firstn_all. cbn. rewrite app_nil_r. reflexivity.
Qed.
Lemma A_small d : (d < m)%nat -> nth d A 0 < 9999.
Proof. intros H. apply (PJ _ DA). apply nth_In. rewrite A_len. auto. Qed.
Lemma A_fits o d : (o < no)%nat -> (d < m)%nat -> mon o d < ULT_VAL.
Proof. intros Ho H. apply (PJ _ DA); apply nth_In; [rewrite <- (wf_o _ Wt); auto|rewrite A_len; auto]. Qed.
Lemma mon_t o d : (o < no)%nat -> (d < ax3 (values t))%nat -> month_of t o d = mon o d.
Proof.
  intros Ho Hd. destruct A_prefix as [E L]. unfold month_of. rewrite E. unfold age_month, mon.
  assert (En : nth d (firstn (ax3 (values t)) A) 0 = nth d A 0).
  { rewrite <- (firstn_skipn (ax3 (values t)) A) at 2. rewrite app_nth1; auto. rewrite firstn_length, A_len. lia. }
  rewrite En. pose proof (A_small d ltac:(lia)). destruct (Z.eqb_spec (nth d A 0) 9999); [lia|reflexivity].
Qed.
Lemma lat_lt o : (o < no)%nat -> (lat o < ax3 (values t))%nat /\ (lat o < m)%nat.
Proof. intros Ho. destruct (LA o Ho). destruct A_prefix. lia. Qed.
Lemma mon_lat o : (o < no)%nat -> mon o (lat o) = vdate t.
Proof. intros Ho. destruct (LA o Ho) as [H1 H2]. rewrite <- mon_t; auto. Qed.
Lemma mon_lt o d : (o < no)%nat -> (d < m)%nat -> (mon o d <? vdate t) = (d <? lat o)%nat.
Proof.
  intros Ho Hd. pose proof (mon_lat o Ho) as E. destruct (lat_lt o Ho) as [_ Hl]. unfold mon in *. pose proof A_sorted as S. pose proof A_len as L.
  destruct (Nat.ltb_spec d (lat o)).
  - pose proof (sorted_nth_lt A d (lat o) 0 S ltac:(lia)). apply Z.ltb_lt. lia.
  - pose proof (sorted_nth_le A (lat o) d 0 S ltac:(lia)). apply Z.ltb_ge. lia.
Qed.
Lemma lat_mono o o' : (o < o' < no)%nat -> (lat o' < lat o)%nat.
Proof.
  intros Ho. pose proof (mon_lat o ltac:(lia)) as E. pose proof (mon_lat o' ltac:(lia)) as E'. destruct (lat_lt o ltac:(lia)) as [_ Hl]. destruct (lat_lt o' ltac:(lia)) as [_ Hl'].
  pose proof (sorted_nth_lt (odims t) o o' 0 (wf_osort _ Wt) ltac:(rewrite <- (wf_o _ Wt); auto)) as L. unfold mon in *.
  destruct (Nat.lt_ge_cases (lat o') (lat o)) as [|Hg]; auto. pose proof (sorted_nth_le A (lat o) (lat o') 0 A_sorted ltac:(rewrite A_len; lia)). lia.
Qed.
Lemma dl_le o : (o < no)%nat -> (dl <= lat o <= lat 0)%nat.
Proof.
  intros Ho. unfold dl. split.
  - destruct (Nat.eq_dec o (no - 1)) as [->|]; [lia|]. pose proof (lat_mono o (no - 1)). lia.
  - destruct (Nat.eq_dec o 0) as [->|]; [lia|]. pose proof (lat_mono 0 o). lia.
Qed.

(** ** The factors of every origin *)
Lemma spread_ok : exists one em, tri_op ODiv u u = Ok one /\ tri_op OMul l one = Ok em /\ wf em /\ no_future em /\
  kdims em = kdims t /\ key_labels em = key_labels t /\ vdims em = vdims t /\ odims em = odims t /\ ddims em = Ages A /\ vdate em = ULT_VAL /\
  is_cumulative em = is_cumulative l /\ is_pattern em = false /\ ograin em = ograin t /\ dgrain em = dgrain t /\
  ax0 (values em) = ax0 (values t) /\ ax1 (values em) = ax1 (values t) /\ ax2 (values em) = no /\ ax3 (values em) = m /\
  (forall o d, (o < no)%nat -> (d < m)%nat -> month_of em o d = mon o d) /\
  forall i c o d, (i < ax0 (values t))%nat -> (c < ax1 (values t))%nat -> (o < no)%nat -> (d < m)%nat ->
    cel em i c o d = cmul (cel l i c 0%nat d) (cdiv (cel u i c o 0%nat) (cel u i c o 0%nat)).
Proof.
  pose proof (pf_0 t l MI PF) as P0. pose proof (pf_1 t l MI PF) as P1. pose proof (pf_2 t l PF) as P2.
  pose proof (mi_0 _ MI) as T0. pose proof (mi_1 _ MI) as T1. pose proof (wf_o1 _ Wt) as T2.
  pose proof (wf_k _ Wt) as Tk. pose proof (wf_v _ Wt) as Tv. pose proof (wf_o _ Wt) as To.
  pose proof (wf_k _ Wl) as Lk. pose proof (wf_v _ Wl) as Lv. pose proof (wf_o _ Wl) as Lo. pose proof (wf_d _ Wl) as Ld. pose proof (wf_d1 _ Wl) as Ld1.
  destruct UF as [Uk Ukl Uv Uo Ud Uvd Ucum Upat Uog Udg U0 U1 U2 U3].
  assert (Su : shape_ok u) by (unfold shape_ok; rewrite Uk, Uv, Uo, Ud; cbn [dlist List.length]; lia).
  destruct (tri_op_narrow ODiv u u) as (one & E1 & R1); [constructor; auto|]. exists one.
  destruct R1 as [Ok Okl Ov Oo Od Ovd Ocum Opat Oog Odg O0 O1 O2 O3 Osh Oc].
  assert (Sl : shape_ok l) by (unfold shape_ok; lia).
  assert (B : bcast l one).
  { constructor; auto; unfold bc.
    - rewrite Oog, Uog. symmetry. apply PF.
    - left. rewrite Odg, Udg. symmetry. apply PF.
    - rewrite Okl, Ukl. symmetry. apply PF.
    - left. rewrite Ok, Uk. symmetry. apply PF.
    - left. rewrite Ov, Uv. symmetry. apply PF.
    - right. right. rewrite (pf_o _ _ PF). reflexivity.
    - right. left. rewrite Od, Ud. reflexivity. }
  destruct (tri_op_bcast OMul l one B) as (em & Ee & R). exists em. split; [exact E1|]. split; [exact Ee|].
  pose proof (br_0 _ _ _ _ R) as R0. pose proof (br_1 _ _ _ _ R) as R1. pose proof (br_2 _ _ _ _ R) as R2. pose proof (br_3 _ _ _ _ R) as R3.
  pose proof (br_k _ _ _ _ R) as Rk. pose proof (br_v _ _ _ _ R) as Rv. pose proof (br_o _ _ _ _ R) as Ro. pose proof (br_d _ _ _ _ R) as Rd.
  pose proof (br_dg _ _ _ _ R) as Rdg.
  unfold bframe in Rk, Rv, Ro, Rd, Rdg. cbn [kdims vdims odims ddims dgrain] in *.
  rewrite pk_keep in Rk by (left; rewrite Ok, Uk, (pf_k _ _ PF); reflexivity).
  rewrite pk_keep in Rv by (left; rewrite Ov, Uv, (pf_v _ _ PF); reflexivity).
  rewrite pk_keep in Rd by (right; rewrite Od, Ud; reflexivity).
  rewrite pk_keep in Rdg by (right; rewrite Od, Ud; reflexivity).
  assert (Po : odims em = odims t).
  { rewrite Ro. unfold pk. rewrite Oo, Uo, (pf_o _ _ PF). cbn [List.length Nat.eqb andb]. destruct (Nat.ltb_spec 1 (List.length (odims t))); [reflexivity|].
    assert (X : List.length (odims t) = 1%nat) by lia. destruct (odims t) as [|a [|b r]]; cbn in X; try lia. reflexivity. }
  assert (Vd : vdate em = ULT_VAL) by (rewrite (br_vd _ _ _ _ R), Ovd, Uvd, (pf_vd _ _ PF); lia).
  assert (Hy : ddims em = Ages A) by congruence.
  assert (Rn : ax2 (values em) = no) by (unfold no; lia). assert (Rm : ax3 (values em) = m) by (unfold m; lia).
  assert (Wf : wf em).
  { constructor; try lia.
    - rewrite Rk, R0. lia.
    - rewrite Rv, R1. lia.
    - rewrite Po, R2. lia.
    - rewrite Rd, R3. lia.
    - rewrite Po. apply Wt.
    - rewrite Rd. apply Wl.
    - rewrite Hy, Po, Vd. pose proof (wf_dev _ Wl) as Wd. rewrite DA in Wd. split; [apply Wd|].
      destruct (PJ _ DA) as (_ & Pj). pose proof (wf_dev _ Wt) as Wd'. destruct A_prefix as [Ep _]. rewrite Ep in Wd'. destruct Wd' as (_ & Wo & _). pose proof (wf_vd _ Wt).
      split; [intros o Ho; specialize (Wo o Ho); lia|]. intros o a Ho Ha _. apply Pj; auto. }
  assert (Mo : forall o d, (o < no)%nat -> (d < m)%nat -> month_of em o d = mon o d).
  { intros o d Ho Hd. unfold month_of. rewrite Hy, Po. unfold age_month, mon. pose proof (A_small d Hd). destruct (Z.eqb_spec (nth d A 0) 9999); [lia|reflexivity]. }
  split; [exact Wf|]. split.
  { intros o d Ho Hd. unfold future. rewrite Mo, Vd by lia. pose proof (A_fits o d ltac:(lia) ltac:(lia)). lia. }
  split; [rewrite Rk; apply PF|]. split; [rewrite (br_kl _ _ _ _ R); apply PF|]. split; [rewrite Rv; apply PF|]. split; [exact Po|]. split; [exact Hy|]. split; [exact Vd|].
  split; [apply (br_cum _ _ _ _ R)|]. split; [rewrite (br_pat _ _ _ _ R), Opat, Upat; apply andb_false_r|]. split; [rewrite (br_og _ _ _ _ R); apply PF|]. split; [rewrite Rdg; apply PF|].
  split; [lia|]. split; [lia|]. split; [exact Rn|]. split; [exact Rm|]. split; [exact Mo|].
  intros i c o d Hi Hc Ho Hd. rewrite (br_cell _ _ _ _ R). cbn [cop]. unfold no, m in *. f_equal.
  - unfold bav. rewrite P2, bidx_1, !bidx_lt by lia. reflexivity.
  - unfold bav. rewrite O3, U3, bidx_1, !bidx_lt by lia. change (av (values one)) with (cel one). rewrite Oc by (unfold in_range; lia). cbn [cop]. f_equal. rewrite bav_in by lia. reflexivity.
Qed.

(** Facts shared by all the triangles built on the way. *)
Record wide (x : tri) : Prop := {
  wi_wf : wf x; wi_k : kdims x = kdims t; wi_kl : key_labels x = key_labels t; wi_v : vdims x = vdims t;
  wi_pat : is_pattern x = false; wi_og : ograin x = ograin t; wi_dg : dgrain x = dgrain t }.
Lemma wi_0 x : wide x -> ax0 (values x) = ax0 (values t).
Proof. intros W. rewrite (wf_k _ (wi_wf _ W)), (wi_k _ W). symmetry. apply Wt. Qed.
Lemma wi_1 x : wide x -> ax1 (values x) = ax1 (values t).
Proof. intros W. rewrite (wf_v _ (wi_wf _ W)), (wi_v _ W). symmetry. apply Wt. Qed.

Definition nr : nat := if (dl =? 0)%nat then (no - 1)%nat else no.
Lemma nr_le : (2 <= nr <= no)%nat.
Proof.
  destruct EH as (H1 & H2 & H3). fold no in H1. unfold nr, dl. destruct (Nat.eqb_spec (lat (no - 1)) 0) as [E|E]; [|lia].
  destruct (Nat.eq_dec no 2) as [E2|]; [rewrite E2 in E; cbn in E; lia|lia].
Qed.
Lemma nr_lat o : (o < no)%nat -> ((1 <= lat o)%nat <-> (o < nr)%nat).
Proof.
  intros Ho. unfold nr, dl. destruct (Nat.eqb_spec (lat (no - 1)) 0) as [E|E].
  - split; intros H; [destruct (Nat.eq_dec o (no - 1)) as [->|]; lia|]. pose proof (lat_mono o (no - 1)). lia.
  - split; [auto|]. intros _. destruct (Nat.eq_dec o (no - 1)) as [->|]; [lia|]. pose proof (lat_mono o (no - 1)). lia.
Qed.

(** The factors of the known ages are replaced by 1. *)
Lemma lo_ok em : wide em -> odims em = odims t -> ddims em = Ages A -> ax2 (values em) = no -> ax3 (values em) = m -> vdate em = ULT_VAL ->
  (forall o d, (o < no)%nat -> (d < m)%nat -> month_of em o d = mon o d) ->
  exists lo lo0 lo1, getitem_valuation em (fun o d => valuation em o d <? vdate t) = Ok lo /\ mul_arr lo (scalar_arr 0%Qc) = Ok lo0 /\ add_arr lo0 (scalar_arr 1%Qc) = Ok lo1 /\
  wide lo1 /\ odims lo1 = rng (odims t) 0 nr /\ ddims lo1 = Ages (rng A 0 (lat 0)) /\ vdate lo1 < vdate t /\ is_cumulative lo1 = is_cumulative em /\ blank_future lo1 /\
  forall i c o d, (i < ax0 (values t))%nat -> (c < ax1 (values t))%nat -> (o < nr)%nat -> (d < lat 0)%nat ->
    cel lo1 i c o d = if (d <? lat o)%nat then Some 1%Qc else None.
Proof.
  intros We Eo Ed E2 E3 Ev Em. pose proof (wi_wf _ We) as W. pose proof nr_le as Hnr. destruct EH as (H1 & H2 & H3). fold no in H1.
  assert (Hno : (0 < no)%nat) by lia. destruct (lat_lt 0 Hno) as [_ L0].
  set (key := fun o d => valuation em o d <? vdate t).
  assert (Hk : forall o d, (o < no)%nat -> (d < m)%nat -> key o d = (d <? lat o)%nat).
  { intros o d Ho Hd. unfold key. rewrite valuation_month by (auto; lia). rewrite Em by auto. apply mon_lt; auto. }
  assert (Hr : forall o, (o < no)%nat -> (exists d, (d < ax3 (values em))%nat /\ key o d = true) <-> (o < nr)%nat).
  { intros o Ho. rewrite <- nr_lat by auto. rewrite E3. split.
    - intros (d & Hd & K). rewrite Hk in K by auto. apply Nat.ltb_lt in K. lia.
    - intros L. exists 0%nat. split; [lia|]. rewrite Hk by lia. apply Nat.ltb_lt. lia. }
  assert (Hc : forall d, (d < m)%nat -> (exists o, (o < ax2 (values em))%nat /\ key o d = true) <-> (d < lat 0)%nat).
  { intros d Hd. rewrite E2. split.
    - intros (o & Ho & K). rewrite Hk in K by auto. apply Nat.ltb_lt in K. destruct (dl_le o Ho). lia.
    - intros L. exists 0%nat. split; [lia|]. rewrite Hk by lia. apply Nat.ltb_lt. lia. }
  destruct (getitem_valuation_ok em key W) as (lo & Elo & Slo); [lia| | | |].
  { exists 0%nat, 0%nat. rewrite E2, E3. split; [lia|]. split; [lia|]. rewrite Hk by lia. apply Nat.ltb_lt. lia. }
  { rewrite E2. apply (evenly_interval _ _ 0 nr). intros x Hx. rewrite Hr by auto. lia. }
  { rewrite E3. apply (evenly_interval _ _ 0 (lat 0)). intros x Hx. rewrite Hc by auto. lia. }
  assert (Kr : kept_rows em key = seq 0 nr).
  { apply sorted_lt_ext; [apply incr_pos_filter|apply (incr_pos_seq 0 nr nr); lia|]. intros x. rewrite in_kept_rows, in_seq, E2. split.
    - intros (A1 & A2). apply Hr in A2; auto. lia.
    - intros A1. split; [lia|]. apply Hr; lia. }
  assert (Kc : kept_cols em key = seq 0 (lat 0)).
  { apply sorted_lt_ext; [apply incr_pos_filter|apply (incr_pos_seq 0 (lat 0) (lat 0)); lia|]. intros x. rewrite in_kept_cols, in_seq, E3. split.
    - intros (A1 & A2). apply Hc in A2; auto. lia.
    - intros A1. split; [lia|]. apply Hc; lia. }
  destruct Slo as [Sw Sk Skl Sv So Sd S0 S1 S2 S3 Scum Spat Sog Sdg Sc Svle Svge Svex Svub]. rewrite Kr, Kc in *. rewrite seq_length in *.
  assert (Vlt : vdate lo < vdate t).
  { destruct Svub as (o & d & Ho & Hd & K & L). rewrite E2 in Ho. rewrite E3 in Hd. rewrite Em in L by auto. rewrite Hk in K by auto. rewrite <- mon_lt in K by auto. apply Z.ltb_lt in K. lia. }
  exists lo. destruct (op_arr_ok OMul lo (scalar_arr 0%Qc)) as (lo0 & E0 & R0).
  { unfold bok. cbn [scalar_arr ax0 ax1 ax2 ax3]. pose proof (mi_0 _ MI). pose proof (mi_1 _ MI). rewrite S0, S1, (wi_0 _ We), (wi_1 _ We). lia. }
  exists lo0. destruct R0 as [Qk Qkl Qv Qo Qd Qvd Qfl Q0 Q1 Q2 Q3 Qc].
  destruct (op_arr_ok OAdd lo0 (scalar_arr 1%Qc)) as (lo1 & E1 & R1).
  { unfold bok. cbn [scalar_arr ax0 ax1 ax2 ax3] in *. pose proof (mi_0 _ MI). pose proof (mi_1 _ MI). rewrite Q0, Q1, Q2, Q3, S0, S1, (wi_0 _ We), (wi_1 _ We). lia. }
  exists lo1. destruct R1 as [Pk Pkl Pv Po Pd Pvd Pfl P0 P1 P2 P3 Pc]. cbn [scalar_arr ax0 ax1 ax2 ax3] in *.
  assert (Wl1 : wf lo1).
  { apply (wf_same_frame lo); auto. pose proof (mi_0 _ MI). pose proof (mi_1 _ MI). destruct Qfl as (_ & _ & F1 & F2), Pfl as (_ & _ & F3 & F4).
    constructor; try congruence; rewrite ?P0, ?P1, ?P2, ?P3, ?Q0, ?Q1, ?Q2, ?Q3; pose proof (wi_0 _ We); pose proof (wi_1 _ We); lia. }
  assert (Om : odims lo1 = rng (odims t) 0 nr) by (rewrite Po, Qo, So, Eo; reflexivity).
  assert (Od : ddims lo1 = Ages (rng A 0 (lat 0))) by (rewrite Pd, Qd, Sd, Ed; reflexivity).
  assert (A2 : ax2 (values lo1) = nr) by (rewrite (wf_o _ Wl1), Om; apply rng_length).
  assert (A3 : ax3 (values lo1) = lat 0) by (rewrite (wf_d _ Wl1), Od; apply rng_length).
  assert (Mo : forall o d, (o < nr)%nat -> (d < lat 0)%nat -> month_of lo1 o d = mon o d).
  { intros o d Ho Hd. rewrite <- Em by lia. unfold month_of. rewrite Od, Om, Ed, Eo, !rng_nth by auto. reflexivity. }
  assert (Cel : forall i c o d, (i < ax0 (values t))%nat -> (c < ax1 (values t))%nat -> (o < nr)%nat -> (d < lat 0)%nat ->
    cel lo1 i c o d = if (d <? lat o)%nat then Some 1%Qc else None).
  { intros i c o d Hi Hcc Ho Hd. rewrite Pc. cbn [cop]. rewrite bav_scalar.
    assert (Hz : nz (bav (values lo0) i c o d) = 0%Qc).
    { rewrite bav_in by (rewrite ?Q0, ?Q1, ?Q2, ?Q3, ?S0, ?S1, ?(wi_0 _ We), ?(wi_1 _ We); lia). change (av (values lo0)) with (cel lo0). rewrite Qc. cbn [cop]. rewrite bav_scalar.
      destruct (bav (values lo) i c o d); cbn; [apply Qcmult_0_r|reflexivity]. }
    unfold nz_add. rewrite Hz. cbn [nz]. unfold nan_triangle. rewrite A2, A3. destruct (Nat.eqb_spec (Nat.min nr (lat 0)) 1); [lia|].
    rewrite valuation_month by (auto; lia). rewrite Mo by auto. rewrite Pvd, Qvd.
    destruct (Nat.ltb_spec d (lat o)) as [L|L].
    - assert (G : mon o d <= vdate lo).
      { specialize (Svge o d ltac:(lia) ltac:(lia)). rewrite Hk in Svge by lia. specialize (Svge (proj2 (Nat.ltb_lt _ _) L)). rewrite Em, Ev in Svge by lia.
        pose proof (A_fits o d ltac:(lia) ltac:(lia)). lia. }
      destruct (Z.ltb_spec (vdate lo) (mon o d)); [lia|]. cbn [nz cmul]. rewrite Qcplus_0_l, Qcmult_1_l. reflexivity.
    - pose proof (mon_lt o d ltac:(lia) ltac:(lia)) as G. destruct (Nat.ltb_spec d (lat o)); [lia|]. apply Z.ltb_ge in G.
      destruct (Z.ltb_spec (vdate lo) (mon o d)); [reflexivity|lia]. }
  split; [exact Elo|]. split; [exact E0|]. split; [exact E1|]. split.
  { destruct Qfl as (F0 & F1 & F2 & F3), Pfl as (G0 & G1 & G2 & G3). constructor; auto; try (rewrite ?Pk, ?Qk, ?Sk, ?Pkl, ?Qkl, ?Skl, ?Pv, ?Qv, ?Sv; apply We).
    - rewrite G1, F1, Spat. apply We.
    - rewrite G2, F2, Sog. apply We.
    - rewrite G3, F3, Sdg. apply We. }
  split; [exact Om|]. split; [exact Od|]. split; [rewrite Pvd, Qvd; exact Vlt|]. split; [destruct Qfl as (F0 & _), Pfl as (G0 & _); congruence|]. split; [|exact Cel].
  intros i c o d (Hi & Hcc & Ho & Hd) Hf. rewrite A2 in Ho. rewrite A3 in Hd. rewrite (wf_k _ Wl1), Pk, Qk, Sk, (wi_k _ We), <- (wf_k _ Wt) in Hi. rewrite (wf_v _ Wl1), Pv, Qv, Sv, (wi_v _ We), <- (wf_v _ Wt) in Hcc.
  rewrite Cel by auto. destruct (Nat.ltb_spec d (lat o)) as [L|L]; [|reflexivity]. exfalso. unfold future in Hf. rewrite Mo, Pvd, Qvd in Hf by auto.
  specialize (Svge o d ltac:(lia) ltac:(lia)). rewrite Hk in Svge by lia. specialize (Svge (proj2 (Nat.ltb_lt _ _) L)). rewrite Em, Ev in Svge by lia.
  pose proof (A_fits o d ltac:(lia) ltac:(lia)). lia.
Qed.

(** The columns from the latest age of each origin on. *)
Lemma hi_ok x key B : wide x -> odims x = odims t -> ddims x = Ages B -> ax2 (values x) = no -> ax3 (values x) = m -> no_future x ->
  (forall o d, (o < no)%nat -> (d < m)%nat -> key o d = (lat o <=? d)%nat) ->
  exists y, getitem_valuation x key = Ok y /\ wide y /\ odims y = odims t /\ ddims y = Ages (rng B dl (m - dl)) /\ is_cumulative y = is_cumulative x /\ blank_future y /\
  vdate y <= vdate x /\ (forall o d, (o < no)%nat -> (d < m)%nat -> (lat o <= d)%nat -> month_of x o d <= vdate y) /\
  forall i c o d, (i < ax0 (values t))%nat -> (c < ax1 (values t))%nat -> (o < no)%nat -> (d < m - dl)%nat ->
    cel y i c o d = if (lat o <=? dl + d)%nat then n2n (cel x i c o (dl + d)%nat) else None.
Proof.
  intros Wx Eo Ed E2 E3 Nf Hk. pose proof (wi_wf _ Wx) as W. destruct EH as (H1 & H2 & H3). fold no in H1.
  assert (Hno : (0 < no)%nat) by lia. destruct (lat_lt 0 Hno) as [_ L0]. destruct (lat_lt (no - 1) ltac:(lia)) as [_ Ldl]. fold dl in Ldl.
  assert (Hr : forall o, (o < no)%nat -> exists d, (d < ax3 (values x))%nat /\ key o d = true).
  { intros o Ho. rewrite E3. exists (lat o). destruct (lat_lt o Ho). split; [auto|]. rewrite Hk by auto. apply Nat.leb_refl. }
  assert (Hc : forall d, (d < m)%nat -> (exists o, (o < ax2 (values x))%nat /\ key o d = true) <-> (dl <= d)%nat).
  { intros d Hd. rewrite E2. split.
    - intros (o & Ho & K). rewrite Hk in K by auto. apply Nat.leb_le in K. destruct (dl_le o Ho). lia.
    - intros L. exists (no - 1)%nat. split; [lia|]. rewrite Hk by lia. apply Nat.leb_le. auto. }
  destruct (getitem_valuation_ok x key W) as (y & Ey & Sy); [lia| | | |].
  { destruct (Hr 0%nat Hno) as (d & Hd & K). exists 0%nat, d. rewrite E2. auto. }
  { rewrite E2. apply (evenly_interval _ _ 0 no). intros z Hz. split; [lia|]. intros _. auto. }
  { rewrite E3. apply (evenly_interval _ _ dl m). intros z Hz. rewrite Hc by auto. lia. }
  assert (Kr : kept_rows x key = seq 0 no).
  { apply sorted_lt_ext; [apply incr_pos_filter|apply (incr_pos_seq 0 no no); lia|]. intros z. rewrite in_kept_rows, in_seq, E2. split.
    - intros (A1 & A2). lia.
    - intros A1. split; [lia|]. apply Hr; lia. }
  assert (Kc : kept_cols x key = seq dl (m - dl)).
  { apply sorted_lt_ext; [apply incr_pos_filter|apply (incr_pos_seq dl (m - dl) m); lia|]. intros z. rewrite in_kept_cols, in_seq, E3. split.
    - intros (A1 & A2). apply Hc in A2; auto. lia.
    - intros A1. split; [lia|]. apply Hc; lia. }
  destruct Sy as [Sw Sk Skl Sv So Sd S0 S1 S2 S3 Scum Spat Sog Sdg Sc Svle Svge Svex Svub]. rewrite Kr, Kc in *. rewrite !seq_length in *.
  assert (Om : odims y = odims t) by (rewrite So, Eo; apply sel_seq_all; apply Wt).
  assert (Od : ddims y = Ages (rng B dl (m - dl))) by (rewrite Sd, Ed; reflexivity).
  assert (Ge : forall o d, (o < no)%nat -> (d < m)%nat -> (lat o <= d)%nat -> month_of x o d <= vdate y).
  { intros o d Ho Hd L. specialize (Svge o d ltac:(lia) ltac:(lia)). rewrite Hk in Svge by lia. specialize (Svge (proj2 (Nat.leb_le _ _) L)).
    pose proof (Nf o d ltac:(lia) ltac:(lia)) as N. unfold future in N. lia. }
  assert (Cel : forall i c o d, (i < ax0 (values t))%nat -> (c < ax1 (values t))%nat -> (o < no)%nat -> (d < m - dl)%nat ->
    cel y i c o d = if (lat o <=? dl + d)%nat then n2n (cel x i c o (dl + d)%nat) else None).
  { intros i c o d Hi Hcc Ho Hd. rewrite Sc by (rewrite ?seq_length, ?(wi_0 _ Wx), ?(wi_1 _ Wx); auto). rewrite !seq_nth by auto. cbn [Nat.add]. rewrite Hk by lia. reflexivity. }
  exists y. split; [exact Ey|]. split.
  { constructor; auto.
    - rewrite Sk. apply Wx.
    - rewrite Skl. apply Wx.
    - rewrite Sv. apply Wx.
    - rewrite Spat. apply Wx.
    - rewrite Sog. apply Wx.
    - rewrite Sdg. apply Wx. }
  split; [exact Om|]. split; [exact Od|]. split; [exact Scum|]. split; [|split; [exact Svle|split; [exact Ge|exact Cel]]].
  intros i c o d (Hi & Hcc & Ho & Hd) Hf. rewrite S2 in Ho. rewrite S3 in Hd. rewrite S0, (wi_0 _ Wx) in Hi. rewrite S1, (wi_1 _ Wx) in Hcc.
  rewrite Cel by auto. destruct (Nat.leb_spec (lat o) (dl + d)) as [L|L]; [|reflexivity]. exfalso. unfold future in Hf.
  specialize (Ge o (dl + d)%nat Ho ltac:(lia) L). assert (E : month_of y o d = month_of x o (dl + d)); [|lia].
  unfold month_of. rewrite Od, Om, Ed, Eo, rng_nth by auto. reflexivity.
Qed.

(** The factors still to be applied: 1 up to the latest age, then the factors. *)
Lemma applied_ok em : wide em -> odims em = odims t -> ddims em = Ages A -> ax2 (values em) = no -> ax3 (values em) = m -> vdate em = ULT_VAL -> no_future em ->
  (forall o d, (o < no)%nat -> (d < m)%nat -> month_of em o d = mon o d) ->
  exists lo hi lo0 lo1 r, getitem_valuation em (fun o d => valuation em o d <? vdate t) = Ok lo /\ getitem_valuation em (fun o d => vdate t <=? valuation em o d) = Ok hi /\
  mul_arr lo (scalar_arr 0%Qc) = Ok lo0 /\ add_arr lo0 (scalar_arr 1%Qc) = Ok lo1 /\ tri_op OAdd lo1 hi = Ok r /\
  wide r /\ odims r = odims t /\ ddims r = Ages A /\ ax2 (values r) = no /\ ax3 (values r) = m /\ is_cumulative r = is_cumulative em /\
  forall i c o d, (i < ax0 (values t))%nat -> (c < ax1 (values t))%nat -> (o < no)%nat -> (d < m)%nat ->
    cel r i c o d = if (d <? lat o)%nat then Some 1%Qc else n2n (cel em i c o d).
Proof.
  intros We Eo Ed E2 E3 Ev Nf Em. pose proof nr_le as Hnr. destruct EH as (H1 & H2 & H3). fold no in H1.
  assert (Hno : (0 < no)%nat) by lia. destruct (lat_lt 0 Hno) as [_ L0]. destruct (lat_lt (no - 1) ltac:(lia)) as [_ Ldl]. fold dl in Ldl.
  destruct (lo_ok em We Eo Ed E2 E3 Ev Em) as (lo & lo0 & lo1 & G1 & G2 & G3 & Wlo & Lo & Ld & Lv & Lc & Lb & Lcel).
  destruct (hi_ok em (fun o d => vdate t <=? valuation em o d) A We Eo Ed E2 E3 Nf) as (hi & Q1 & Whi & Ho & Hd & Hc & Hb & Hv & Hge & Hcel).
  { intros o d Ho Hd. pose proof (wi_wf _ We) as We'. rewrite valuation_month by (auto; lia). rewrite Em by auto. pose proof (mon_lt o d Ho Hd) as M. rewrite Z.leb_antisym, M, Nat.leb_antisym. reflexivity. }
  assert (D2 : (dl <= lat 0)%nat) by exact (proj1 (dl_le 0%nat Hno)). assert (Hdl : (dl < lat 0)%nat) by (unfold dl; apply lat_mono; lia).
  assert (To : odims t = rng (odims t) 0 no) by (unfold no; rewrite (wf_o _ Wt); symmetry; apply rng_all).
  assert (Lo' : List.length (odims t) = no) by (symmetry; apply Wt).
  assert (Uo : zunion (odims lo1) (odims hi) = odims t).
  { rewrite Lo, Ho. rewrite To at 2. apply rng_union; [apply Wt|lia|lia|]. intros p Hp. right. lia. }
  assert (Ud : zunion (dlist (ddims lo1)) (dlist (ddims hi)) = A).
  { rewrite Ld, Hd. cbn [dlist]. apply rng_union; [apply A_sorted|rewrite A_len; lia|rewrite A_len; lia|]. rewrite A_len. intros p Hp. lia. }
  destruct (addsub_cells OAdd lo1 hi) as (r & Er & Wr & Br & (Rc & Rp & Rog & Rdg) & Rk & Rkl & Rv & Ro & Rs & Rd & Rvd & Rcel).
  - left; reflexivity.
  - apply Wlo.
  - apply Whi.
  - destruct UL as [U1 U2]. split; [rewrite (wi_k _ Wlo)|rewrite (wi_v _ Wlo)]; auto.
  - rewrite (wi_k _ Wlo), (wi_k _ Whi). reflexivity.
  - rewrite (wi_kl _ Wlo), (wi_kl _ Whi). reflexivity.
  - rewrite (wi_v _ Wlo), (wi_v _ Whi). reflexivity.
  - rewrite (wi_og _ Wlo), (wi_og _ Whi). reflexivity.
  - rewrite (wi_dg _ Wlo), (wi_dg _ Whi). reflexivity.
  - rewrite Ld, Hd. exact I.
  - rewrite Lo, Ho. rewrite To at 2. apply rng_ablocks; try lia. apply Wt.
  - rewrite Ld, Hd. cbn [dlist]. apply rng_ablocks; rewrite ?A_len; try lia. apply A_sorted.
  - unfold frame_fits. rewrite Ld. intros o a Hoo Haa Hn. destruct (PJ _ DA) as (_ & Pj). apply Pj.
    + rewrite <- Uo, zunion_In. exact Hoo.
    + rewrite <- Ud, zunion_In, Ld. exact Haa.
  - exact Lb.
  - exact Hb.
  - intros [_ E]. rewrite Ld, Hd in E. cbn [dlist] in E. apply (f_equal (fun z => (List.length z, nth 0 z 0))) in E. rewrite !rng_length, !rng_nth in E by lia. injection E as E1 E4.
    apply (sorted_nth_inj A) in E4; [|apply A_sorted|rewrite A_len; lia|rewrite A_len; lia]. lia.
  - exists lo, hi, lo0, lo1, r. rewrite Uo in Ro. rewrite Ud in Rd.
    assert (Rd' : ddims r = Ages A) by (destruct (ddims r) eqn:Ex; [cbn in Rd; congruence|rewrite Ld in Rs; destruct Rs]).
    assert (R2 : ax2 (values r) = no) by (rewrite (wf_o _ Wr), Ro; auto). assert (R3 : ax3 (values r) = m) by (rewrite (wf_d _ Wr), Rd; apply A_len).
    assert (Wd : wide r).
    { constructor; auto.
      - rewrite Rk. apply Wlo.
      - rewrite Rkl. apply Wlo.
      - rewrite Rv. apply Wlo.
      - rewrite Rp, (wi_pat _ Wlo). reflexivity.
      - rewrite Rog. apply Wlo.
      - rewrite Rdg. apply Wlo. }
    repeat (split; [assumption || congruence|]).
    intros i c o d Hi Hcc Hoo Hdd. assert (R : in_range r i c o d) by (unfold in_range; rewrite (wi_0 _ Wd), (wi_1 _ Wd), R2, R3; auto).
    specialize (Rcel i c o d R). assert (Ho2 : odims hi = rng (odims t) 0 no) by congruence. rewrite Ro, Rd, Lo, Ld, Ho2, Hd in Rcel. cbn [dlist qop] in Rcel.
    rewrite rng_pick in Rcel by (try apply Wt; lia). rewrite rng_pick in Rcel by (rewrite ?A_len; try apply A_sorted; lia).
    rewrite rng_pick in Rcel by (try apply Wt; lia). rewrite rng_pick in Rcel by (rewrite ?A_len; try apply A_sorted; lia).
    rewrite !Nat.sub_0_r in Rcel. cbn [Nat.leb andb Nat.add] in Rcel.
    destruct (Nat.ltb_spec o no); [|lia]. unfold amount in Rcel.
    destruct (Nat.ltb_spec d (lat o)) as [L|L].
    + assert (O1 : (o < nr)%nat) by (apply nr_lat; auto; lia). destruct (Nat.ltb_spec o nr); [|lia]. pose proof (dl_le o Hoo). destruct (Nat.ltb_spec d (lat 0)); [|lia].
      rewrite Lcel in Rcel by auto. destruct (Nat.ltb_spec d (lat o)); [|lia].
      assert (Z0 : (if (dl <=? d)%nat && (d <? dl + (m - dl))%nat then nz (cel hi i c o (d - dl)%nat) else 0%Qc) = 0%Qc).
      { destruct (Nat.leb_spec dl d); cbn [andb]; [|reflexivity]. destruct (Nat.ltb_spec d (dl + (m - dl))); [|reflexivity]. rewrite Hcel by (auto; lia).
        replace (dl + (d - dl))%nat with d by lia. destruct (Nat.leb_spec (lat o) d); [lia|reflexivity]. }
      rewrite Z0 in Rcel. cbn [nz] in Rcel. eapply stores_unique; [exact Rcel|]. eapply stores_eq; [apply (stores_n2n 1%Qc)|]. ring.
    + pose proof (dl_le o Hoo). destruct (Nat.leb_spec dl d); [|lia]. cbn [andb] in Rcel. destruct (Nat.ltb_spec d (dl + (m - dl))); [|lia].
      rewrite Hcel in Rcel by (auto; lia). replace (dl + (d - dl))%nat with d in Rcel by lia. destruct (Nat.leb_spec (lat o) d); [|lia].
      assert (Z0 : (if (o <? nr)%nat then if (d <? lat 0)%nat then nz (cel lo1 i c o d) else 0%Qc else 0%Qc) = 0%Qc).
      { destruct (Nat.ltb_spec o nr); [|reflexivity]. destruct (Nat.ltb_spec d (lat 0)); [|reflexivity]. rewrite Lcel by auto. destruct (Nat.ltb_spec d (lat o)); [lia|reflexivity]. }
      rewrite Z0 in Rcel. eapply stores_unique; [exact Rcel|]. eapply stores_eq; [apply stores_n2n_nz|]. rewrite nz_n2n. ring.
Qed.

(** ** Emergence *)
Let U := A ++ [9999].
Lemma U_len : List.length U = S m.
Proof. unfold U. rewrite app_length, A_len. cbn. lia. Qed.
Lemma U_sorted : StronglySorted Z.lt U.
Proof. apply sorted_snoc; [apply A_sorted|]. intros a Ha. apply (PJ _ DA); auto. Qed.
Lemma U_nth d : (d < m)%nat -> nth d U 0 = nth d A 0.
Proof. intros H. unfold U. rewrite app_nth1; auto. rewrite A_len. auto. Qed.
Lemma U_last : nth m U 0 = 9999.
Proof. unfold U. rewrite app_nth2 by (rewrite A_len; auto). rewrite A_len, Nat.sub_diag. reflexivity. Qed.
Lemma U_ages a : In a U -> 1 <= a <= 9999.
Proof. intros H. unfold U in H. apply in_app_or in H. destruct H as [H|[<-|[]]]; [|lia]. pose proof (wf_dev _ Wl) as Wd. rewrite DA in Wd. apply Wd; auto. Qed.
Lemma U_fits o a : In o (odims t) -> In a U -> a <> 9999 -> o + a - 1 < ULT_VAL.
Proof. intros Ho Ha Hn. unfold U in Ha. apply in_app_or in Ha. destruct Ha as [Ha|[<-|[]]]; [|lia]. apply (PJ _ DA); auto. Qed.
Lemma origins_le o : In o (odims t) -> o <= ULT_VAL.
Proof. intros Ho. pose proof (wf_dev _ Wt) as Wd. destruct A_prefix as [E _]. rewrite E in Wd. destruct Wd as (_ & Wo & _). specialize (Wo o Ho). pose proof (wf_vd _ Wt). lia. Qed.
(** The valuation month of column [d] of the run-off. *)
Definition umon (o d : nat) : Z := age_month (nth o (odims t) 0) (nth d U 0).
Lemma umon_A o d : (d < m)%nat -> umon o d = mon o d.
Proof. intros H. unfold umon, mon, age_month. rewrite U_nth by auto. pose proof (A_small d H). destruct (Z.eqb_spec (nth d A 0) 9999); [lia|reflexivity]. Qed.
Lemma umon_last o : umon o m = ULT_VAL.
Proof. unfold umon. rewrite U_last. reflexivity. Qed.
Lemma umon_le o d : (o < no)%nat -> (d <= m)%nat -> umon o d <= ULT_VAL.
Proof. intros Ho Hd. destruct (Nat.eq_dec d m) as [->|]; [rewrite umon_last; lia|]. rewrite umon_A by lia. pose proof (A_fits o d Ho ltac:(lia)). lia. Qed.
Lemma umon_gt o d : (o < no)%nat -> (d < m)%nat -> (vdate t <? umon o (S d)) = (lat o <=? d)%nat.
Proof.
  intros Ho Hd. destruct (lat_lt o Ho) as [_ Hl]. destruct (Nat.eq_dec (S d) m) as [E|E].
  - rewrite E, umon_last. pose proof (A_fits o (lat o) Ho Hl). rewrite mon_lat in H by auto. destruct (Nat.leb_spec (lat o) d); [apply Z.ltb_lt; lia|lia].
  - rewrite umon_A by lia. pose proof (mon_lat o Ho) as Ml. unfold mon in *. destruct (Nat.leb_spec (lat o) d).
    + pose proof (sorted_nth_lt A (lat o) (S d) 0 A_sorted ltac:(rewrite A_len; lia)). apply Z.ltb_lt. lia.
    + pose proof (sorted_nth_le A (S d) (lat o) 0 A_sorted ltac:(rewrite A_len; lia)). apply Z.ltb_ge. lia.
Qed.
Lemma shifted_ages : shift_ages (grain_step (dgrain t)) (Ages A) = Ok (Ages (rng U 1 m)).
Proof.
  assert (M1 : (1 <= m)%nat) by apply Wl. cbn [shift_ages]. do 2 f_equal. apply (nth_ext _ _ 0 0).
  - rewrite rng_length, app_length, map_length, removelast_len, A_len. cbn. lia.
  - intros k Hk. rewrite app_length, map_length, removelast_len, A_len in Hk. cbn in Hk. rewrite rng_nth by lia.
    destruct (Nat.eq_dec k (m - 1)) as [->|].
    + rewrite app_nth2 by (rewrite map_length, removelast_len, A_len; lia). rewrite map_length, removelast_len, A_len. replace (m - 1 - (m - 1))%nat with 0%nat by lia.
      replace (1 + (m - 1))%nat with m by lia. rewrite U_last. reflexivity.
    + rewrite app_nth1 by (rewrite map_length, removelast_len, A_len; lia).
      rewrite (nth_indep _ 0 (0 + grain_step (dgrain t))) by (rewrite map_length, removelast_len, A_len; lia).
      rewrite (map_nth (fun a => a + grain_step (dgrain t))).
      assert (En : nth k (removelast A) 0 = nth k A 0).
      { rewrite (app_removelast_last 0 (l := A)) at 2 by (intros E; pose proof A_len as X; rewrite E in X; cbn in X; lia). rewrite app_nth1; [reflexivity|]. rewrite removelast_len, A_len. lia. }
      rewrite En, grain_step_months. change (1 + k)%nat with (S k). rewrite U_nth by lia. symmetry. apply EA; auto. rewrite A_len. lia.
Qed.

Definition cpv (x : tri) (i c o d : nat) : cell := csub (cprod (S d) (fun k => cel x i c o k)) (Some 1%Qc).
Lemma emergence_ok : exists r em, wide r /\ emergence_of t l u = Ok em /\ wide em /\ odims em = odims t /\ ddims em = Ages (rng U 1 m) /\ vdate em = ULT_VAL /\
  (forall i c o d, (i < ax0 (values t))%nat -> (c < ax1 (values t))%nat -> (o < no)%nat -> (d < m)%nat ->
    cel r i c o d = if (d <? lat o)%nat then Some 1%Qc else n2n (cmul (cel l i c 0%nat d) (cdiv (cel u i c o 0%nat) (cel u i c o 0%nat)))) /\
  forall i c o d, (i < ax0 (values t))%nat -> (c < ax1 (values t))%nat -> (o < no)%nat -> (d < m)%nat ->
    cel em i c o d = cdiv (cpv r i c o d) (n2n (cpv r i c o (m - 1)%nat)).
Proof.
  destruct spread_ok as (one & em & E1 & E2 & Wf & Nf & Ek & Ekl & Ev & Eo & Ed & Evd & Ecum & Epat & Eog & Edg & E0 & E1' & E2' & E3 & Mo & Ec).
  assert (We : wide em) by (constructor; auto).
  destruct (applied_ok em We Eo Ed E2' E3 Evd Nf Mo) as (lo & hi & lo0 & lo1 & r & G1 & G2 & G3 & G4 & G5 & Wr & Ro & Rd & R2 & R3 & Rcum & Rc).
  unfold emergence_of. rewrite E1. cbn [rbind]. rewrite E2. cbn [rbind]. rewrite G1. cbn [rbind]. rewrite G2. cbn [rbind]. rewrite G3. cbn [rbind]. rewrite G4. cbn [rbind]. rewrite G5. cbn [rbind].
  rewrite (wi_dg _ Wr), Rd, shifted_ages. cbn [rbind].
  assert (M1 : (1 <= m)%nat) by apply Wl. pose proof (mi_0 _ MI) as T0. pose proof (mi_1 _ MI) as T1. pose proof (wf_o1 _ Wt) as T2. fold no in T2.
  set (v := map_arr (fun c => csub c (Some 1%Qc)) (cumprod3 (values r))).
  assert (V0 : ax0 v = ax0 (values t)) by (apply (wi_0 _ Wr)). assert (V1 : ax1 v = ax1 (values t)) by (apply (wi_1 _ Wr)). assert (V2 : ax2 v = no) by exact R2. assert (V3 : ax3 v = m) by exact R3.
  set (w := map_arr n2n (Arr (ax0 v) (ax1 v) (ax2 v) 1 (fun i c o _ => av v i c o (ax3 v - 1)%nat))).
  rewrite (bmap2_bc cdiv v w).
  2: { unfold bok. change (ax0 w) with (ax0 v). change (ax1 w) with (ax1 v). change (ax2 w) with (ax2 v). change (ax3 w) with 1%nat. lia. }
  cbn [rbind]. exists r. eexists. split; [exact Wr|]. split; [reflexivity|].
  assert (X0 : ax0 w = ax0 (values t)) by exact V0. assert (X1 : ax1 w = ax1 (values t)) by exact V1. assert (X2 : ax2 w = no) by exact V2. assert (X3 : ax3 w = 1%nat) by reflexivity.
  split; [|split; [exact Ro|split; [reflexivity|split; [reflexivity|split]]]].
  - constructor; cbn [set_values set_ddims set_dims set_vdate kdims key_labels vdims odims ddims is_pattern ograin dgrain]; try apply Wr.
    constructor; cbn [set_values set_ddims set_dims set_vdate kdims key_labels vdims odims ddims values vdate ax0 ax1 ax2 ax3 dlist].
    + rewrite (wi_k _ Wr), V0, X0, <- (wf_k _ Wt). lia.
    + rewrite (wi_v _ Wr), V1, X1, <- (wf_v _ Wt). lia.
    + rewrite Ro, V2, X2, <- (wf_o _ Wt). unfold no. lia.
    + rewrite V3, X3, rng_length. lia.
    + lia.
    + lia.
    + rewrite Ro. apply Wt.
    + apply rng_sorted; [apply U_sorted|rewrite U_len; lia].
    + lia.
    + rewrite Ro. split; [|split].
      * intros a Ha. apply U_ages. apply rng_In in Ha. destruct Ha as (k & Hk & <-). apply nth_In. rewrite U_len. lia.
      * intros o Ho. apply origins_le; auto.
      * intros o a Ho Ha. apply U_fits; auto. apply rng_In in Ha. destruct Ha as (k & Hk & <-). apply nth_In. rewrite U_len. lia.
  - intros i c o d Hi Hc Ho Hd. rewrite Rc, Ec by auto. reflexivity.
  - intros i c o d Hi Hc Ho Hd. unfold cel. cbn [set_values values av]. f_equal.
    + rewrite bav_in by (rewrite ?V0, ?V1, ?V2, ?V3; auto). reflexivity.
    + unfold bav. rewrite X0, X1, X2, X3, bidx_1, !bidx_lt by auto. cbn [w map_arr av]. f_equal. rewrite V3. reflexivity.
Qed.

(** ** The run-off *)
Lemma umon_of x : odims x = odims t -> ddims x = Ages (rng U 1 m) -> forall o d, (o < no)%nat -> (d < m)%nat -> month_of x o d = umon o (S d).
Proof. intros Eo Ed o d Ho Hd. unfold month_of, umon. rewrite Eo, Ed, rng_nth by auto. reflexivity. Qed.
Lemma wf_umon x : kdims x = kdims t -> vdims x = vdims t -> odims x = odims t -> ddims x = Ages (rng U 1 m) -> vdate x = ULT_VAL ->
  ax0 (values x) = ax0 (values t) -> ax1 (values x) = ax1 (values t) -> ax2 (values x) = no -> ax3 (values x) = m -> wf x.
Proof.
  intros Ek Ev Eo Ed Evd E0 E1 E2 E3. assert (M1 : (1 <= m)%nat) by apply Wl.
  constructor.
  - rewrite Ek, E0. apply Wt.
  - rewrite Ev, E1. apply Wt.
  - rewrite Eo, E2. apply Wt.
  - rewrite Ed, E3. cbn [dlist]. rewrite rng_length. reflexivity.
  - rewrite E2. apply Wt.
  - rewrite E3. auto.
  - rewrite Eo. apply Wt.
  - rewrite Ed. apply rng_sorted; [apply U_sorted|rewrite U_len; lia].
  - rewrite Evd. apply Z.le_refl.
  - rewrite Ed, Eo, Evd. split; [|split].
    + intros a Ha. apply U_ages. apply rng_In in Ha. destruct Ha as (k & Hk & <-). apply nth_In. rewrite U_len. lia.
    + intros o Ho. apply origins_le; auto.
    + intros o a Ho Ha. apply U_fits; auto. apply rng_In in Ha. destruct Ha as (k & Hk & <-). apply nth_In. rewrite U_len. lia.
Qed.

Definition share (r : tri) (i c o d : nat) : cell := cdiv (cpv r i c o d) (n2n (cpv r i c o (m - 1)%nat)).
Definition open_amount (i c o : nat) : Qc := (amount u i c o 0 - amount t i c o (lat o))%Qc.
Lemma run_ok em r : wide em -> odims em = odims t -> ddims em = Ages (rng U 1 m) -> vdate em = ULT_VAL ->
  (forall i c o d, (i < ax0 (values t))%nat -> (c < ax1 (values t))%nat -> (o < no)%nat -> (d < m)%nat -> cel em i c o d = share r i c o d) ->
  exists ld ibnr e run, latest_diagonal t = Ok ld /\ tri_op OSub u ld = Ok ibnr /\ tri_op OMul em ibnr = Ok e /\ tri_op OAdd ld e = Ok run /\
  wide run /\ odims run = odims t /\ ddims run = Ages (rng U 1 m) /\ vdate run = ULT_VAL /\
  forall i c o d, (i < ax0 (values t))%nat -> (c < ax1 (values t))%nat -> (o < no)%nat -> (d < m)%nat ->
    stores (cel run i c o d) (amount t i c o (lat o) + nz (share r i c o d) * open_amount i c o)%Qc.
Proof.
  intros We Eo Ed Evd Ec. pose proof (wi_wf _ We) as Wem.
  assert (E2 : ax2 (values em) = no) by (rewrite (wf_o _ Wem), Eo; symmetry; apply Wt). assert (E3 : ax3 (values em) = m) by (rewrite (wf_d _ Wem), Ed; cbn [dlist]; apply rng_length).
  pose proof (wi_0 _ We) as E0. pose proof (wi_1 _ We) as E1.
  assert (M1 : (1 <= m)%nat) by apply Wl. pose proof (mi_0 _ MI) as T0. pose proof (mi_1 _ MI) as T1. pose proof (wf_o1 _ Wt) as T2. fold no in T2.
  pose proof (wf_k _ Wt) as Tk. pose proof (wf_v _ Wt) as Tv. pose proof (wf_o _ Wt) as To.
  destruct (latest_diagonal_ok2 t Wt (mi_diag _ MI)) as (ld & Eld & Lk & Lkl & Lv & Lo & Lvd & L0 & L1 & L2 & L3 & Lc & (Lf1 & Lf2 & Lf3 & Lf4) & Ll).
  destruct UF as [Uk Ukl Uv Uo Ud Uvd Ucum Upat Uog Udg U0 U1 U2 U3].
  assert (Su : shape_ok u) by (unfold shape_ok; rewrite Uk, Uv, Uo, Ud; cbn [dlist List.length]; lia).
  assert (Sld : shape_ok ld) by (unfold shape_ok; rewrite Lk, Lv, Lo, Ll; lia).
  destruct (tri_op_narrow OSub u ld) as (ib & Eib & Rb).
  { constructor; try congruence; auto; try (left; congruence). }
  pose proof (nr_0 _ _ _ _ Rb) as B0. pose proof (nr_1 _ _ _ _ Rb) as B1. pose proof (nr_2 _ _ _ _ Rb) as B2. pose proof (nr_3 _ _ _ _ Rb) as B3.
  pose proof (nr_k _ _ _ _ Rb) as Bk. pose proof (nr_kl _ _ _ _ Rb) as Bkl. pose proof (nr_v _ _ _ _ Rb) as Bv. pose proof (nr_o _ _ _ _ Rb) as Bo. pose proof (nr_d _ _ _ _ Rb) as Bd.
  pose proof (nr_og _ _ _ _ Rb) as Bog. pose proof (nr_dg _ _ _ _ Rb) as Bdg. pose proof (nr_shape _ _ _ _ Rb) as Sb. pose proof (nr_vd _ _ _ _ Rb) as Bvd. pose proof (nr_pat _ _ _ _ Rb) as Bpat.
  assert (Hib : forall i c o, (i < ax0 (values t))%nat -> (c < ax1 (values t))%nat -> (o < no)%nat -> stores (cel ib i c o 0%nat) (open_amount i c o)).
  { intros i c o Hi Hc Ho. rewrite (nr_cell _ _ _ _ Rb) by (unfold in_range; rewrite U0, U1, U2, U3; auto). cbn [cop].
    rewrite bav_in by (rewrite ?L0, ?L1, ?L2, ?L3; auto). change (av (values ld)) with (cel ld).
    assert (Nb : nan_triangle ib o 0 = Some 1%Qc).
    { unfold nan_triangle. rewrite B3, U3, B2, U2. destruct (Nat.eqb_spec (Nat.min (ax2 (values t)) 1) 1); [reflexivity|unfold no in *; lia]. }
    rewrite Nb. destruct (LA o Ho) as [La Lm]. specialize (Lc i c o (lat o) ltac:(repeat split; auto) Lm).
    unfold open_amount. rewrite <- (stores_nz _ _ Lc). unfold nz_sub. cbn [cmul nz]. rewrite Qcmult_1_r. apply stores_n2n. }
  assert (Se : shape_ok em) by (apply wf_shape; [auto|lia|lia]).
  destruct (tri_op_narrow OMul em ib) as (e & Ee & Re).
  { constructor; auto.
    - rewrite Bog, Uog. symmetry. apply We.
    - left. rewrite Bdg, Udg. symmetry. apply We.
    - rewrite Bkl, Ukl. symmetry. apply We.
    - left. rewrite Bk, Uk. symmetry. apply We.
    - left. rewrite Bv, Uv. symmetry. apply We.
    - left. congruence.
    - right. rewrite Bd, Ud. reflexivity. }
  destruct Re as [Xk Xkl Xv Xo Xd Xvd Xcum Xpat Xog Xdg X0 X1 X2 X3 Xs Xc].
  assert (B : bcast ld e).
  { constructor; auto; unfold bc.
    - rewrite Xog, (wi_og _ We). symmetry. apply Lf3.
    - rewrite Xkl, (wi_kl _ We). auto.
    - left. rewrite Xk, (wi_k _ We). auto.
    - left. rewrite Xv, (wi_v _ We). auto.
    - left. congruence.
    - right. right. exact Ll. }
  destruct (tri_op_bcast OAdd ld e B) as (run & Er & R).
  exists ld, ib, e, run. split; [auto|]. split; [auto|]. split; [auto|]. split; [auto|].
  pose proof (br_0 _ _ _ _ R) as R0. pose proof (br_1 _ _ _ _ R) as R1. pose proof (br_2 _ _ _ _ R) as R2. pose proof (br_3 _ _ _ _ R) as R3.
  pose proof (br_k _ _ _ _ R) as Rk. pose proof (br_v _ _ _ _ R) as Rv. pose proof (br_o _ _ _ _ R) as Ro. pose proof (br_d _ _ _ _ R) as Rd. pose proof (br_dg _ _ _ _ R) as Rdg.
  unfold bframe in Rk, Rv, Ro, Rd, Rdg. cbn [kdims vdims odims ddims dgrain] in *.
  rewrite pk_keep in Rk by (left; rewrite Xk, Lk, (wi_k _ We); reflexivity).
  rewrite pk_keep in Rv by (left; rewrite Xv, Lv, (wi_v _ We); reflexivity).
  rewrite pk_keep in Ro by (left; rewrite Xo, Lo, Eo; reflexivity).
  assert (Hd' : List.length (dlist (ddims e)) = m) by (rewrite Xd, Ed; apply rng_length).
  assert (M2 : (1 < m)%nat) by (destruct EH as (_ & H2 & _); destruct (lat_lt 0%nat ltac:(lia)); lia).
  assert (Pk : forall T (a b : T), pk (List.length (dlist (ddims ld))) (List.length (dlist (ddims e))) a b = b).
  { intros T a b. unfold pk. rewrite Ll, Hd'. cbn [Nat.eqb andb]. destruct (Nat.ltb_spec 1 m); [reflexivity|lia]. }
  rewrite Pk in Rd, Rdg. rewrite Xd, Ed in Rd. rewrite Lo in Ro. rewrite Lk in Rk. rewrite Lv in Rv. rewrite Xdg, (wi_dg _ We) in Rdg.
  assert (Vr : vdate run = ULT_VAL) by (rewrite (br_vd _ _ _ _ R), Xvd, Lvd, Evd, Bvd, Uvd, Lvd; pose proof (wf_vd _ Wt); lia).
  assert (R0' : ax0 (values run) = ax0 (values t)) by (rewrite R0, L0, X0, E0; apply Nat.max_id).
  assert (R1' : ax1 (values run) = ax1 (values t)) by (rewrite R1, L1, X1, E1; apply Nat.max_id).
  assert (R2' : ax2 (values run) = no) by (rewrite R2, L2, X2, E2; apply Nat.max_id).
  assert (R3' : ax3 (values run) = m) by (rewrite R3, L3, X3, E3; lia).
  assert (Wr : wf run) by (apply wf_umon; auto).
  split; [constructor; auto|].
  { rewrite (br_kl _ _ _ _ R). auto. }
  { rewrite (br_pat _ _ _ _ R), Xpat, (wi_pat _ We), Bool.andb_false_r. reflexivity. }
  { rewrite (br_og _ _ _ _ R). auto. }
  split; [auto|]. split; [auto|]. split; [auto|].
  intros i c o d Hi Hc Ho Hd. rewrite (br_cell _ _ _ _ R). cbn [cop].
  assert (Nn : nan_triangle run o d = Some 1%Qc).
  { rewrite nan_triangle_cases by (auto; lia). destruct (_ =? 1)%nat; auto. rewrite (umon_of run Ro Rd) by auto. pose proof (umon_le o (S d) Ho ltac:(lia)). rewrite Vr.
    destruct (Z.ltb_spec ULT_VAL (umon o (S d))); [lia|reflexivity]. }
  rewrite Nn. unfold bav at 1. rewrite L0, L1, L2, L3, bidx_1, !bidx_lt by auto. change (av (values ld)) with (cel ld).
  rewrite bav_in by (rewrite ?X0, ?X1, ?X2, ?X3; lia). change (av (values e)) with (cel e).
  rewrite Xc by (unfold in_range; rewrite E0, E1, E2, E3; auto). cbn [cop]. unfold bav. rewrite B0, B1, B2, B3, U0, U1, U2, U3, bidx_1, !bidx_lt by auto. change (av (values ib)) with (cel ib).
  rewrite Ec by auto. destruct (LA o Ho) as [La Lm]. specialize (Lc i c o (lat o) ltac:(repeat split; auto) Lm). specialize (Hib i c o Hi Hc Ho).
  rewrite <- (stores_nz _ _ Lc), <- (stores_nz _ _ Hib). unfold nz_add. cbn [cmul nz]. rewrite Qcmult_1_r.
  eapply stores_eq; [apply stores_n2n|]. f_equal. destruct (share r i c o d), (cel ib i c o 0%nat); cbn [cmul nz]; ring.
Qed.

(** ** The full triangle *)
Lemma full_triangle_cells : exists r x, full_triangle t l u = Ok x /\ wf x /\ runoff_frame t l x true /\
  (forall i c o d, (i < ax0 (values t))%nat -> (c < ax1 (values t))%nat -> (o < no)%nat -> (d < m)%nat ->
    cel r i c o d = if (d <? lat o)%nat then Some 1%Qc else n2n (cmul (cel l i c 0%nat d) (cdiv (cel u i c o 0%nat) (cel u i c o 0%nat)))) /\
  forall i c o d, (i < ax0 (values t))%nat -> (c < ax1 (values t))%nat -> (o < no)%nat -> (d <= m)%nat ->
    stores (cel x i c o d) (if (d <=? lat o)%nat then amount t i c o d else (amount t i c o (lat o) + nz (share r i c o (d - 1)) * open_amount i c o)%Qc).
Proof.
  destruct emergence_ok as (r & em & Wr & Eem & We & Eo & Ed & Evd & Rc & Ec).
  destruct (run_ok em r We Eo Ed Evd Ec) as (ld & ib & e & run & G1 & G2 & G3 & G4 & Wn & Ro & Rd & Rv & Rcel).
  pose proof (wi_wf _ Wn) as Wrun.
  assert (N2 : ax2 (values run) = no) by (rewrite (wf_o _ Wrun), Ro; symmetry; apply Wt). assert (N3 : ax3 (values run) = m) by (rewrite (wf_d _ Wrun), Rd; cbn [dlist]; apply rng_length).
  destruct EH as (H1 & H2 & H3). fold no in H1. assert (Hno : (0 < no)%nat) by lia. destruct (lat_lt 0 Hno) as [L0 L0m].
  destruct (hi_ok run (fun o d => vdate t <? valuation run o d) (rng U 1 m) Wn Ro Rd N2 N3) as (y & Q1 & Wy & Yo & Yd & Yc & Yb & Yv & Yge & Ycel).
  { intros o d Ho Hd F. unfold future in F. rewrite (umon_of run Ro Rd), Rv in F by lia. pose proof (umon_le o (S d) ltac:(lia) ltac:(lia)). lia. }
  { intros o d Ho Hd. rewrite valuation_month by (auto; lia). rewrite (umon_of run Ro Rd) by auto. apply umon_gt; auto. }
  assert (Dl : (dl < lat 0)%nat) by (unfold dl; apply lat_mono; lia).
  assert (Yd' : ddims y = Ages (rng U (S dl) (m - dl))).
  { rewrite Yd. f_equal. apply (nth_ext _ _ 0 0); [rewrite !rng_length; reflexivity|]. intros k Hk. rewrite rng_length in Hk. rewrite !rng_nth by lia. f_equal. }
  assert (Yvd : vdate y = ULT_VAL).
  { specialize (Yge 0%nat (m - 1)%nat Hno ltac:(lia) ltac:(lia)). rewrite (umon_of run Ro Rd) in Yge by lia. replace (S (m - 1)) with m in Yge by lia. rewrite umon_last in Yge. rewrite Rv in Yv. lia. }
  set (z := set_cumulative y (Some true)).
  assert (Wz : wf z) by (destruct (wi_wf _ Wy); constructor; auto).
  destruct A_prefix as [Td Tn]. set (n := ax3 (values t)) in *.
  assert (Tr : firstn n A = rng U 0 n).
  { apply (nth_ext _ _ 0 0); [rewrite rng_length, firstn_length, A_len; lia|]. intros k Hk. rewrite firstn_length, A_len in Hk. rewrite rng_nth by lia. cbn [Nat.add]. rewrite U_nth by lia.
    rewrite <- (firstn_skipn n A) at 2. rewrite app_nth1; auto. rewrite firstn_length, A_len. lia. }
  rewrite Tr in Td.
  assert (To : odims t = rng (odims t) 0 no) by (unfold no; rewrite (wf_o _ Wt); symmetry; apply rng_all).
  assert (Lo' : List.length (odims t) = no) by (symmetry; apply Wt).
  assert (Uo : zunion (odims t) (odims z) = odims t).
  { change (odims z) with (odims y). rewrite Yo. rewrite To at 1 2. apply rng_union; [apply Wt|lia|lia|]. intros p Hp. right. lia. }
  assert (Ud : zunion (dlist (ddims t)) (dlist (ddims z)) = U).
  { change (ddims z) with (ddims y). rewrite Td, Yd'. cbn [dlist]. apply rng_union; [apply U_sorted|rewrite U_len; lia|rewrite U_len; lia|]. rewrite U_len. intros p Hp. lia. }
  destruct (addsub_cells OAdd t z) as (x & Ex & Wx & Bx & (Xc & Xp & Xog & Xdg) & Xk & Xkl & Xv & Xo & Xs & Xd & Xvd & Xcel).
  - left; reflexivity.
  - exact Wt.
  - exact Wz.
  - exact UL.
  - apply Wy.
  - apply Wy.
  - apply Wy.
  - apply Wy.
  - apply Wy.
  - change (ddims z) with (ddims y). rewrite Td, Yd'. exact I.
  - change (odims z) with (odims y). rewrite Yo. rewrite To. apply rng_ablocks; try lia. apply Wt.
  - change (ddims z) with (ddims y). rewrite Td, Yd'. cbn [dlist]. apply rng_ablocks; rewrite ?U_len; try lia. apply U_sorted.
  - unfold frame_fits. rewrite Td. intros o a Hoo Haa Hn. apply U_fits; auto.
    + rewrite <- Uo, zunion_In. exact Hoo.
    + rewrite <- Ud, zunion_In, Td. exact Haa.
  - apply (mi_blank _ MI).
  - exact Yb.
  - change (ddims z) with (ddims y). intros [_ E]. rewrite Td, Yd' in E. cbn [dlist] in E. apply (f_equal (fun q => (List.length q, nth 0 q 0))) in E. rewrite !rng_length, !rng_nth in E by lia. injection E as E1 E4.
    apply (sorted_nth_inj U) in E4; [|apply U_sorted|rewrite U_len; lia|rewrite U_len; lia]. lia.
  - exists r, x. rewrite Uo in Xo. rewrite Ud in Xd.
    assert (Xd' : ddims x = Ages U) by (destruct (ddims x) eqn:Exd; [cbn in Xd; congruence|rewrite Td in Xs; destruct Xs]).
    assert (X2 : ax2 (values x) = no) by (rewrite (wf_o _ Wx), Xo; auto). assert (X3 : ax3 (values x) = S m) by (rewrite (wf_d _ Wx), Xd; apply U_len).
    assert (X0 : ax0 (values x) = ax0 (values t)) by (rewrite (wf_k _ Wx), Xk; symmetry; apply Wt). assert (X1 : ax1 (values x) = ax1 (values t)) by (rewrite (wf_v _ Wx), Xv; symmetry; apply Wt).
    split; [|split; [exact Wx|split; [|split; [exact Rc|]]]].
    + unfold full_triangle. rewrite Eem. cbn [rbind]. rewrite G1. cbn [rbind]. rewrite G2. cbn [rbind]. rewrite G3. cbn [rbind]. rewrite G4. cbn [rbind]. rewrite Q1. cbn [rbind]. exact Ex.
    + constructor; auto.
      * rewrite Xd', DA. reflexivity.
      * rewrite Xvd. change (vdate z) with (vdate y). rewrite Yvd. pose proof (wf_vd _ Wt). lia.
      * rewrite Xc. apply MI.
      * rewrite Xp, (mi_pat _ MI). reflexivity.
    + intros i c o d Hi Hc Ho Hd. assert (R : in_range x i c o d) by (unfold in_range; rewrite X0, X1, X2, X3; repeat split; auto; lia).
      specialize (Xcel i c o d R). assert (Zo : odims z = rng (odims t) 0 no) by (change (odims z) with (odims y); congruence). assert (Zd : ddims z = Ages (rng U (S dl) (m - dl))) by exact Yd'.
      rewrite Xo, Xd, Zo, Td, Zd in Xcel. rewrite To in Xcel at 1. cbn [dlist qop] in Xcel.
      rewrite rng_pick in Xcel by (try apply Wt; lia). rewrite rng_pick in Xcel by (rewrite ?U_len; try apply U_sorted; lia).
      rewrite rng_pick in Xcel by (try apply Wt; lia). rewrite rng_pick in Xcel by (rewrite ?U_len; try apply U_sorted; lia).
      rewrite !Nat.sub_0_r in Xcel. cbn [Nat.leb andb Nat.add] in Xcel.
      destruct (Nat.ltb_spec o no); [|lia]. pose proof (dl_le o Ho) as Do. destruct (lat_lt o Ho) as [Lo1 Lo2]. fold n in Lo1.
      destruct (Nat.leb_spec d (lat o)) as [L|L].
      * destruct (Nat.ltb_spec d n); [|lia]. eapply stores_eq; [exact Xcel|].
        match goal with |- (_ + ?b = _)%Qc => enough (Eb : b = 0%Qc) by (rewrite Eb; ring) end.
        change (S dl <=? d)%nat with (match d with O => false | S d' => (dl <=? d')%nat end). destruct d as [|d]; [reflexivity|]. destruct (Nat.leb_spec dl d); [|reflexivity].
        destruct (Nat.ltb_spec (S d) (S (dl + (m - dl)))); [|reflexivity]. cbn [andb].
        unfold amount. change (cel z) with (cel y). rewrite Ycel by (auto; lia). destruct (Nat.leb_spec (lat o) (dl + (S d - S dl))); [lia|reflexivity].
      * eapply stores_eq; [exact Xcel|].
        assert (Za : (if (d <? n)%nat then amount t i c o d else 0%Qc) = 0%Qc).
        { destruct (Nat.ltb_spec d n) as [Hdn|]; [|reflexivity]. unfold amount. rewrite (mi_blank _ MI i c o d); [reflexivity|repeat split; auto|]. unfold future. rewrite mon_t by auto.
          rewrite <- (mon_lat o Ho). unfold mon. pose proof (sorted_nth_lt A (lat o) d 0 A_sorted ltac:(rewrite A_len; lia)). lia. }
        rewrite Za, Qcplus_0_l. destruct d as [|d]; [lia|]. change (match S d with O => false | S m' => (dl <=? m')%nat end) with (dl <=? d)%nat.
        destruct (Nat.leb_spec dl d); [|lia]. destruct (Nat.ltb_spec (S d) (S (dl + (m - dl)))); [|lia]. cbn [andb].
        unfold amount at 1. change (cel z) with (cel y). rewrite Ycel by (auto; lia). destruct (Nat.leb_spec (lat o) (dl + (S d - S dl))); [|lia].
        replace (dl + (S d - S dl))%nat with d by lia. rewrite nz_n2n. replace (S d - 1)%nat with d by lia. apply stores_nz. apply Rcel; auto.
Qed.
End FullTri.

(** ** Reading the shares *)
Lemma cprod_some n f g : (forall k, (k < n)%nat -> f k = Some (g k)) -> cprod n f = Some (prodn n g).
Proof. induction n as [|n IH]; intros H; [reflexivity|]. cbn [cprod prodn]. rewrite IH, H by auto. reflexivity. Qed.
Lemma cprod_none n f k : (k < n)%nat -> f k = None -> cprod n f = None.
Proof.
  induction n as [|n IH]; intros H E; [lia|]. cbn [cprod]. destruct (Nat.eq_dec k n) as [->|].
  - rewrite E. destruct (cprod n f); reflexivity.
  - rewrite IH by (auto; lia). reflexivity.
Qed.
Lemma factor_ne x : factor x <> 0%Qc.
Proof. unfold factor. destruct (Qc_eqb_spec (nz x) 0%Qc); [discriminate|auto]. Qed.
Lemma growth_to_end l i c a : growth l i c a (ax3 (values l)) = to_ultimate l i c a.
Proof. reflexivity. Qed.
Lemma growth_step l i c a d : (a <= d)%nat -> growth l i c a (S d) = (growth l i c a d * factor (cel l i c 0 d))%Qc.
Proof. intros H. unfold growth. replace (S d - a)%nat with (S (d - a)) by lia. cbn [prodn]. replace (a + (d - a))%nat with d by lia. reflexivity. Qed.
Lemma growth_same l i c a : growth l i c a a = 1%Qc.
Proof. unfold growth. rewrite Nat.sub_diag. reflexivity. Qed.

Lemma cdiv_same q x : x = Some q -> q <> 0%Qc -> cdiv x x = Some 1%Qc.
Proof. intros -> H. cbn [cdiv]. destruct (Qc_eqb_spec q 0%Qc); [contradiction|]. f_equal. field. auto. Qed.
Lemma share_ok l u r lat i c o : factors_present l i c -> (lat o < ax3 (values l))%nat ->
  (forall d, (d < ax3 (values l))%nat -> cel r i c o d = if (d <? lat o)%nat then Some 1%Qc else n2n (cmul (cel l i c 0%nat d) (cdiv (cel u i c o 0%nat) (cel u i c o 0%nat)))) ->
  forall d, (lat o <= d < ax3 (values l))%nat ->
  cdiv (cpv r i c o d) (n2n (cpv r i c o (ax3 (values l) - 1)%nat)) =
    if Qc_eqb (amount u i c o 0) 0%Qc then None else if Qc_eqb (to_ultimate l i c (lat o)) 1%Qc then None else Some (emerged l i c (lat o) (S d)).
Proof.
  intros FP Hl Rc d Hd. destruct (Qc_eqb_spec (amount u i c o 0) 0%Qc) as [U0|U0].
  - unfold cpv at 1. rewrite (cprod_none _ _ (lat o)); [reflexivity|lia|]. rewrite Rc by auto. destruct (Nat.ltb_spec (lat o) (lat o)); [lia|].
    unfold amount in U0. destruct (cel u i c o 0%nat) as [q|]; cbn [nz] in U0; [|destruct (cel l i c 0%nat (lat o)); reflexivity]. subst q. cbn [cdiv]. rewrite Qc_eqb_refl. destruct (cel l i c 0%nat (lat o)); reflexivity.
  - assert (E1 : cdiv (cel u i c o 0%nat) (cel u i c o 0%nat) = Some 1%Qc).
    { unfold amount in U0. destruct (cel u i c o 0%nat) as [q|]; cbn [nz] in U0; [|contradiction]. apply (cdiv_same q); auto. }
    assert (Rc' : forall k, (k < ax3 (values l))%nat -> cel r i c o k = Some (if (k <? lat o)%nat then 1%Qc else factor (cel l i c 0 k))).
    { intros k Hk. rewrite Rc, E1 by auto. destruct (k <? lat o)%nat; [reflexivity|]. rewrite (FP k Hk) at 1. cbn [cmul]. rewrite Qcmult_1_r.
      unfold n2n. cbn [nz]. destruct (Qc_eqb_spec (factor (cel l i c 0%nat k)) 0%Qc) as [E|]; [destruct (factor_ne _ E)|reflexivity]. }
    assert (Cp : forall k, (lat o <= k < ax3 (values l))%nat -> cpv r i c o k = Some (growth l i c (lat o) (S k) - 1)%Qc).
    { intros k Hk. unfold cpv. rewrite (cprod_some (S k) _ (fun k => if (k <? lat o)%nat then 1%Qc else factor (cel l i c 0 k))) by (intros; apply Rc'; lia).
      cbn [csub]. do 2 f_equal. replace (S k) with (lat o + (S k - lat o))%nat at 1 by lia. rewrite prodn_app, (prodn_1 (lat o)); [|intros j Hj; destruct (Nat.ltb_spec j (lat o)); [reflexivity|lia]].
      rewrite Qcmult_1_l. unfold growth. apply prodn_ext. intros j Hj. destruct (Nat.ltb_spec (lat o + j) (lat o)); [lia|reflexivity]. }
    rewrite !Cp by lia. replace (S (ax3 (values l) - 1)) with (ax3 (values l)) by lia. rewrite growth_to_end. unfold n2n. cbn [nz].
    destruct (Qc_eqb_spec (to_ultimate l i c (lat o)) 1%Qc) as [T|T]; destruct (Qc_eqb_spec (to_ultimate l i c (lat o) - 1)%Qc 0%Qc) as [Z|Z].
    + reflexivity.
    + destruct Z. rewrite T. ring.
    + destruct T. transitivity (to_ultimate l i c (lat o) - 1 + 1)%Qc; [ring|rewrite Z; ring].
    + cbn [cdiv]. destruct (Qc_eqb_spec (to_ultimate l i c (lat o) - 1)%Qc 0%Qc); [contradiction|reflexivity].
Qed.
Lemma emerged_end l i c a : to_ultimate l i c a <> 1%Qc -> emerged l i c a (ax3 (values l)) = 1%Qc.
Proof. intros H. unfold emerged. rewrite growth_to_end. unfold Qcdiv. apply Qcmult_inv_r. intros E. apply H. transitivity (to_ultimate l i c a - 1 + 1)%Qc; [ring|rewrite E; ring]. Qed.
Lemma emerged_start l i c a : emerged l i c a a = 0%Qc.
Proof. unfold emerged. rewrite growth_same. unfold Qcdiv, Qcminus. rewrite Qcplus_opp_r. ring. Qed.

(** ** C34 *)
Lemma full_triangle_ok t l u lat : runoff_input t l u lat -> exists x, full_triangle t l u = Ok x /\ wf x /\ runoff_frame t l x true /\
  forall i c o, (i < ax0 (values t))%nat -> (c < ax1 (values t))%nat -> (o < ax2 (values t))%nat ->
    (forall d, (d <= lat o)%nat -> stores (cel x i c o d) (amount t i c o d)) /\
    (factors_present l i c -> forall d, (lat o < d <= ax3 (values l))%nat ->
      stores (cel x i c o d) (if Qc_eqb (amount u i c o 0) 0%Qc then amount t i c o (lat o) else if Qc_eqb (to_ultimate l i c (lat o)) 1%Qc then amount t i c o (lat o)
         else (amount t i c o (lat o) + emerged l i c (lat o) d * (amount u i c o 0 - amount t i c o (lat o)))%Qc)).
Proof.
  intros [MI PF UF PJ UL LA EH EA]. destruct (pf_d _ _ PF) as (xs & more & Ex & El).
  destruct (full_triangle_cells t l u lat (xs ++ more) MI PF UF PJ UL LA EH EA El) as (r & x & E & W & Rf & Rc & Xc).
  exists x. split; [exact E|]. split; [exact W|]. split; [exact Rf|]. intros i c o Hi Hc Ho.
  destruct (LA o Ho) as [La _]. pose proof (pf_len t l MI PF) as Hm.
  split.
  - intros d Hd. specialize (Xc i c o d Hi Hc Ho ltac:(lia)). destruct (Nat.leb_spec d (lat o)); [exact Xc|lia].
  - intros FP d Hd. specialize (Xc i c o d Hi Hc Ho ltac:(lia)). destruct (Nat.leb_spec d (lat o)); [lia|]. unfold share in Xc.
    rewrite (share_ok l u r lat i c o FP) in Xc by (auto; lia). replace (S (d - 1)) with d in Xc by lia.
    eapply stores_eq; [exact Xc|]. destruct (Qc_eqb (amount u i c o 0) 0); cbn [nz]; [unfold open_amount; ring|]. destruct (Qc_eqb _ _); cbn [nz]; unfold open_amount; ring.
Qed.

Lemma full_triangle_last t l u lat : runoff_input t l u lat -> exists x, full_triangle t l u = Ok x /\
  forall i c o, (i < ax0 (values t))%nat -> (c < ax1 (values t))%nat -> (o < ax2 (values t))%nat -> factors_present l i c ->
    amount u i c o 0 <> 0%Qc -> to_ultimate l i c (lat o) <> 1%Qc -> stores (cel x i c o (ax3 (values l))) (amount u i c o 0).
Proof.
  intros CI. destruct (full_triangle_ok t l u lat CI) as (x & E & _ & _ & Xc). exists x. split; [exact E|].
  intros i c o Hi Hc Ho FP Hu Ht. destruct (Xc i c o Hi Hc Ho) as (_ & X2). destruct (ci_la _ _ _ _ CI o Ho) as [La _]. pose proof (pf_len t l (ci_mi _ _ _ _ CI) (ci_pf _ _ _ _ CI)).
  specialize (X2 FP (ax3 (values l)) ltac:(lia)). destruct (Qc_eqb_spec (amount u i c o 0) 0%Qc); [contradiction|]. destruct (Qc_eqb_spec (to_ultimate l i c (lat o)) 1%Qc); [contradiction|].
  eapply stores_eq; [exact X2|]. rewrite emerged_end by auto. ring.
Qed.

(** ** Bounds *)
Lemma growth_split l i c a d e : (a <= d <= e)%nat -> growth l i c a e = (growth l i c a d * growth l i c d e)%Qc.
Proof.
  intros H. unfold growth. replace (e - a)%nat with ((d - a) + (e - d))%nat by lia. rewrite prodn_app. f_equal. apply prodn_ext. intros k Hk. do 2 f_equal. lia.
Qed.
Lemma growth_ge_1 l i c a d e : growing l i c a -> (a <= d <= e)%nat -> (e <= ax3 (values l))%nat -> (1 <= growth l i c d e)%Qc.
Proof. intros G H He. apply prodn_ge_1. intros k Hk. apply G. lia. Qed.
Lemma Qcle_minus a b : (a <= b)%Qc -> (0 <= b - a)%Qc.
Proof. intros H. apply Qcle_minus_iff in H. exact H. Qed.
Lemma growth_mono l i c a d e : growing l i c a -> (a <= d <= e)%nat -> (e <= ax3 (values l))%nat -> (growth l i c a d <= growth l i c a e)%Qc.
Proof.
  intros G H He. rewrite (growth_split l i c a d e H). rewrite <- (Qcmult_1_r (growth l i c a d)) at 1.
  assert (H1 : (1 <= growth l i c a d)%Qc) by (apply (growth_ge_1 l i c a); auto; lia).
  apply Qcmult_le_mono; [eapply Qcle_trans; [|exact H1]; discriminate|apply Qcle_refl|discriminate|apply (growth_ge_1 l i c a); auto; lia].
Qed.
Lemma emerged_bounds l i c a d e : growing l i c a -> (a <= d <= e)%nat -> (e <= ax3 (values l))%nat -> to_ultimate l i c a <> 1%Qc ->
  (0 <= emerged l i c a d)%Qc /\ (emerged l i c a d <= emerged l i c a e)%Qc /\ (emerged l i c a e <= 1)%Qc.
Proof.
  intros G H He Ht. assert (F1 : (1 <= to_ultimate l i c a)%Qc) by (rewrite <- growth_to_end; apply (growth_ge_1 l i c a); auto; lia).
  assert (P : (0 < to_ultimate l i c a - 1)%Qc).
  { apply Qcle_minus in F1. destruct (Qcle_lt_or_eq _ _ F1) as [|E]; auto. destruct Ht. transitivity (to_ultimate l i c a - 1 + 1)%Qc; [ring|rewrite <- E; ring]. }
  assert (Pi : (0 <= / (to_ultimate l i c a - 1))%Qc).
  { apply Qcnot_lt_le. intros N. assert (E : ((to_ultimate l i c a - 1) * / (to_ultimate l i c a - 1) = 1)%Qc) by (apply Qcmult_inv_r; intros E; rewrite E in P; discriminate).
    assert (M : ((to_ultimate l i c a - 1) * / (to_ultimate l i c a - 1) <= 0)%Qc).
    { rewrite <- (Qcmult_0_r (to_ultimate l i c a - 1)), !(Qcmult_comm (to_ultimate l i c a - 1)). apply Qcmult_le_compat_r; [apply Qclt_le_weak; exact N|apply Qclt_le_weak; exact P]. }
    rewrite E in M. apply M. reflexivity. }
  assert (Mo : forall x y, (growth l i c a x <= growth l i c a y)%Qc -> (emerged l i c a x <= emerged l i c a y)%Qc).
  { intros x y Hxy. unfold emerged, Qcdiv. apply Qcmult_le_compat_r; auto. unfold Qcminus. apply Qcplus_le_compat; [auto|apply Qcle_refl]. }
  split; [|split].
  - rewrite <- (emerged_start l i c a). apply Mo. apply growth_mono; auto; lia.
  - apply Mo. apply growth_mono; auto.
  - rewrite <- (emerged_end l i c a Ht). apply Mo. apply growth_mono; auto; lia.
Qed.
Lemma lerp_bounds L W e f : (L <= W)%Qc -> (0 <= e)%Qc -> (e <= f)%Qc -> (f <= 1)%Qc -> (L <= L + e * (W - L) /\ L + e * (W - L) <= L + f * (W - L) /\ L + f * (W - L) <= W)%Qc.
Proof.
  intros H E1 E2 E3. apply Qcle_minus in H. split; [|split].
  - rewrite <- (Qcplus_0_r L) at 1. apply Qcplus_le_compat; [apply Qcle_refl|]. rewrite <- (Qcmult_0_l (W - L)). apply Qcmult_le_compat_r; auto.
  - apply Qcplus_le_compat; [apply Qcle_refl|]. apply Qcmult_le_compat_r; auto.
  - replace W with (L + 1 * (W - L))%Qc at 2 by ring. apply Qcplus_le_compat; [apply Qcle_refl|]. apply Qcmult_le_compat_r; auto.
Qed.
Lemma full_triangle_bounds t l u lat : runoff_input t l u lat -> exists x, full_triangle t l u = Ok x /\
  forall i c o, (i < ax0 (values t))%nat -> (c < ax1 (values t))%nat -> (o < ax2 (values t))%nat -> factors_present l i c -> growing l i c (lat o) ->
    forall d e, (lat o <= d <= e)%nat -> (e <= ax3 (values l))%nat ->
    ((amount t i c o (lat o) <= amount u i c o 0)%Qc -> (amount t i c o (lat o) <= amount x i c o d /\ amount x i c o d <= amount x i c o e /\ amount x i c o e <= amount u i c o 0)%Qc) /\
    ((amount u i c o 0 <= amount t i c o (lat o))%Qc -> (amount u i c o 0 <= amount x i c o e /\ amount x i c o e <= amount x i c o d /\ amount x i c o d <= amount t i c o (lat o))%Qc).
Proof.
  intros CI. destruct (full_triangle_ok t l u lat CI) as (x & E & _ & _ & Xc). exists x. split; [exact E|].
  intros i c o Hi Hc Ho FP G d e Hd He. destruct (Xc i c o Hi Hc Ho) as (X1 & X2). set (L := amount t i c o (lat o)) in *. set (W := amount u i c o 0) in *.
  assert (Xa : forall k, (lat o <= k <= ax3 (values l))%nat -> amount x i c o k = if Qc_eqb W 0%Qc then L else if Qc_eqb (to_ultimate l i c (lat o)) 1%Qc then L else (L + emerged l i c (lat o) k * (W - L))%Qc).
  { intros k Hk. unfold amount. apply stores_nz. destruct (Nat.eq_dec k (lat o)) as [->|]; [|apply X2; auto; lia]. eapply stores_eq; [apply X1; lia|]. fold L. destruct (Qc_eqb W 0); [auto|]. destruct (Qc_eqb _ _); [auto|]. rewrite emerged_start. ring. }
  rewrite (Xa d), (Xa e) by lia. destruct (Qc_eqb W 0); [split; intros H; repeat split; auto; apply Qcle_refl|].
  destruct (Qc_eqb_spec (to_ultimate l i c (lat o)) 1%Qc) as [|Ht]; [split; intros H; repeat split; auto; apply Qcle_refl|].
  destruct (emerged_bounds l i c (lat o) d e G Hd He Ht) as (B1 & B2 & B3). split; intros H.
  - apply lerp_bounds; auto.
  - assert (B1' : (0 <= 1 - emerged l i c (lat o) e)%Qc) by (apply Qcle_minus; auto).
    assert (B2' : (1 - emerged l i c (lat o) e <= 1 - emerged l i c (lat o) d)%Qc) by (unfold Qcminus; apply Qcplus_le_compat; [apply Qcle_refl|apply Qcopp_le_compat; auto]).
    assert (B3' : (1 - emerged l i c (lat o) d <= 1)%Qc) by (rewrite <- (Qcplus_0_r 1) at 2; unfold Qcminus; apply Qcplus_le_compat; [apply Qcle_refl|]; apply (Qcopp_le_compat _ _ B1)).
    destruct (lerp_bounds W L _ _ H B1' B2' B3') as (C1 & C2 & C3).
    replace (L + emerged l i c (lat o) e * (W - L))%Qc with (W + (1 - emerged l i c (lat o) e) * (L - W))%Qc by ring.
    replace (L + emerged l i c (lat o) d * (W - L))%Qc with (W + (1 - emerged l i c (lat o) d) * (L - W))%Qc by ring. auto.
Qed.

(** ** With the chain ladder *)
Lemma full_triangle_cl t l lat : method_input t -> pattern_for t l -> projectable t l -> uniq_labels t -> latest_ages t lat -> enough_history t lat -> even_ages t l ->
  exists u x, cl_fit t (Some l) = Ok (l, u) /\ full_triangle t l u = Ok x /\ runoff_frame t l x true /\
  forall i c o, (i < ax0 (values t))%nat -> (c < ax1 (values t))%nat -> (o < ax2 (values t))%nat -> factors_present l i c ->
    (forall d, (d <= lat o)%nat -> stores (cel x i c o d) (amount t i c o d)) /\
    stores (cel x i c o (ax3 (values l))) (amount u i c o 0) /\
    (to_ultimate l i c (lat o) <> 1%Qc -> forall d, (lat o < d <= ax3 (values l))%nat -> stores (cel x i c o d) (amount t i c o (lat o) * growth l i c (lat o) d)%Qc).
Proof.
  intros MI PF PJ UL LA EH EA. destruct (cl_fit_ok t l MI PF) as (u & b & Eu & UF & _ & _ & Uc).
  destruct (full_triangle_ok t l u lat ltac:(constructor; auto)) as (x & Ex & _ & Rf & Xc).
  exists u, x. split; [exact Eu|]. split; [exact Ex|]. split; [exact Rf|]. intros i c o Hi Hc Ho FP. destruct (Xc i c o Hi Hc Ho) as (X1 & X2).
  destruct (LA o Ho) as [La Lm]. pose proof (pf_len t l MI PF). destruct (Uc i c o (lat o) ltac:(repeat split; auto) Lm) as (U1 & _). specialize (X2 FP).
  assert (Ua : amount u i c o 0 = (amount t i c o (lat o) * to_ultimate l i c (lat o))%Qc) by (unfold amount at 1; apply stores_nz; exact U1).
  split; [exact X1|]. split.
  - eapply stores_eq; [apply X2; lia|]. destruct (Qc_eqb_spec (amount u i c o 0) 0%Qc) as [Z|Z].
    + rewrite Z in Ua |- *. symmetry in Ua. apply Qcmult_integral in Ua. destruct Ua as [Ua|Ua]; [auto|destruct (to_ultimate_ne l i c (lat o) Ua)].
    + destruct (Qc_eqb_spec (to_ultimate l i c (lat o)) 1%Qc) as [T|T]; [rewrite Ua, T; ring|]. rewrite emerged_end by auto. ring.
  - intros Ht d Hd. eapply stores_eq; [apply X2; lia|]. destruct (Qc_eqb_spec (amount u i c o 0) 0%Qc) as [Z|Z].
    + rewrite Z in Ua. symmetry in Ua. apply Qcmult_integral in Ua. destruct Ua as [Ua|Ua]; [rewrite Ua; ring|destruct (to_ultimate_ne l i c (lat o) Ua)].
    + destruct (Qc_eqb_spec (to_ultimate l i c (lat o)) 1%Qc) as [T|T]; [contradiction|]. rewrite Ua. unfold emerged, Qcdiv.
      assert (E : ((to_ultimate l i c (lat o) - 1) * / (to_ultimate l i c (lat o) - 1) = 1)%Qc).
      { apply Qcmult_inv_r. intros E. apply T. transitivity (to_ultimate l i c (lat o) - 1 + 1)%Qc; [ring|rewrite E; ring]. }
      transitivity (amount t i c o (lat o) + (growth l i c (lat o) d - 1) * amount t i c o (lat o) * ((to_ultimate l i c (lat o) - 1) * / (to_ultimate l i c (lat o) - 1)))%Qc; [ring|].
      rewrite E. ring.
Qed.

(** ** Incremental data *)
Lemma month_le_ult x ages o d : wf x -> ddims x = Ages ages -> (o < ax2 (values x))%nat -> (d < ax3 (values x))%nat -> month_of x o d <= ULT_VAL.
Proof.
  intros W E Ho Hd. pose proof (wf_dev _ W) as H. rewrite E in H. destruct H as (_ & _ & H). unfold month_of. rewrite E. unfold age_month.
  destruct (Z.eqb_spec (nth d ages 0) 9999); [apply Z.le_refl|]. apply Z.lt_le_incl. apply H; auto; apply nth_In; [rewrite <- (wf_o _ W); auto|]. pose proof (wf_d _ W) as X. rewrite E in X. cbn in X. lia.
Qed.
Lemma full_triangle_incremental s l u lat : is_pattern s = false -> is_cumulative s = Some false -> wf s -> runoff_input (incr_to_cum s) l u lat ->
  exists x r, full_triangle (incr_to_cum s) l u = Ok x /\ full_triangle_incr s l u = Ok r /\ runoff_frame s l r false /\
  forall i c o, (i < ax0 (values s))%nat -> (c < ax1 (values s))%nat -> (o < ax2 (values s))%nat ->
    (forall d, (d <= lat o)%nat -> amount r i c o d = amount s i c o d) /\
    forall d, (d <= ax3 (values l))%nat -> sumn (S d) (fun k => amount r i c o k) = amount x i c o d.
Proof.
  intros Hp Hc Ws CI. destruct (full_triangle_ok _ l u lat CI) as (x & Ex & Wx & Rf & Xc).
  destruct (incr_to_cum_frame s Hp) as (F & Fc & Fp); [congruence|].
  destruct Rf as [Xk Xkl Xv Xo Xd Xvd Xcum Xpat Xog Xdg X0 X1 X2 X3]. pose proof (ci_la _ _ _ _ CI) as LA. pose proof (wf_d1 _ (pf_wf _ _ (ci_pf _ _ _ _ CI))) as M1.
  destruct (cum_to_incr_cell x Wx Xpat) as (r & Er & Fr & Rcum & Rpat & Rc); [congruence|lia|].
  exists x, r. split; [exact Ex|]. split; [unfold full_triangle_incr; rewrite Ex; exact Er|].
  destruct F as [Fk Fkl Fv Fo Fd Fvd Fog Fdg F0 F1 F2 F3]. destruct Fr as [Gk Gkl Gv Go Gd Gvd Gog Gdg G0 G1 G2 G3].
  split; [constructor; congruence|]. intros i c o Hi Hcc Ho.
  assert (Kp : forall d, (d <= ax3 (values l))%nat -> diff_kept x o d = true).
  { intros d Hd. unfold diff_kept. destruct (_ =? 1)%nat; [reflexivity|]. cbn [orb]. rewrite Bool.negb_true_iff. apply Z.ltb_ge. rewrite Xvd. eapply month_le_ult; [exact Wx|exact Xd|lia|lia]. }
  assert (Ra : forall d, (d <= ax3 (values l))%nat -> amount r i c o d = match d with O => amount x i c o 0 | S d' => amount x i c o d - amount x i c o d' end%Qc).
  { intros d Hd. unfold amount at 1. rewrite Rc by (unfold in_range; rewrite X0, X1, X2, X3; lia). destruct d as [|d]; [reflexivity|]. rewrite Kp by auto. rewrite nz_n2n. reflexivity. }
  assert (Rs : forall d, (d <= ax3 (values l))%nat -> sumn (S d) (fun k => amount r i c o k) = amount x i c o d).
  { induction d as [|d IH]; intros Hd.
    - cbn [sumn]. rewrite Ra by lia. ring.
    - change (sumn (S (S d)) (fun k => amount r i c o k)) with (sumn (S d) (fun k => amount r i c o k) + amount r i c o (S d))%Qc. rewrite IH, Ra by lia. ring. }
  split; [|exact Rs]. intros d Hd. destruct (Xc i c o ltac:(congruence) ltac:(congruence) ltac:(congruence)) as (Y1 & _).
  destruct (LA o ltac:(congruence)) as [La Lm]. pose proof (pf_len _ _ (ci_mi _ _ _ _ CI) (ci_pf _ _ _ _ CI)) as Hm.
  assert (Ya : forall k, (k <= lat o)%nat -> amount x i c o k = sumn (S k) (fun j => amount s i c o j)).
  { intros k Hk. unfold amount at 1. rewrite (stores_nz _ _ (Y1 k Hk)). unfold amount at 1. rewrite incr_to_cum_cell by (auto; try congruence; lia).
    assert (Km : month_of s o k <= vdate s).
    { rewrite <- Fvd, <- Lm. rewrite (month_same_frame s (incr_to_cum s)) by (constructor; auto). destruct (Nat.eq_dec k (lat o)) as [->|]; [lia|]. apply Z.lt_le_incl. apply month_strict; auto; lia. }
    destruct (Z.ltb_spec (vdate s) (month_of s o k)); [lia|]. cbn [negb]. rewrite Bool.orb_true_r. rewrite nz_n2n. reflexivity. }
  rewrite Ra by lia. destruct d as [|d].
  - rewrite Ya by lia. cbn [sumn]. ring.
  - rewrite !Ya by lia. change (sumn (S (S d)) (fun j => amount s i c o j)) with (sumn (S d) (fun j => amount s i c o j) + amount s i c o (S d))%Qc. ring.
Qed.

(** ** Scaling *)
Lemma method_input_scaled (k : nat -> nat -> Qc) t t' : same_frame t t' ->
  (forall i c o d, in_range t i c o d -> cel t' i c o d = option_map (fun q => k i c * q)%Qc (cel t i c o d)) ->
  method_input t -> is_pattern t' = false -> is_cumulative t' = Some true -> method_input t'.
Proof.
  intros S V MI Hp Hc. assert (M' : forall o d, month_of t' o d = month_of t o d) by (intros; apply month_same_frame; auto). constructor; auto.
  - apply (wf_same_frame t t'); auto. apply MI.
  - intros i c o d R Fu. destruct R as (R0 & R1 & R2 & R3). rewrite (sf_0 _ _ S), (sf_1 _ _ S), (sf_2 _ _ S), (sf_3 _ _ S) in *.
    rewrite V by (unfold in_range; auto). rewrite (mi_blank _ MI i c o d); [reflexivity|unfold in_range; auto|]. unfold future in *. rewrite <- (sf_vd _ _ S), <- M'. auto.
  - destruct (mi_diag _ MI) as [D1 D2]. split.
    + intros o Ho. rewrite (sf_2 _ _ S) in Ho. destruct (D1 o Ho) as (d & Hd & E). exists d. rewrite (sf_3 _ _ S), (sf_vd _ _ S), M'. auto.
    + rewrite (sf_3 _ _ S). eapply evenly_ext; [|exact D2]. intros x Hx. cbv beta. rewrite (sf_2 _ _ S), (sf_vd _ _ S).
      split; intros (o & Ho & E); exists o; rewrite M' in *; auto.
  - rewrite (sf_0 _ _ S). apply MI.
  - rewrite (sf_1 _ _ S). apply MI.
Qed.
Lemma scale_runoff (k : nat -> nat -> Qc) t t' l l' u u' lat :
  same_frame t t' -> (forall i c, 0 < k i c)%Qc ->
  (forall i c o d, in_range t i c o d -> cel t' i c o d = option_map (fun q => k i c * q)%Qc (cel t i c o d)) ->
  is_pattern t' = false -> is_cumulative t' = Some true -> runoff_input t l u lat ->
  (forall i c, (i < ax0 (values t))%nat -> (c < ax1 (values t))%nat -> factors_present l i c) ->
  pattern_for t' l' -> ddims l' = ddims l ->
  (forall i c d, (i < ax0 (values t))%nat -> (c < ax1 (values t))%nat -> (d < ax3 (values l))%nat -> cel l' i c 0%nat d = cel l i c 0%nat d) ->
  ultimate_frame t' u' ->
  (forall i c o, (i < ax0 (values t))%nat -> (c < ax1 (values t))%nat -> (o < ax2 (values t))%nat -> amount u' i c o 0 = k i c * amount u i c o 0)%Qc ->
  exists r r', full_triangle t l u = Ok r /\ full_triangle t' l' u' = Ok r' /\
    forall i c o d, (i < ax0 (values t))%nat -> (c < ax1 (values t))%nat -> (o < ax2 (values t))%nat -> (d <= ax3 (values l))%nat ->
      amount r' i c o d = (k i c * amount r i c o d)%Qc.
Proof.
  intros S K V Hp Hc CI FP PF' Dl Fl UF' Ua. pose proof CI as [MI PF UF PJ UL LA EH EA].
  pose proof (method_input_scaled k t t' S V MI Hp Hc) as MI'.
  assert (M' : forall o d, month_of t' o d = month_of t o d) by (intros; apply month_same_frame; auto).
  assert (CI' : runoff_input t' l' u' lat).
  { constructor; auto.
    - intros ages E. rewrite Dl in E. rewrite (sf_o _ _ S). apply PJ; auto.
    - destruct UL. split; [rewrite (sf_k _ _ S)|rewrite (sf_v _ _ S)]; auto.
    - intros o Ho. rewrite (sf_2 _ _ S) in Ho. rewrite (sf_3 _ _ S), (sf_vd _ _ S), M'. apply LA; auto.
    - unfold enough_history. rewrite (sf_2 _ _ S). exact EH.
    - intros ages d E. rewrite Dl in E. rewrite (sf_dg _ _ S). apply EA; auto. }
  assert (A3 : ax3 (values l') = ax3 (values l)) by (rewrite (wf_d _ (pf_wf _ _ PF')), (wf_d _ (pf_wf _ _ PF)), Dl; reflexivity).
  destruct (full_triangle_ok t l u lat CI) as (r & Er & _ & _ & Rc). destruct (full_triangle_ok t' l' u' lat CI') as (r' & Er' & _ & _ & Rc').
  exists r, r'. split; [exact Er|]. split; [exact Er'|]. intros i c o d Hi Hcc Ho Hd.
  assert (At : forall e, (e < ax3 (values t))%nat -> amount t' i c o e = (k i c * amount t i c o e)%Qc).
  { intros e He. unfold amount. rewrite V by (repeat split; auto). destruct (cel t i c o e); cbn [option_map nz]; ring. }
  destruct (LA o Ho) as [La _]. destruct (Rc i c o Hi Hcc Ho) as (R1 & R2). destruct (Rc' i c o) as (R1' & R2'); [rewrite (sf_0 _ _ S); auto|rewrite (sf_1 _ _ S); auto|rewrite (sf_2 _ _ S); auto|].
  destruct (Nat.le_gt_cases d (lat o)) as [L|L].
  - unfold amount at 1 2. rewrite (stores_nz _ _ (R1 d L)), (stores_nz _ _ (R1' d L)). apply At. lia.
  - assert (Tu : to_ultimate l' i c (lat o) = to_ultimate l i c (lat o)) by (unfold to_ultimate; rewrite A3; apply prodn_ext; intros; rewrite Fl by (auto; lia); reflexivity).
    assert (Em : emerged l' i c (lat o) d = emerged l i c (lat o) d).
    { unfold emerged. rewrite Tu. do 2 f_equal. unfold growth. apply prodn_ext; intros; rewrite Fl by (auto; lia); reflexivity. }
    assert (FP' : factors_present l' i c) by (intros e He; rewrite Fl by (auto; lia); apply FP; auto; lia).
    unfold amount at 1 2. rewrite (stores_nz _ _ (R2 (FP i c Hi Hcc) d ltac:(lia))), (stores_nz _ _ (R2' FP' d ltac:(lia))). rewrite Tu, Em, Ua, (At (lat o) La) by auto.
    specialize (K i c). assert (Kn : k i c <> 0%Qc) by (intros E; rewrite E in K; discriminate).
    destruct (Qc_eqb_spec (amount u i c o 0) 0%Qc) as [Z|Z]; destruct (Qc_eqb_spec (k i c * amount u i c o 0)%Qc 0%Qc) as [Z'|Z'].
    + reflexivity.
    + destruct Z'. rewrite Z. ring.
    + apply Qcmult_integral in Z'. destruct Z'; contradiction.
    + destruct (Qc_eqb (to_ultimate l i c (lat o)) 1); ring.
Qed.
