(** Order of keys, grouping of index rows. *)
From Coq Require Import Lia Sorted Permutation OrderedTypeEx.
From Verif Require Import SpecPandas P_Align3 P_Core DevFacts.
Local Open Scope Z_scope.

(** * Order *)

Lemma scmp_refl s : String.compare s s = Eq.
Proof. apply String_as_OT.cmp_eq. reflexivity. Qed.
Lemma scmp_trans a b c : String.compare a b = Lt -> String.compare b c = Lt -> String.compare a c = Lt.
Proof. intros H1 H2. apply String_as_OT.cmp_lt in H1, H2. apply String_as_OT.cmp_lt. eapply String_as_OT.lt_trans; eauto. Qed.
Lemma scmp_gt a b : String.compare a b = Gt -> String.compare b a = Lt.
Proof. intros H. rewrite String.compare_antisym, H. reflexivity. Qed.
Lemma scmp_lt_irrefl a : String.compare a a <> Lt.
Proof. rewrite scmp_refl. discriminate. Qed.

Lemma key_lt_irrefl a : ~ key_lt a a.
Proof. induction a as [|x a IH]; cbn; auto. intros [H|[_ H]]; [exact (scmp_lt_irrefl _ H)|auto]. Qed.
Lemma key_lt_trans a : forall b c, key_lt a b -> key_lt b c -> key_lt a c.
Proof.
  induction a as [|x a IH]; intros [|y b] [|z c]; cbn; try tauto.
  intros [H|[<- H]] [K|[<- K]]; auto.
  - left. eapply scmp_trans; eauto.
  - right. split; auto. eapply IH; eauto.
Qed.
Lemma key_leb_le a : forall b, key_leb a b = true <-> key_le a b.
Proof.
  unfold key_le. induction a as [|x a IH]; intros [|y b]; cbn.
  - split; auto.
  - split; auto.
  - split; [discriminate|]. intros [H|[]]; discriminate.
  - destruct (String.compare x y) eqn:E.
    + apply String.compare_eq_iff in E. subst y. rewrite IH. split.
      * intros [->|H]; auto.
      * intros [H|[H|[_ H]]]; [injection H; auto|try rewrite scmp_refl in H; discriminate|auto].
    + split; auto.
    + split; [discriminate|]. intros [H|[H|[H _]]]; [injection H as -> _; rewrite scmp_refl in E; discriminate|congruence|subst; rewrite scmp_refl in E; discriminate].
Qed.
Lemma key_total a : forall b, a = b \/ key_lt a b \/ key_lt b a.
Proof.
  induction a as [|x a IH]; intros [|y b]; cbn; auto.
  destruct (String.compare x y) eqn:E.
  - apply String.compare_eq_iff in E. subst y. destruct (IH b) as [->|[H|H]]; auto.
  - auto.
  - apply scmp_gt in E. auto.
Qed.
Lemma key_leb_gt a b : key_leb a b = false -> key_lt b a.
Proof.
  intros H. destruct (key_total a b) as [E|[E|E]]; auto; exfalso;
    assert (key_leb a b = true) by (apply key_leb_le; unfold key_le; auto); congruence.
Qed.

(** * Group keys *)

Lemma key_insert_In k l x : In x (key_insert k l) <-> x = k \/ In x l.
Proof.
  induction l as [|y l IH]; cbn; [intuition|]. destruct (strs_eqb k y) eqn:E.
  - apply strs_eqb_eq in E. subst y. cbn. intuition.
  - destruct (key_leb k y); cbn; [intuition|]. rewrite IH. intuition.
Qed.
Lemma key_insert_sorted k l : StronglySorted key_lt l -> StronglySorted key_lt (key_insert k l).
Proof.
  induction 1 as [|y l Hl IH Hy]; cbn; [repeat constructor|]. destruct (strs_eqb k y) eqn:E; [constructor; auto|].
  destruct (key_leb k y) eqn:L.
  - apply key_leb_le in L. destruct L as [->|L]; [rewrite strs_eqb_refl in E; discriminate|].
    constructor; [constructor; auto|]. constructor; auto. eapply Forall_impl; [|exact Hy]. intros z. apply key_lt_trans. auto.
  - constructor; auto. apply Forall_forall. intros z Hz. apply key_insert_In in Hz. destruct Hz as [->|Hz]; [apply key_leb_gt; auto|].
    rewrite Forall_forall in Hy. auto.
Qed.
Lemma group_index_In keys x : In x (group_index keys) <-> In x keys.
Proof. induction keys as [|k keys IH]; cbn; [tauto|]. rewrite key_insert_In, IH. intuition. Qed.
Lemma group_index_sorted keys : StronglySorted key_lt (group_index keys).
Proof. induction keys as [|k keys IH]; cbn; [constructor|]. apply key_insert_sorted; auto. Qed.

Lemma key_sorted_ext l m : StronglySorted key_lt l -> StronglySorted key_lt m -> (forall x, In x l <-> In x m) -> l = m.
Proof.
  intros Hl. revert m. induction Hl as [|x l Hl IH Hx]; intros m Hm H.
  - destruct m as [|y m]; auto. exfalso. destruct (proj2 (H y)); left; auto.
  - destruct Hm as [|y m Hm Hy]; [exfalso; destruct (proj1 (H x)); left; auto|].
    rewrite Forall_forall in Hx, Hy.
    assert (x = y).
    { destruct (proj1 (H x) (or_introl eq_refl)) as [E|E]; auto. destruct (proj2 (H y) (or_introl eq_refl)) as [F|F]; auto.
      exfalso. apply (key_lt_irrefl x). eapply key_lt_trans; [apply Hx; exact F|apply Hy; exact E]. }
    subst y. f_equal. apply IH; auto. intros z. split; intros Hz.
    + destruct (proj1 (H z) (or_intror Hz)) as [<-|]; auto. exfalso. exact (key_lt_irrefl _ (Hx _ Hz)).
    + destruct (proj2 (H z) (or_intror Hz)) as [<-|]; auto. exfalso. exact (key_lt_irrefl _ (Hy _ Hz)).
Qed.
Lemma key_sorted_NoDup l : StronglySorted key_lt l -> NoDup l.
Proof.
  induction 1 as [|x l Hl IH Hx]; constructor; auto. intros H. rewrite Forall_forall in Hx. exact (key_lt_irrefl _ (Hx _ H)).
Qed.

(** * Sums over a selection *)

Lemma sum_filter n (P : nat -> bool) (f : nat -> Qc) :
  sumn (List.length (filter P (seq 0 n))) (fun k => f (nth k (filter P (seq 0 n)) 0%nat)) = sumn n (fun i => if P i then f i else 0%Qc).
Proof.
  induction n as [|n IH]; [reflexivity|]. rewrite seq_S, filter_app, app_length. cbn [sumn]. rewrite <- IH. cbn [filter plus].
  destruct (P n) eqn:E; cbn [List.length].
  - rewrite sumn_app. f_equal; [apply sumn_ext; intros k Hk; rewrite app_nth1 by auto; reflexivity|].
    cbn [sumn]. rewrite app_nth2, Nat.add_0_r, Nat.sub_diag by lia. cbn. ring.
  - rewrite Nat.add_0_r, app_nil_r. ring.
Qed.

Lemma members_spec keys g i : In i (members keys g) <-> (i < List.length keys)%nat /\ nth i keys [] = g.
Proof.
  unfold members. rewrite filter_In, in_seq, strs_eqb_eq. intuition lia.
Qed.
Lemma members_NoDup keys g : NoDup (members keys g).
Proof. apply NoDup_filter, seq_NoDup. Qed.

(** * Grouping *)

Lemma fold_add_In l : forall acc x, In x (fold_left (fun acc c => if mem_str c acc then acc else acc ++ [c]) l acc) -> In x acc \/ In x l.
Proof.
  induction l as [|y l IH]; intros acc x H; cbn in H; auto. apply IH in H. destruct H as [H|H]; [|cbn; auto].
  destruct (mem_str y acc); auto. apply in_app_iff in H. destruct H as [H|[<-|[]]]; cbn; auto.
Qed.
Lemma union_cols_In objs x : In x (union_cols objs) -> exists t, In t objs /\ In x (vdims t).
Proof.
  unfold union_cols. assert (G : forall acc, In x (fold_left (fun acc t => fold_left (fun acc c => if mem_str c acc then acc else acc ++ [c]) (vdims t) acc) objs acc) ->
     In x acc \/ exists t, In t objs /\ In x (vdims t)).
  { induction objs as [|t objs IH]; intros acc H; cbn in H; auto. apply IH in H. destruct H as [H|(u & Hu & H)].
    - apply fold_add_In in H. destruct H as [H|H]; auto. right. exists t. cbn; auto.
    - right. exists u. cbn; auto. }
  intros H. destruct (G _ H) as [[]|]; auto.
Qed.
Lemma fill_cols_id cols t : (forall x, In x cols -> In x (vdims t)) -> fill_cols cols t = t.
Proof.
  unfold fill_cols. induction cols as [|x cols IH]; intros H; auto. cbn [fold_left].
  rewrite (proj2 (mem_str_In x (vdims t))) by (apply H; left; auto). apply IH. intros; apply H; right; auto.
Qed.
Lemma fill_same objs v : (forall t, In t objs -> vdims t = v) -> map (fill_cols (union_cols objs)) objs = objs.
Proof.
  intros H. rewrite <- (map_id objs) at 3. apply map_ext_in. intros t Ht. apply fill_cols_id. intros x Hx.
  apply union_cols_In in Hx. destruct Hx as (u & Hu & Hx). rewrite (H _ Hu) in Hx. rewrite (H _ Ht). auto.
Qed.
Lemma Zs_eqb_refl l : Zs_eqb l l = true.
Proof. induction l; cbn; auto. rewrite Z.eqb_refl. auto. Qed.
Lemma ddim_eqb_refl d : ddim_eqb d d = true.
Proof. destruct d; cbn; apply Zs_eqb_refl. Qed.
Lemma suml_ones {A} (f : A -> nat) l : (forall x, In x l -> f x = 1%nat) -> suml (map f l) = List.length l.
Proof. induction l as [|x l IH]; intros H; auto. cbn [map suml List.length]. rewrite IH by (intros; apply H; right; auto). rewrite (H x (or_introl eq_refl)). reflexivity. Qed.

Record group_part (C : list string -> nat -> nat -> nat -> cell -> Prop) (t : tri) (g : list string) (s : tri) : Prop := {
  gp_0 : ax0 (values s) = 1%nat; gp_1 : ax1 (values s) = ax1 (values t);
  gp_2 : ax2 (values s) = ax2 (values t); gp_3 : ax3 (values s) = ax3 (values t);
  gp_v : vdims s = vdims t; gp_o : odims s = odims t; gp_d : ddims s = ddims t;
  gp_cum : is_cumulative s = is_cumulative t; gp_pat : is_pattern s = is_pattern t;
  gp_og : ograin s = ograin t; gp_dg : dgrain s = dgrain t;
  gp_fut : forall o d, (o < ax2 (values t))%nat -> (d < ax3 (values t))%nat -> (vdate s <? month_of t o d) = (vdate t <? month_of t o d);
  gp_cell : forall c o d, (c < ax1 (values t))%nat -> (o < ax2 (values t))%nat -> (d < ax3 (values t))%nat -> C g c o d (cel s 0 c o d) }.

Lemma sum_index_part t keys g : wf t -> List.length keys = ax0 (values t) -> In g keys ->
  exists s, (do s <- iloc_rows t (members keys g); Ok (sum_axis s AxIndex)) = Ok s /\ group_part (fun g c o d x => stores x (group_total t keys g c o d)) t g s.
Proof.
  intros W L Hg.
  assert (R : forall x, In x (members keys g) -> (x < List.length (kdims t))%nat).
  { intros x Hx. apply members_spec in Hx. rewrite <- (wf_k _ W), <- L. apply Hx. }
  assert (N : members keys g <> []).
  { destruct (In_nth _ _ [] Hg) as (i & Hi & E). intros F. assert (In i (members keys g)) by (apply members_spec; auto). rewrite F in H. destruct H. }
  destruct (iloc_rows_ok t (members keys g) W (members_NoDup _ _) N R) as (s & -> & P). cbn [rbind].
  exists (sum_axis s AxIndex). split; [reflexivity|].
  assert (Ev : values (sum_axis s AxIndex) = map_arr n2n (nansum_axis 0 (values s))).
  { unfold sum_axis. cbn [axis_num]. destruct (1 <? _)%nat; reflexivity. }
  constructor; try (rewrite Ev; cbn; apply P); try (unfold sum_axis; destruct (1 <? _)%nat; cbn; apply P).
  - rewrite Ev. reflexivity.
  - rewrite Ev. cbn. rewrite (pk_1 _ _ _ _ P), seq_length. reflexivity.
  - unfold sum_axis. destruct (1 <? _)%nat; cbn; rewrite (pk_v _ _ _ _ P), (wf_v _ W); apply sel_seq_all; auto.
  - intros c o d Hc Ho Hd. unfold cel. rewrite Ev. cbn [map_arr nansum_axis av]. unfold nansum. rewrite (pk_0 _ _ _ _ P).
    replace (group_total t keys g c o d) with (sumn (List.length (members keys g)) (fun k => nz (av (values s) k c o d))); [apply stores_n2n|].
    unfold group_total. rewrite <- L.
    transitivity (sumn (List.length (members keys g)) (fun k => amount t (nth k (members keys g) 0%nat) c o d)).
    + apply sumn_ext. intros k Hk. fold (cel s k c o d). rewrite (pk_c _ _ _ _ P) by auto. rewrite seq_nth by auto. reflexivity.
    + unfold members. rewrite (sum_filter _ _ (fun i => amount t i c o d)). apply sumn_ext. intros i Hi. destruct (key_dec (nth i keys []) g) as [->|E].
      * rewrite strs_eqb_refl. reflexivity.
      * destruct (strs_eqb (nth i keys []) g) eqn:F; auto. apply strs_eqb_eq in F. contradiction.
Qed.

Lemma groupby_gen part C t keys labels : (1 <= List.length keys)%nat -> (forall g, In g keys -> exists s, part g = Ok s /\ group_part C t g s) ->
  exists u, (do parts <- mapm part (group_index keys); do r <- concat_ignore parts; Ok (set_keys r (group_index keys) labels)) = Ok u /\
    (forall g, In g (kdims u) <-> In g keys) /\ StronglySorted key_lt (kdims u) /\ key_labels u = labels /\ ax0 (values u) = List.length (kdims u) /\ same_but_rows t u /\
    (forall p c o d, in_range u p c o d -> C (nth p (kdims u) []) c o d (cel u p c o d)).
Proof.
  intros L H.
  destruct (mapm_Forall2 part (group_part C t) (group_index keys)) as (parts & -> & F).
  { intros g Hg. apply H. apply group_index_In. exact Hg. }
  clear H. cbn [rbind].
  assert (Pv : forall s, In s parts -> exists g, group_part C t g s).
  { clear - F. induction F as [|g s gs ss H F IH]; intros x []; [subst; eauto|auto]. }
  assert (Lp : List.length parts = List.length (group_index keys)) by (clear - F; induction F; cbn; congruence).
  assert (Ln : (1 <= List.length (group_index keys))%nat).
  { destruct keys as [|k keys]; [cbn in L; lia|]. destruct (group_index (k :: keys)) eqn:E; [|cbn; lia].
    assert (In k (group_index (k :: keys))) by (apply group_index_In; left; auto). rewrite E in H. destruct H. }
  unfold concat_ignore. rewrite (fill_same parts (vdims t)) by (intros s Hs; destruct (Pv s Hs) as (g & P); apply P).
  destruct parts as [|t0 rest]; [cbn in Lp; lia|].
  assert (Hc : forallb (fun s => Zs_eqb (odims s) (odims t0)) rest && forallb (fun s => ddim_eqb (ddims s) (ddims t0)) rest = true).
  { destruct (Pv t0 (or_introl eq_refl)) as (g0 & P0). apply andb_true_iff. split; apply forallb_all; intros s Hs; destruct (Pv s (or_intror Hs)) as (g & P).
    - rewrite (gp_o _ _ _ _ P), (gp_o _ _ _ _ P0). apply Zs_eqb_refl.
    - rewrite (gp_d _ _ _ _ P), (gp_d _ _ _ _ P0). apply ddim_eqb_refl. }
  rewrite Hc. cbn [negb].
  destruct (cat_all_ok 0 ltac:(lia) (map values rest) (values t0)) as (r & -> & Fr & Ar & Cr).
  { intros b Hb. apply in_map_iff in Hb. destruct Hb as (s & <- & Hs). destruct (Pv t0 (or_introl eq_refl)) as (g0 & P0). destruct (Pv s (or_intror Hs)) as (g & P).
    intros j Hj Hj0. destruct j as [|[|[|[|j]]]]; try lia; cbn [axn].
    - rewrite (gp_1 _ _ _ _ P), (gp_1 _ _ _ _ P0). auto.
    - rewrite (gp_2 _ _ _ _ P), (gp_2 _ _ _ _ P0). auto.
    - rewrite (gp_3 _ _ _ _ P), (gp_3 _ _ _ _ P0). auto. }
  cbn [rbind]. eexists. split; [reflexivity|].
  destruct (Pv t0 (or_introl eq_refl)) as (g0 & P0).
  assert (R0 : ax0 r = List.length (group_index keys)).
  { change (ax0 r) with (axn 0 r). rewrite Ar. rewrite <- Lp. change (values t0 :: map values rest) with (map values (t0 :: rest)).
    rewrite map_map. apply suml_ones. intros s Hs. destruct (Pv s Hs) as (g & P). apply P. }
  assert (R1 : ax1 r = ax1 (values t)) by (rewrite <- (gp_1 _ _ _ _ P0); apply (Fr 1%nat); lia).
  assert (R2 : ax2 r = ax2 (values t)) by (rewrite <- (gp_2 _ _ _ _ P0); apply (Fr 2%nat); lia).
  assert (R3 : ax3 r = ax3 (values t)) by (rewrite <- (gp_3 _ _ _ _ P0); apply (Fr 3%nat); lia).
  repeat match goal with |- _ /\ _ => split end; cbn [kdims key_labels values set_keys set_vdate set_values].
  - apply group_index_In.
  - apply group_index_sorted.
  - reflexivity.
  - auto.
  - constructor; cbn; auto; try (apply P0).
    intros o d Ho Hd. unfold future.
    assert (Em : forall v z, month_of (set_keys (set_vdate (set_values (set_keys t0 v ["Index"%string]) r) z) (group_index keys) labels) o d = month_of t o d).
    { intros v z. unfold month_of. cbn. rewrite (gp_d _ _ _ _ P0), (gp_o _ _ _ _ P0). reflexivity. }
    rewrite Em. cbn. destruct (zmaxl_in (map vdate rest) (vdate t0)) as [E|E].
    + rewrite <- E. pose proof (gp_fut _ _ _ _ P0 o d Ho Hd) as Q. rewrite <- !Z.ltb_lt, Q. tauto.
    + apply in_map_iff in E. destruct E as (s & E & Hs). rewrite <- E. destruct (Pv s (or_intror Hs)) as (g & P).
      pose proof (gp_fut _ _ _ _ P o d Ho Hd) as Q. rewrite <- !Z.ltb_lt, Q. tauto.
  - intros p c o d (Hp & Hc' & Ho & Hd). cbn in Hp, Hc', Ho, Hd. rewrite R0 in Hp. rewrite R1 in Hc'. rewrite R2 in Ho. rewrite R3 in Hd.
    unfold cel. cbn [values set_keys set_vdate set_values].
    set (b := nth p (t0 :: rest) t0).
    assert (Pb : group_part C t (nth p (group_index keys) []) b).
    { unfold b. clear - F Hp. revert p Hp. generalize t0 at 2. induction F as [|g s gs ss H F IH]; intros dd p Hp; [cbn in Hp; lia|]. destruct p; cbn in *; auto. apply IH. lia. }
    rewrite <- Lp in Hp. destruct (nth_split (t0 :: rest) t0 Hp) as (pre & post & Es & El). fold b in Es.
    assert (Cb : av r p c o d = av (values b) 0 c o d).
    { pose proof (Cr (map values pre) (values b) (map values post) 0%nat c o d) as X. cbn [avk coord axn] in X. rewrite map_map in X.
      rewrite (suml_ones (fun s => ax0 (values s))) in X.
      - rewrite El, Nat.add_0_r in X. apply X; [change (values t0 :: map values rest) with (map values (t0 :: rest)); rewrite Es, map_app; reflexivity|rewrite (gp_0 _ _ _ _ Pb); lia].
      - intros s Hs. destruct (Pv s) as (g & P); [rewrite Es; apply in_or_app; left; auto|apply P]. }
    rewrite Cb. apply Pb; auto.
Qed.
Lemma groupby_ok t keys labels : wf t -> (1 <= ax0 (values t))%nat -> List.length keys = ax0 (values t) ->
  exists u, groupby_sum keys labels t = Ok u /\ grouped t keys labels u.
Proof.
  intros W A0 L. unfold groupby_sum.
  destruct (groupby_gen (fun g => do s <- iloc_rows t (members keys g); Ok (sum_axis s AxIndex)) _ t keys labels ltac:(lia) (fun g Hg => sum_index_part t keys g W L Hg))
    as (u & E & H1 & H2 & H3 & H4 & H5 & H6).
  exists u. split; [exact E|]. constructor; auto.
Qed.

(** Adding the groups up gives the sum over all rows. *)
Lemma grouped_total t keys labels u c o d : List.length keys = ax0 (values t) -> grouped t keys labels u ->
  (c < ax1 (values t))%nat -> (o < ax2 (values t))%nat -> (d < ax3 (values t))%nat ->
  sumn (ax0 (values u)) (fun p => amount u p c o d) = sumn (ax0 (values t)) (fun i => amount t i c o d).
Proof.
  intros L G Hc Ho Hd. pose proof (gr_frame _ _ _ _ G) as S. rewrite (gr_0 _ _ _ _ G).
  transitivity (sumn (List.length (kdims u)) (fun p => group_total t keys (nth p (kdims u) []) c o d)).
  - apply sumn_ext. intros p Hp. apply stores_nz. apply G. repeat split; [rewrite (gr_0 _ _ _ _ G); auto|rewrite (sb_1 _ _ S); auto|rewrite (sb_2 _ _ S); auto|rewrite (sb_3 _ _ S); auto].
  - unfold group_total. rewrite sumn_swap. apply sumn_ext. intros i Hi.
    assert (I : In (nth i keys []) (kdims u)) by (apply (gr_rows _ _ _ _ G), nth_In; lia).
    destruct (In_nth _ _ [] I) as (p & Hp & Ep). rewrite (sumn_single _ p); auto.
    + destruct (key_dec (nth i keys []) (nth p (kdims u) [])); congruence.
    + intros q Hq Hn. destruct (key_dec (nth i keys []) (nth q (kdims u) [])) as [E|]; auto. exfalso. apply Hn.
      apply (proj1 (NoDup_nth (kdims u) []) (key_sorted_NoDup _ (gr_sorted _ _ _ _ G))); congruence.
Qed.

Lemma sumn_perm n p f : Permutation p (seq 0 n) -> sumn n (fun i => f (nth i p 0%nat)) = sumn n f.
Proof.
  intros P. assert (E : forall l, sumn (List.length l) (fun i => f (nth i l 0%nat)) = qsum (map f l)).
  { induction l as [|x l IH]; [reflexivity|]. cbn [List.length map qsum fold_right]. rewrite sumn_S_l. cbn [nth]. rewrite IH. reflexivity. }
  assert (Q : forall a b, Permutation a b -> qsum (map f a) = qsum (map f b)).
  { intros a b Q. unfold qsum. induction Q; cbn [map fold_right]; [reflexivity|congruence|ring|congruence]. }
  pose proof (Permutation_length P) as L. rewrite seq_length in L. rewrite <- L at 1. rewrite E, (Q _ _ P), <- E, seq_length.
  apply sumn_ext. intros i Hi. rewrite seq_nth by auto. reflexivity.
Qed.
(** The order of the rows does not matter. *)
Lemma grouped_order t t' keys keys' labels p u u' : List.length keys = ax0 (values t) ->
  Permutation p (seq 0 (ax0 (values t))) -> keys' = map (fun i => nth i keys []) p -> same_but_rows t t' -> ax0 (values t') = ax0 (values t) ->
  (forall i c o d, in_range t i c o d -> cel t' i c o d = cel t (nth i p 0%nat) c o d) ->
  grouped t keys labels u -> grouped t' keys' labels u' ->
  kdims u' = kdims u /\ key_labels u' = key_labels u /\ same_but_rows u u' /\
  forall i c o d, in_range u i c o d -> cel u' i c o d = cel u i c o d.
Proof.
  intros L P -> S A0 C G G'.
  assert (Pl : List.length p = ax0 (values t)) by (pose proof (Permutation_length P) as X; rewrite seq_length in X; auto).
  assert (K : kdims u' = kdims u).
  { apply key_sorted_ext; [apply G'|apply G|]. intros x. rewrite (gr_rows _ _ _ _ G), (gr_rows _ _ _ _ G'). rewrite in_map_iff. split.
    - intros (i & <- & Hi). apply nth_In. apply (Permutation_in _ P), in_seq in Hi. lia.
    - intros H. destruct (In_nth _ _ [] H) as (i & Hi & <-). exists i. split; auto. apply (Permutation_in _ (Permutation_sym P)), in_seq. lia. }
  pose proof (gr_frame _ _ _ _ G) as F. pose proof (gr_frame _ _ _ _ G') as F'.
  split; [auto|]. split; [rewrite (gr_labels _ _ _ _ G), (gr_labels _ _ _ _ G'); auto|]. split.
  - constructor;
      try (rewrite (sb_v _ _ F'), (sb_v _ _ F); apply S); try (rewrite (sb_o _ _ F'), (sb_o _ _ F); apply S); try (rewrite (sb_d _ _ F'), (sb_d _ _ F); apply S);
      try (rewrite (sb_cum _ _ F'), (sb_cum _ _ F); apply S); try (rewrite (sb_pat _ _ F'), (sb_pat _ _ F); apply S);
      try (rewrite (sb_og _ _ F'), (sb_og _ _ F); apply S); try (rewrite (sb_dg _ _ F'), (sb_dg _ _ F); apply S);
      try (rewrite (sb_1 _ _ F'), (sb_1 _ _ F); apply S); try (rewrite (sb_2 _ _ F'), (sb_2 _ _ F); apply S); try (rewrite (sb_3 _ _ F'), (sb_3 _ _ F); apply S).
    intros o d Ho Hd. rewrite (sb_2 _ _ F) in Ho. rewrite (sb_3 _ _ F) in Hd.
    rewrite (sb_fut _ _ F) by auto. rewrite (sb_fut _ _ F') by (rewrite ?(sb_2 _ _ S), ?(sb_3 _ _ S); auto). apply S; auto.
  - intros i c o d (Hi & Hc & Ho & Hd). rewrite (gr_0 _ _ _ _ G) in Hi. rewrite (sb_1 _ _ F) in Hc. rewrite (sb_2 _ _ F) in Ho. rewrite (sb_3 _ _ F) in Hd.
    assert (T : group_total t' (map (fun i => nth i keys []) p) (nth i (kdims u) []) c o d = group_total t keys (nth i (kdims u) []) c o d).
    { unfold group_total. rewrite A0. rewrite <- (sumn_perm _ p (fun k => if key_dec (nth k keys []) (nth i (kdims u) []) then amount t k c o d else 0%Qc) P). apply sumn_ext. intros k Hk.
      replace (nth k (map (fun i => nth i keys []) p) []) with (nth (nth k p 0%nat) keys []).
      2:{ rewrite (nth_indep (map _ p)) with (d' := nth 0%nat keys []) by (rewrite map_length; lia). rewrite (map_nth (fun i => nth i keys [])). reflexivity. }
      unfold amount. rewrite C by (repeat split; auto). reflexivity. }
    assert (X : stores (cel u i c o d) (group_total t keys (nth i (kdims u) []) c o d)).
    { apply G. repeat split; rewrite ?(gr_0 _ _ _ _ G), ?(sb_1 _ _ F), ?(sb_2 _ _ F), ?(sb_3 _ _ F); auto. }
    assert (Y : stores (cel u' i c o d) (group_total t keys (nth i (kdims u) []) c o d)).
    { rewrite <- T, <- K. apply G'. repeat split; rewrite ?(gr_0 _ _ _ _ G'), ?(sb_1 _ _ F'), ?(sb_2 _ _ F'), ?(sb_3 _ _ F'), ?(sb_1 _ _ S), ?(sb_2 _ _ S), ?(sb_3 _ _ S); auto. rewrite K; auto. }
    destruct X as (X1 & X2), Y as (Y1 & Y2). destruct (Qc_eq_dec (group_total t keys (nth i (kdims u) []) c o d) 0%Qc) as [E|E]; [rewrite X1, Y1; auto|rewrite X2, Y2; auto].
Qed.
