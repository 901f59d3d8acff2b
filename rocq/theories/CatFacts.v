(** Concatenation of any number of triangles. *)
From Coq Require Import Lia Sorted Permutation.
From Verif Require Export P_Align2.
Local Open Scope Z_scope.

Lemma avk_0 k a i c o d : avk k a 0 i c o d = av a i c o d.
Proof. destruct k as [|[|[|k]]]; reflexivity. Qed.
Lemma axn_cat2 k j a b : (k < 4)%nat -> (j < 4)%nat -> axn j (cat2 k a b) = if (j =? k)%nat then (axn j a + axn j b)%nat else axn j a.
Proof. intros Hk Hj. destruct k as [|[|[|[|k]]]], j as [|[|[|[|j]]]]; try lia; reflexivity. Qed.
Lemma avk_cat2_l k a b p i c o d : (p + coord k i c o d < axn k a)%nat -> avk k (cat2 k a b) p i c o d = avk k a p i c o d.
Proof.
  destruct k as [|[|[|k]]]; cbn [avk coord axn cat2 av]; intros H;
    match goal with |- (if ?b then _ else _) = _ => destruct b eqn:E end; auto; apply Nat.ltb_ge in E; lia.
Qed.
Lemma avk_cat2_r k a b p i c o d : avk k (cat2 k a b) (axn k a + p) i c o d = avk k b p i c o d.
Proof.
  destruct k as [|[|[|k]]]; cbn [avk coord axn cat2 av];
    match goal with |- (if ?b then _ else _) = _ => destruct b eqn:E end; try (apply Nat.ltb_lt in E; lia); f_equal; lia.
Qed.

(** All pieces have the same size on the axes other than k. *)
Definition fit_others (k : nat) (a b : arr) : Prop :=
  forall j, (j < 4)%nat -> j <> k -> axn j b = axn j a.
Lemma cat_ok_fit k a b : (k < 4)%nat -> fit_others k a b -> cat_ok k a b = true.
Proof.
  intros Hk H. unfold cat_ok.
  assert (G : forall j, (j < 4)%nat -> ((k =? j)%nat || (axn j a =? axn j b)%nat)%bool = true).
  { intros j Hj. destruct (Nat.eqb_spec k j); cbn; auto. apply Nat.eqb_eq. symmetry. apply H; auto. }
  pose proof (G 0%nat ltac:(lia)) as G0. pose proof (G 1%nat ltac:(lia)) as G1. pose proof (G 2%nat ltac:(lia)) as G2. pose proof (G 3%nat ltac:(lia)) as G3.
  cbn [axn] in *. rewrite G0, G1, G2, G3. reflexivity.
Qed.

Lemma cat_all_ok k : (k < 4)%nat -> forall l a, (forall b, In b l -> fit_others k a b) ->
  exists r, cat_all k a l = Ok r /\ fit_others k a r /\ axn k r = suml (map (axn k) (a :: l)) /\
    forall pre b post i c o d, a :: l = pre ++ b :: post -> (coord k i c o d < axn k b)%nat ->
      avk k r (suml (map (axn k) pre)) i c o d = av b i c o d.
Proof.
  intros Hk. induction l as [|b l IH]; intros a H.
  - exists a. cbn [cat_all]. split; [auto|]. split; [intros j _ _; auto|]. split; [cbn; lia|].
    intros pre b post i c o d E Hb. destruct pre as [|x pre]; [|destruct pre; discriminate]. injection E as <- <-. apply avk_0.
  - destruct (IH b) as (r & Er & Fr & Ar & Cr).
    { intros x Hx j Hj Hjk. rewrite (H x (or_intror Hx)) by auto. rewrite (H b (or_introl eq_refl)) by auto. reflexivity. }
    assert (Far : fit_others k a r).
    { intros j Hj Hjk. rewrite Fr by auto. apply (H b (or_introl eq_refl)); auto. }
    exists (cat2 k a r). cbn [cat_all]. rewrite Er. cbn [rbind]. rewrite cat_ok_fit by auto. split; [auto|].
    assert (Hok := cat_ok_fit k a r Hk Far).
    split; [|split].
    + intros j Hj Hjk. rewrite axn_cat2 by auto. destruct (Nat.eqb_spec j k); [lia|auto].
    + rewrite axn_cat2 by auto. rewrite Nat.eqb_refl. cbn [map suml] in *. lia.
    + intros pre x post i c o d E Hx. destruct pre as [|p pre].
      * injection E as <- <-. cbn [map suml]. rewrite avk_cat2_l; [apply avk_0|cbn; lia].
      * injection E as <- E. cbn [map suml]. rewrite avk_cat2_r. eapply Cr; eauto.
Qed.

(** ** Filling in missing columns *)
Definition add_cols (acc l : list string) : list string :=
  fold_left (fun acc c => if mem_str c acc then acc else acc ++ [c]) l acc.
Lemma union_cols_fold objs : union_cols objs = fold_left (fun acc t => add_cols acc (vdims t)) objs [].
Proof. reflexivity. Qed.

Lemma firstn_S_nth {A} (l : list A) n d : (n < List.length l)%nat -> firstn (S n) l = firstn n l ++ [nth n l d].
Proof. revert n. induction l as [|a l IH]; intros n H; [cbn in H; lia|]. destruct n; [reflexivity|]. cbn in *. f_equal. apply IH. lia. Qed.
Lemma skipn_nth_cons {A} (l : list A) n d : (n < List.length l)%nat -> skipn n l = nth n l d :: skipn (S n) l.
Proof. revert n. induction l as [|a l IH]; intros n H; [cbn in H; lia|]. destruct n; [reflexivity|]. cbn. apply IH. cbn in H; lia. Qed.
Lemma add_cols_firstn cols m : NoDup cols -> forall j n, (j <= n <= List.length cols)%nat -> (j + m <= List.length cols)%nat ->
  add_cols (firstn n cols) (firstn m (skipn j cols)) = firstn (Nat.max n (j + m)) cols.
Proof.
  intros Hn. induction m as [|m IH]; intros j n Hj Hm.
  - cbn. f_equal. lia.
  - rewrite (skipn_nth_cons cols j EmptyString) by lia. cbn [firstn]. unfold add_cols. cbn [fold_left].
    destruct (Nat.eq_dec j n) as [->|Hne].
    + destruct (mem_str (nth n cols EmptyString) (firstn n cols)) eqn:E.
      * exfalso. apply mem_str_In in E. destruct (In_nth _ _ EmptyString E) as (i & Hi & Ei). rewrite firstn_length in Hi.
        assert (En : nth i (firstn n cols) EmptyString = nth i cols EmptyString).
        { rewrite <- (firstn_skipn n cols) at 2. rewrite app_nth1; auto. rewrite firstn_length. lia. }
        rewrite En in Ei. apply (NoDup_nth cols EmptyString) in Ei; auto; lia.
      * rewrite <- firstn_S_nth by lia. fold (add_cols (firstn (S n) cols) (firstn m (skipn (S n) cols))).
        rewrite IH by lia. f_equal. lia.
    + assert (E : mem_str (nth j cols EmptyString) (firstn n cols) = true).
      { apply mem_str_In. assert (En : nth j (firstn n cols) EmptyString = nth j cols EmptyString).
        { rewrite <- (firstn_skipn n cols) at 2. rewrite app_nth1; auto. rewrite firstn_length. lia. }
        rewrite <- En. apply nth_In. rewrite firstn_length. lia. }
      rewrite E. fold (add_cols (firstn n cols) (firstn m (skipn (S j) cols))). rewrite IH by lia. f_equal. lia.
Qed.

Lemma prefix_firstn l cols : prefix_of l cols -> l = firstn (List.length l) cols.
Proof. intros (s & ->). rewrite firstn_app, Nat.sub_diag, firstn_all. cbn. rewrite app_nil_r. reflexivity. Qed.
Lemma prefix_len l cols : prefix_of l cols -> (List.length l <= List.length cols)%nat.
Proof. intros (s & ->). rewrite app_length. lia. Qed.

Lemma union_cols_prefix objs cols : NoDup cols -> (forall t, In t objs -> prefix_of (vdims t) cols) ->
  (forall c, In c cols -> exists t, In t objs /\ In c (vdims t)) -> union_cols objs = cols.
Proof.
  intros Hn Hp Hc. rewrite union_cols_fold.
  assert (G : forall objs n, (n <= List.length cols)%nat -> (forall t, In t objs -> prefix_of (vdims t) cols) ->
    exists m, (n <= m <= List.length cols)%nat /\ fold_left (fun acc t => add_cols acc (vdims t)) objs (firstn n cols) = firstn m cols /\
      forall t, In t objs -> (List.length (vdims t) <= m)%nat).
  { clear objs Hp Hc. induction objs as [|t objs IH]; intros n Hn' Hp.
    - exists n. cbn. split; [lia|]. split; [auto|]. intros t [].
    - cbn [fold_left]. pose proof (Hp t (or_introl eq_refl)) as Pt. pose proof (prefix_len _ _ Pt).
      assert (E : add_cols (firstn n cols) (vdims t) = firstn (Nat.max n (List.length (vdims t))) cols).
      { rewrite (prefix_firstn _ _ Pt) at 1. apply (add_cols_firstn cols _ Hn 0 n); lia. }
      rewrite E. destruct (IH (Nat.max n (List.length (vdims t)))) as (m & Hm & Em & Hl); [lia|intros; apply Hp; right; auto|].
      exists m. split; [lia|]. split; [auto|]. intros x [<-|Hx]; [lia|auto]. }
  destruct (G objs 0%nat ltac:(lia) Hp) as (m & Hm & Em & Hl). change (firstn 0 cols) with (@nil string) in Em. rewrite Em.
  destruct (Nat.eq_dec m (List.length cols)) as [->|Hne]; [apply firstn_all|].
  exfalso. assert (Hlast : In (nth m cols EmptyString) cols) by (apply nth_In; lia).
  destruct (Hc _ Hlast) as (t & Ht & Hin). pose proof (Hl t Ht). rewrite (prefix_firstn _ _ (Hp t Ht)) in Hin.
  destruct (In_nth _ _ EmptyString Hin) as (i & Hi & Ei). rewrite firstn_length in Hi.
  assert (En : nth i (firstn (List.length (vdims t)) cols) EmptyString = nth i cols EmptyString).
  { rewrite <- (firstn_skipn (List.length (vdims t)) cols) at 2. rewrite app_nth1; auto. rewrite firstn_length. lia. }
  rewrite En in Ei. apply (NoDup_nth cols EmptyString) in Ei; auto; lia.
Qed.

Lemma newcols_prefix l cols : NoDup cols -> prefix_of l cols -> l ++ newcols cols l = cols.
Proof.
  intros Hn (s & ->). f_equal. unfold newcols. rewrite filter_app.
  replace (filter (fun c => negb (mem_str c l)) l) with (@nil string).
  - cbn. assert (D : forall x, In x s -> ~ In x l) by (intros x Hx Hl; exact (NoDup_app_disj _ _ _ Hn Hl Hx)). clear Hn.
    induction s as [|x s IH]; cbn; auto. destruct (mem_str x l) eqn:E; cbn [negb].
    + exfalso. apply mem_str_In in E. apply (D x); [left|]; auto.
    + f_equal. apply IH. intros y Hy. apply D; right; auto.
  - symmetry. clear Hn. assert (G : forall m, (forall x, In x m -> In x l) -> filter (fun c => negb (mem_str c l)) m = []).
    { induction m as [|x m IH]; cbn; auto. intros H. rewrite (proj2 (mem_str_In x l) (H x (or_introl eq_refl))). cbn. apply IH. intros; apply H; right; auto. }
    apply G; auto.
Qed.

(** The list of operands after missing columns are filled in. *)
Lemma fills_ok objs cols : NoDup cols -> (forall t, In t objs -> prefix_of (vdims t) cols) ->
  (forall c, In c cols -> exists t, In t objs /\ In c (vdims t)) ->
  map (fill_cols (union_cols objs)) objs = map (fill_cols cols) objs /\
  forall t, In t objs -> vdims (fill_cols cols t) = cols /\ widened t (fill_cols cols t) (List.length cols - List.length (vdims t)).
Proof.
  intros Hn Hp Hc. rewrite (union_cols_prefix objs cols) by auto. split; [auto|]. intros t Ht.
  destruct (fill_cols_widened cols t Hn) as [Ev Wd].
  pose proof (newcols_prefix _ _ Hn (Hp t Ht)) as E. split; [congruence|].
  replace (List.length cols - List.length (vdims t))%nat with (List.length (newcols cols (vdims t))); auto.
  rewrite <- E at 2. rewrite app_length. lia.
Qed.

Lemma keys_eqb_eq a b : keys_eqb a b = true <-> a = b.
Proof.
  revert b. induction a as [|x a IH]; destruct b as [|y b]; cbn; split; intros H; try congruence; auto.
  - apply andb_true_iff in H. destruct H as [H1 H2]. apply strs_eqb_eq in H1. apply IH in H2. congruence.
  - injection H as -> ->. rewrite strs_eqb_refl. apply IH; auto.
Qed.
Lemma existsb_key k l : existsb (strs_eqb k) l = true <-> In k l.
Proof.
  rewrite existsb_exists. split.
  - intros (x & Hx & E). apply strs_eqb_eq in E. subst; auto.
  - intros H. exists k. split; auto using strs_eqb_refl.
Qed.
Lemma nodup_keysb_NoDup l : nodup_keysb l = true <-> NoDup l.
Proof.
  induction l as [|x l IH]; cbn; [split; [constructor|auto]|]. rewrite andb_true_iff, negb_true_iff, IH. split.
  - intros [H1 H2]. constructor; auto. intros H. apply existsb_key in H. congruence.
  - intros H. inversion H as [|? ? Hx Hn]; subst. split; auto. destruct (existsb (strs_eqb x) l) eqn:E; auto. apply existsb_key in E. contradiction.
Qed.
Lemma nodup_strb_NoDup l : nodup_strb l = true <-> NoDup l.
Proof.
  induction l as [|x l IH]; cbn; [split; [constructor|auto]|]. rewrite andb_true_iff, negb_true_iff, IH. split.
  - intros [H1 H2]. constructor; auto. intros H. apply mem_str_In in H. congruence.
  - intros H. inversion H as [|? ? Hx Hn]; subst. split; auto. destruct (mem_str x l) eqn:E; auto. apply mem_str_In in E. contradiction.
Qed.
Lemma forallb_all {A} (f : A -> bool) l : (forall x, In x l -> f x = true) -> forallb f l = true.
Proof. intros H. apply forallb_forall. auto. Qed.

Lemma ddim_concat_ok a l : (forall b, In b l -> same_kind a b) ->
  exists r, ddim_concat a l = Ok r /\ same_kind a r /\ dlist r = dlist a ++ List.concat (map dlist l).
Proof.
  revert a. induction l as [|b l IH]; intros a H.
  - exists a. cbn. rewrite app_nil_r. split; auto. split; auto. destruct a; cbn; auto.
  - destruct (IH b) as (r & Er & Kr & Dr).
    { intros x Hx. pose proof (H b (or_introl eq_refl)). pose proof (H x (or_intror Hx)). destruct a, b, x; cbn in *; tauto. }
    cbn [ddim_concat]. rewrite Er. cbn [rbind]. pose proof (H b (or_introl eq_refl)) as Kab.
    assert (Kar : same_kind a r) by (destruct a, b, r; cbn in *; tauto).
    destruct a as [x|x], r as [z|z]; cbn in Kar; try tauto; cbn [ddim_app]; eexists; (split; [reflexivity|]); cbn [dlist map List.concat] in *; rewrite Dr; auto.
Qed.

Lemma length_concat_map {A} (f : tri -> list A) (h : tri -> nat) ts : (forall t, In t ts -> List.length (f t) = h t) ->
  List.length (List.concat (map f ts)) = suml (map h ts).
Proof.
  induction ts as [|t ts IH]; intros H; [reflexivity|]. cbn [map List.concat suml]. rewrite app_length, IH, H; auto.
  - left; auto.
  - intros; apply H; right; auto.
Qed.
Lemma map_fill {A} (f : tri -> A) g ts : (forall t, In t ts -> f (g t) = f t) -> map f (map g ts) = map f ts.
Proof. intros H. rewrite map_map. apply map_ext_in. auto. Qed.

Lemma concat_gen ax t0 rest cols : ax <> AxColumn -> (forall t, In t (t0 :: rest) -> wf t) -> cols_agree cols (t0 :: rest) ->
  (forall t, In t rest -> same_other ax t0 t) -> axis_unique ax (t0 :: rest) ->
  exists u, Tri.concat (t0 :: rest) ax = Ok u /\
    kdims u = match ax with AxIndex => List.concat (map kdims (t0 :: rest)) | _ => kdims t0 end /\
    key_labels u = key_labels t0 /\ vdims u = cols /\
    odims u = match ax with AxOrigin => List.concat (map odims (t0 :: rest)) | _ => odims t0 end /\
    same_kind (ddims t0) (ddims u) /\
    dlist (ddims u) = match ax with AxDev => List.concat (map (fun t => dlist (ddims t)) (t0 :: rest)) | _ => dlist (ddims t0) end /\
    vdate u = zmaxl (map vdate rest) (vdate t0) /\
    is_cumulative u = is_cumulative t0 /\ is_pattern u = is_pattern t0 /\ ograin u = ograin t0 /\ dgrain u = dgrain t0 /\
    ax0 (values u) = List.length (kdims u) /\ ax1 (values u) = List.length (vdims u) /\
    ax2 (values u) = List.length (odims u) /\ ax3 (values u) = List.length (dlist (ddims u)) /\
    forall pre t post i c o d, t0 :: rest = pre ++ t :: post ->
      (i < ax0 (values t))%nat -> (c < List.length cols)%nat -> (o < ax2 (values t))%nat -> (d < ax3 (values t))%nat ->
      avk (axis_num ax) (values u) (offset ax pre) i c o d =
        if (c <? List.length (vdims t))%nat then cel t i c o d else None.
Proof.
  intros Hax HW (Nc & Hp & Hcov) Hs Hu.
  destruct (fills_ok (t0 :: rest) cols Nc Hp Hcov) as [Ef Hf].
  set (g := fill_cols cols) in *.
  assert (Lk : forall t, In t (t0 :: rest) -> kdims (g t) = kdims t) by (intros; apply Hf; auto).
  assert (Lo : forall t, In t (t0 :: rest) -> odims (g t) = odims t) by (intros; apply Hf; auto).
  assert (Ld : forall t, In t (t0 :: rest) -> ddims (g t) = ddims t) by (intros; apply Hf; auto).
  assert (Lvd : forall t, In t (t0 :: rest) -> vdate (g t) = vdate t) by (intros; apply Hf; auto).
  assert (I0 : In t0 (t0 :: rest)) by (left; auto).
  assert (Ir : forall t, In t rest -> In t (t0 :: rest)) by (intros; right; auto).
  assert (Hl1 : forall t, In t (t0 :: rest) -> ax1 (values (g t)) = List.length cols).
  { intros t Ht. destruct (Hf t Ht) as [_ Wd]. rewrite (wd_1 _ _ _ Wd), (wf_v _ (HW t Ht)). pose proof (prefix_len _ _ (Hp t Ht)). lia. }
  assert (Hk4 : (axis_num ax < 4)%nat) by (destruct ax; cbn; lia).
  destruct (cat_all_ok (axis_num ax) Hk4 (map values (map g rest)) (values (g t0))) as (v & Ev & Fv & Av & Cv).
  { intros b Hb. apply in_map_iff in Hb. destruct Hb as (x & <- & Hx). apply in_map_iff in Hx. destruct Hx as (t & <- & Ht).
    destruct (Hs t Ht) as (S1 & S2 & S3 & S4). pose proof (HW t (Ir t Ht)) as Wt. pose proof (HW t0 I0) as W0.
    destruct (Hf t (Ir t Ht)) as [_ Wd]. destruct (Hf t0 I0) as [_ Wd0].
    intros j Hj Hne. destruct j as [|[|[|[|j]]]]; [| | | |lia]; cbn [axn].
    - rewrite (wd_0 _ _ _ Wd), (wd_0 _ _ _ Wd0), (wf_k _ Wt), (wf_k _ W0), S1; auto. intros ->. apply Hne; reflexivity.
    - rewrite !Hl1; auto.
    - rewrite (wd_2 _ _ _ Wd), (wd_2 _ _ _ Wd0), (wf_o _ Wt), (wf_o _ W0), S2; auto. intros ->. apply Hne; reflexivity.
    - rewrite (wd_3 _ _ _ Wd), (wd_3 _ _ _ Wd0), (wf_d _ Wt), (wf_d _ W0), S3; auto. intros ->. apply Hne; reflexivity. }
  destruct (ddim_concat_ok (ddims (g t0)) (map ddims (map g rest))) as (dd & Edd & Kdd & Ddd).
  { intros b Hb. rewrite map_map in Hb. apply in_map_iff in Hb. destruct Hb as (t & <- & Ht). rewrite !Ld by auto. apply Hs; auto. }
  assert (Hcells : forall pre t post i c o d, t0 :: rest = pre ++ t :: post ->
      (i < ax0 (values t))%nat -> (c < List.length cols)%nat -> (o < ax2 (values t))%nat -> (d < ax3 (values t))%nat ->
      avk (axis_num ax) v (offset ax pre) i c o d = if (c <? List.length (vdims t))%nat then cel t i c o d else None).
  { intros pre t post i c o d E Hi Hc Ho Hd.
    assert (It : In t (t0 :: rest)) by (rewrite E; apply in_or_app; right; left; auto).
    assert (Ip : forall x, In x pre -> In x (t0 :: rest)) by (intros x Hx; rewrite E; apply in_or_app; left; auto).
    destruct (Hf t It) as [_ Wd].
    assert (Eoff : offset ax pre = suml (map (axn (axis_num ax)) (map values (map g pre)))).
    { unfold offset. f_equal. rewrite !map_map. apply map_ext_in. intros x Hx. destruct (Hf x (Ip x Hx)) as [_ Wx].
      destruct ax; cbn [axis_num axn]; [symmetry; apply (wd_0 _ _ _ Wx)|congruence|symmetry; apply (wd_2 _ _ _ Wx)|symmetry; apply (wd_3 _ _ _ Wx)]. }
    rewrite Eoff. rewrite (Cv (map values (map g pre)) (values (g t)) (map values (map g post))).
    - fold (cel (g t) i c o d). pose proof (wf_v _ (HW t It)) as Lt. pose proof (prefix_len _ _ (Hp t It)).
      destruct (Nat.ltb_spec c (List.length (vdims t))).
      + apply (wd_c _ _ _ Wd). lia.
      + apply (wd_n _ _ _ Wd). lia.
    - change (values (g t0) :: map values (map g rest)) with (map values (map g (t0 :: rest))). rewrite E, !map_app. reflexivity.
    - destruct ax; cbn [axis_num coord axn]; [rewrite (wd_0 _ _ _ Wd)|congruence|rewrite (wd_2 _ _ _ Wd)|rewrite (wd_3 _ _ _ Wd)]; auto. }
  assert (Hlen : axn (axis_num ax) v = suml (map (fun t => axn (axis_num ax) (values t)) (t0 :: rest))).
  { rewrite Av. f_equal. change (values (g t0) :: map values (map g rest)) with (map values (map g (t0 :: rest))).
    rewrite !map_map. apply map_ext_in. intros x Hx. destruct (Hf x Hx) as [_ Wx].
    destruct ax; cbn [axis_num axn]; [apply (wd_0 _ _ _ Wx)|congruence|apply (wd_2 _ _ _ Wx)|apply (wd_3 _ _ _ Wx)]. }
  destruct (Hf t0 I0) as [Ev0 Wd0]. pose proof (HW t0 I0) as W0.
  assert (Hvd : zmaxl (map vdate (map g rest)) (vdate (g t0)) = zmaxl (map vdate rest) (vdate t0)).
  { rewrite map_fill by (intros; apply Lvd; auto). rewrite Lvd; auto. }
  pose proof (Fv 0%nat ltac:(lia)) as F0. pose proof (Fv 1%nat ltac:(lia)) as F1. pose proof (Fv 2%nat ltac:(lia)) as F2. pose proof (Fv 3%nat ltac:(lia)) as F3.
  cbn [axn] in F0, F1, F2, F3.
  unfold Tri.concat. destruct ax; [|congruence| |]; cbv zeta; rewrite Ef; cbn [map]; fold (map g rest).
  all: match goal with |- context [if negb ?b then _ else _] => assert (Hb : b = true) end.
  1,3,5: rewrite ?andb_true_iff; repeat split;
    try (apply forallb_all; intros x Hx; apply in_map_iff in Hx; destruct Hx as (t & <- & Ht); destruct (Hs t Ht) as (S1 & S2 & S3 & S4);
         rewrite ?Lk, ?Lo, ?Ld by auto; rewrite ?S1, ?S2, ?S3 by discriminate;
         first [apply keys_eqb_refl|apply Zs_eqb_refl|apply ddim_eqb_refl]).
  { apply nodup_keysb_NoDup. change (kdims (g t0) :: map kdims (map g rest)) with (map kdims (map g (t0 :: rest))). rewrite map_fill by auto. exact Hu. }
  { apply nodup_Zb_NoDup. change (odims (g t0) :: map odims (map g rest)) with (map odims (map g (t0 :: rest))). rewrite map_fill by auto. exact Hu. }
  { apply nodup_Zb_NoDup.
    change (dlist (ddims (g t0)) :: map (fun t => dlist (ddims t)) (map g rest)) with (map (fun t => dlist (ddims t)) (map g (t0 :: rest))).
    rewrite map_fill; [exact Hu|]. intros t Ht. rewrite Ld; auto. }
  all: rewrite Hb; cbn [negb axis_num] in *; rewrite Ev; cbn [rbind]; rewrite ?Edd; cbn [rbind];
    eexists; (split; [reflexivity|]); cbn [kdims key_labels vdims odims ddims values vdate is_cumulative is_pattern ograin dgrain set_vdate set_values set_dims].
  all: rewrite ?Hvd, ?Ev0, ?(wd_kl _ _ _ Wd0), ?(wd_cum _ _ _ Wd0), ?(wd_pat _ _ _ Wd0), ?(wd_og _ _ _ Wd0), ?(wd_dg _ _ _ Wd0).
  all: cbn [axn] in *; repeat match goal with |- _ /\ _ => split end; auto; rewrite ?Lk, ?Lo, ?Ld by auto; auto.
  all: rewrite ?map_fill by auto; auto.
  all: try (destruct (ddims t0); exact I).
  all: try (rewrite F0, (wd_0 _ _ _ Wd0) by lia; apply W0).
  all: try (rewrite F1, Hl1 by (auto; lia); reflexivity).
  all: try (rewrite F2, (wd_2 _ _ _ Wd0) by lia; apply W0).
  all: try (rewrite F3, (wd_3 _ _ _ Wd0) by lia; apply W0).
  - rewrite Hlen. symmetry. apply (length_concat_map kdims (fun t => ax0 (values t)) (t0 :: rest)).
    intros t Ht. symmetry. apply (wf_k _ (HW t Ht)).
  - rewrite Hlen. symmetry. apply (length_concat_map odims (fun t => ax2 (values t)) (t0 :: rest)).
    intros t Ht. symmetry. apply (wf_o _ (HW t Ht)).
  - rewrite Ld in Kdd; auto.
  - rewrite Ddd, Ld by auto. cbn [List.concat]. f_equal. f_equal. rewrite !map_map. apply map_ext_in. intros t Ht. rewrite Ld; auto.
  - rewrite Hlen. symmetry. rewrite Ddd, Ld by auto.
    replace (map dlist (map ddims (map g rest))) with (map (fun t => dlist (ddims t)) rest)
      by (rewrite !map_map; apply map_ext_in; intros t Ht; rewrite Ld; auto).
    apply (length_concat_map (fun t => dlist (ddims t)) (fun t => ax3 (values t)) (t0 :: rest)).
    intros t Ht. symmetry. apply (wf_d _ (HW t Ht)).
Qed.

(** Along the column axis no filling takes place. *)
Lemma concat_column t0 rest : (forall t, In t (t0 :: rest) -> wf t) ->
  (forall t, In t rest -> kdims t = kdims t0 /\ odims t = odims t0 /\ ddims t = ddims t0) -> axis_unique AxColumn (t0 :: rest) ->
  exists u, Tri.concat (t0 :: rest) AxColumn = Ok u /\
    kdims u = kdims t0 /\ key_labels u = key_labels t0 /\ vdims u = List.concat (map vdims (t0 :: rest)) /\
    odims u = odims t0 /\ ddims u = ddims t0 /\ vdate u = zmaxl (map vdate rest) (vdate t0) /\
    is_cumulative u = is_cumulative t0 /\ is_pattern u = is_pattern t0 /\ ograin u = ograin t0 /\ dgrain u = dgrain t0 /\
    ax0 (values u) = ax0 (values t0) /\ ax1 (values u) = List.length (vdims u) /\
    ax2 (values u) = ax2 (values t0) /\ ax3 (values u) = ax3 (values t0) /\
    forall pre t post i c o d, t0 :: rest = pre ++ t :: post -> (c < ax1 (values t))%nat ->
      cel u i (offset AxColumn pre + c)%nat o d = cel t i c o d.
Proof.
  intros HW Hs Hu. assert (I0 : In t0 (t0 :: rest)) by (left; auto).
  assert (Ir : forall t, In t rest -> In t (t0 :: rest)) by (intros; right; auto).
  destruct (cat_all_ok 1 ltac:(lia) (map values rest) (values t0)) as (v & Ev & Fv & Av & Cv).
  { intros b Hb. apply in_map_iff in Hb. destruct Hb as (t & <- & Ht). destruct (Hs t Ht) as (S1 & S2 & S3).
    pose proof (HW t (Ir t Ht)) as Wt. pose proof (HW t0 I0) as W0.
    intros j Hj Hne. destruct j as [|[|[|[|j]]]]; [| | | |lia]; cbn [axn]; [|lia| |].
    - rewrite (wf_k _ Wt), (wf_k _ W0), S1; auto.
    - rewrite (wf_o _ Wt), (wf_o _ W0), S2; auto.
    - rewrite (wf_d _ Wt), (wf_d _ W0), S3; auto. }
  unfold Tri.concat. cbv zeta.
  match goal with |- context [if negb ?b then _ else _] => assert (Hb : b = true) end.
  { rewrite !andb_true_iff.
    assert (HH : forall t, In t rest -> keys_eqb (kdims t) (kdims t0) = true /\ Zs_eqb (odims t) (odims t0) = true /\ ddim_eqb (ddims t) (ddims t0) = true).
    { intros t Ht. destruct (Hs t Ht) as (S1 & S2 & S3). rewrite S1, S2, S3. auto using keys_eqb_refl, Zs_eqb_refl, ddim_eqb_refl. }
    split; [split; [split|]|]; try (apply forallb_all; intros; apply HH; auto). apply nodup_strb_NoDup. exact Hu. }
  rewrite Hb. cbn [negb axis_num]. rewrite Ev. cbn [rbind]. eexists. split; [reflexivity|].
  cbn [kdims key_labels vdims odims ddims values vdate is_cumulative is_pattern ograin dgrain set_vdate set_values set_dims].
  pose proof (Fv 0%nat ltac:(lia) ltac:(lia)) as F0. pose proof (Fv 2%nat ltac:(lia) ltac:(lia)) as F2. pose proof (Fv 3%nat ltac:(lia) ltac:(lia)) as F3.
  cbn [axn] in *.
  do 11 (split; [auto|]). split.
  { symmetry. rewrite Av. rewrite (length_concat_map vdims (fun t => ax1 (values t)) (t0 :: rest)).
    - f_equal. change (values t0 :: map values rest) with (map values (t0 :: rest)). rewrite map_map. reflexivity.
    - intros t Ht. symmetry. apply (wf_v _ (HW t Ht)). }
  do 2 (split; [auto|]). intros pre t post i c o d E Hc. unfold cel. cbn [values set_vdate set_values].
  specialize (Cv (map values pre) (values t) (map values post) i c o d). cbn [avk] in Cv. rewrite <- Cv.
  - unfold offset. f_equal. f_equal. rewrite map_map. reflexivity.
  - change (values t0 :: map values rest) with (map values (t0 :: rest)). rewrite E, map_app. reflexivity.
  - cbn [coord axn]. auto.
Qed.

(** ** Amounts by label *)
Section PickConcat.
Context {A : Type} (dec : forall a b : A, {a = b} + {a <> b}) (d0 : A).
Lemma pick_app l m x f : pick dec (l ++ m) x d0 f = (pick dec l x d0 f + pick dec m x d0 (fun i => f (List.length l + i)%nat))%Qc.
Proof.
  unfold pick. rewrite app_length, sumn_app. f_equal; apply sumn_ext; intros i Hi.
  - rewrite app_nth1 by auto. reflexivity.
  - rewrite app_nth2 by lia. replace (List.length l + i - List.length l)%nat with i by lia. reflexivity.
Qed.
Lemma pick_concat (lab : tri -> list A) (G : tri -> nat -> Qc) x ts : forall F,
  (forall pre t post i, ts = pre ++ t :: post -> (i < List.length (lab t))%nat ->
     F (suml (map (fun t => List.length (lab t)) pre) + i)%nat = G t i) ->
  pick dec (List.concat (map lab ts)) x d0 F = qsum (map (fun t => pick dec (lab t) x d0 (G t)) ts).
Proof.
  induction ts as [|t ts IH]; intros F H; [reflexivity|].
  cbn [map List.concat]. rewrite qsum_cons, pick_app. f_equal.
  - apply pick_ext. intros i Hi _. apply (H [] t ts i eq_refl Hi).
  - apply IH. intros pre u post i E Hi. rewrite <- (H (t :: pre) u post i); [|rewrite E; reflexivity|auto].
    f_equal. cbn [map suml]. lia.
Qed.
Lemma pick_prefix l s x f n : n = List.length l -> pick dec (l ++ s) x d0 (fun c => if (c <? n)%nat then f c else 0%Qc) = pick dec l x d0 f.
Proof.
  intros ->. rewrite pick_app. rewrite (pick_zero dec d0 s); [|intros i Hi; destruct (Nat.ltb_spec (List.length l + i) (List.length l)); [lia|auto]].
  rewrite Qcplus_0_r. apply pick_ext. intros i Hi _. destruct (Nat.ltb_spec i (List.length l)); [auto|lia].
Qed.
End PickConcat.

Lemma amount_at_v t k v o a : amount_at t k v o a =
  pick string_dec (vdims t) v EmptyString (fun c => pick key_dec (kdims t) k [] (fun i =>
    pick Z.eq_dec (odims t) o 0%Z (fun r => pick Z.eq_dec (dlist (ddims t)) a 0%Z (fun d => amount t i c r d)))).
Proof. unfold amount_at. rewrite pick_swap. reflexivity. Qed.
Lemma amount_at_o t k v o a : amount_at t k v o a =
  pick Z.eq_dec (odims t) o 0%Z (fun r => pick key_dec (kdims t) k [] (fun i =>
    pick string_dec (vdims t) v EmptyString (fun c => pick Z.eq_dec (dlist (ddims t)) a 0%Z (fun d => amount t i c r d)))).
Proof.
  unfold amount_at. symmetry. rewrite pick_swap. apply pick_ext. intros i _ _. rewrite pick_swap. reflexivity.
Qed.
Lemma amount_at_d t k v o a : amount_at t k v o a =
  pick Z.eq_dec (dlist (ddims t)) a 0%Z (fun d => pick key_dec (kdims t) k [] (fun i =>
    pick string_dec (vdims t) v EmptyString (fun c => pick Z.eq_dec (odims t) o 0%Z (fun r => amount t i c r d)))).
Proof.
  unfold amount_at. symmetry. rewrite pick_swap. apply pick_ext. intros i _ _. rewrite pick_swap. apply pick_ext. intros c _ _. rewrite pick_swap. reflexivity.
Qed.

Lemma split_in {A} (l pre post : list A) x : l = pre ++ x :: post -> In x l.
Proof. intros ->. apply in_or_app. right; left; auto. Qed.

Lemma concat_amounts ax t0 rest cols : ax <> AxColumn -> (forall t, In t (t0 :: rest) -> wf t) -> cols_agree cols (t0 :: rest) ->
  (forall t, In t rest -> same_other ax t0 t) -> axis_unique ax (t0 :: rest) ->
  forall u, Tri.concat (t0 :: rest) ax = Ok u -> forall k v o a,
  amount_at u k v o a = qsum (map (fun t => amount_at t k v o a) (t0 :: rest)).
Proof.
  intros Hax HW Hc Hs Hu u' Eu' k v o a.
  destruct (concat_gen ax t0 rest cols Hax HW Hc Hs Hu) as (u & Eu & Dk & _ & Dv & Do & _ & Dd & _ & _ & _ & _ & _ & L0 & L1 & L2 & L3 & Cl).
  rewrite Eu in Eu'. injection Eu' as <-.
  destruct Hc as (Nc & Hp & _).
  assert (Hs' : forall t, In t (t0 :: rest) -> same_other ax t0 t).
  { intros t [<-|Ht]; auto. unfold same_other. repeat split; auto. destruct (ddims t0); exact I. }
  assert (Lt : forall t, In t (t0 :: rest) -> ax0 (values t) = List.length (kdims t) /\ ax1 (values t) = List.length (vdims t) /\
     ax2 (values t) = List.length (odims t) /\ ax3 (values t) = List.length (dlist (ddims t))).
  { intros t Ht. pose proof (HW t Ht) as W. split; [apply W|]. split; [apply W|]. split; apply W. }
  assert (Hcol : forall t (h : nat -> Qc), In t (t0 :: rest) ->
     pick string_dec cols v EmptyString (fun c => if (c <? List.length (vdims t))%nat then h c else 0%Qc) = pick string_dec (vdims t) v EmptyString h).
  { intros t h Ht. destruct (Hp t Ht) as (s & ->). apply pick_prefix; auto. }
  assert (Hnz : forall (b : bool) x, nz (if b then x else None) = if b then nz x else 0%Qc) by (intros []; auto).
  destruct ax; [|congruence| |]; cbn [axis_num] in *.
  - unfold amount_at at 1. rewrite Dk, Dv, Do, Dd.
    apply pick_concat. intros pre t post i E Hi. pose proof (split_in _ _ _ _ E) as It.
    destruct (Hs' t It) as (_ & S2 & S3 & _). destruct (Lt t It) as (K0 & K1 & K2 & K3).
    rewrite <- (Hcol t _ It). apply pick_ext. intros c Hcc _. rewrite <- S2 by discriminate. rewrite <- S3 by discriminate.
    transitivity (pick Z.eq_dec (odims t) o 0%Z (fun r => pick Z.eq_dec (dlist (ddims t)) a 0%Z (fun d =>
       if (c <? List.length (vdims t))%nat then amount t i c r d else 0%Qc))).
    + apply pick_ext. intros r Hr _. apply pick_ext. intros d Hd _. unfold amount at 1.
      specialize (Cl pre t post i c r d E). cbn [avk] in Cl. unfold cel in Cl |- *.
      replace (suml (map (fun t => List.length (kdims t)) pre)) with (offset AxIndex pre).
      * rewrite Cl by lia. apply Hnz.
      * unfold offset. f_equal. apply map_ext_in. intros x Hx. cbn [axis_num axn]. apply Lt. rewrite E. apply in_or_app; auto.
    + destruct (c <? List.length (vdims t))%nat; auto. apply pick_zero. intros; apply pick_zero; auto.
  - rewrite amount_at_o. rewrite Dk, Dv, Do, Dd.
    rewrite (map_ext _ _ (fun t => amount_at_o t k v o a)).
    apply pick_concat. intros pre t post r E Hr. pose proof (split_in _ _ _ _ E) as It.
    destruct (Hs' t It) as (S1 & _ & S3 & _). destruct (Lt t It) as (K0 & K1 & K2 & K3).
    rewrite <- S1 by discriminate. rewrite <- S3 by discriminate. apply pick_ext. intros i Hi _.
    rewrite <- (Hcol t _ It). apply pick_ext. intros c Hcc _.
    transitivity (pick Z.eq_dec (dlist (ddims t)) a 0%Z (fun d =>
       if (c <? List.length (vdims t))%nat then amount t i c r d else 0%Qc)).
    + apply pick_ext. intros d Hd _. unfold amount at 1.
      specialize (Cl pre t post i c r d E). cbn [avk] in Cl. unfold cel in Cl |- *.
      replace (suml (map (fun t => List.length (odims t)) pre)) with (offset AxOrigin pre).
      * rewrite Cl by lia. apply Hnz.
      * unfold offset. f_equal. apply map_ext_in. intros x Hx. cbn [axis_num axn]. apply Lt. rewrite E. apply in_or_app; auto.
    + destruct (c <? List.length (vdims t))%nat; auto. apply pick_zero. intros; auto.
  - rewrite amount_at_d. rewrite Dk, Dv, Do, Dd.
    rewrite (map_ext _ _ (fun t => amount_at_d t k v o a)).
    apply (pick_concat Z.eq_dec 0 (fun t => dlist (ddims t))). intros pre t post d E Hd. pose proof (split_in _ _ _ _ E) as It.
    destruct (Hs' t It) as (S1 & S2 & _ & _). destruct (Lt t It) as (K0 & K1 & K2 & K3).
    rewrite <- S1 by discriminate. rewrite <- S2 by discriminate. apply pick_ext. intros i Hi _.
    rewrite <- (Hcol t _ It). apply pick_ext. intros c Hcc _.
    transitivity (pick Z.eq_dec (odims t) o 0%Z (fun r =>
       if (c <? List.length (vdims t))%nat then amount t i c r d else 0%Qc)).
    + apply pick_ext. intros r Hr _. unfold amount at 1.
      specialize (Cl pre t post i c r d E). cbn [avk] in Cl. unfold cel in Cl |- *.
      replace (suml (map (fun t => List.length (dlist (ddims t))) pre)) with (offset AxDev pre).
      * rewrite Cl by lia. apply Hnz.
      * unfold offset. f_equal. apply map_ext_in. intros x Hx. cbn [axis_num axn]. apply Lt. rewrite E. apply in_or_app; auto.
    + destruct (c <? List.length (vdims t))%nat; auto. apply pick_zero. intros; auto.
Qed.

Lemma concat_column_amounts t0 rest : (forall t, In t (t0 :: rest) -> wf t) ->
  (forall t, In t rest -> kdims t = kdims t0 /\ odims t = odims t0 /\ ddims t = ddims t0) -> axis_unique AxColumn (t0 :: rest) ->
  forall u, Tri.concat (t0 :: rest) AxColumn = Ok u -> forall k v o a,
  amount_at u k v o a = qsum (map (fun t => amount_at t k v o a) (t0 :: rest)).
Proof.
  intros HW Hs Hu u' Eu' k v o a.
  destruct (concat_column t0 rest HW Hs Hu) as (u & Eu & Dk & _ & Dv & Do & Dd & _ & _ & _ & _ & _ & L0 & L1 & L2 & L3 & Cl).
  rewrite Eu in Eu'. injection Eu' as <-.
  rewrite amount_at_v. rewrite Dk, Dv, Do, Dd. rewrite (map_ext _ _ (fun t => amount_at_v t k v o a)).
  apply pick_concat. intros pre t post c E Hc. pose proof (split_in _ _ _ _ E) as It.
  assert (S : kdims t = kdims t0 /\ odims t = odims t0 /\ ddims t = ddims t0) by (destruct It as [<-|It]; auto).
  destruct S as (S1 & S2 & S3). rewrite <- S1, <- S2, <- S3. apply pick_ext. intros i _ _. apply pick_ext. intros r _ _. apply pick_ext. intros d _ _.
  unfold amount. rewrite <- (Cl pre t post); [|auto|rewrite (wf_v _ (HW t It)); auto].
  f_equal. f_equal. f_equal. unfold offset. f_equal. apply map_ext_in. intros x Hx. cbn [axis_num axn].
  symmetry. apply wf_v. apply HW. rewrite E. apply in_or_app; auto.
Qed.

(** ** Operands that do not fit *)
Lemma fill_cols_frame cols : forall t, kdims (fill_cols cols t) = kdims t /\ odims (fill_cols cols t) = odims t /\ ddims (fill_cols cols t) = ddims t.
Proof.
  unfold fill_cols. induction cols as [|c cols IH]; intros t; [auto|]. cbn [fold_left].
  destruct (mem_str c (vdims t)); [apply IH|]. destruct (IH (add_empty_col t c)) as (E1 & E2 & E3). rewrite E1, E2, E3. auto.
Qed.
Lemma Zs_eqb_eq a b : Zs_eqb a b = true <-> a = b.
Proof.
  revert b. induction a as [|x a IH]; destruct b as [|y b]; cbn; split; intros H; try congruence; auto.
  - apply andb_true_iff in H. destruct H as [H1 H2]. apply Z.eqb_eq in H1. apply IH in H2. congruence.
  - injection H as -> ->. rewrite Z.eqb_refl. apply IH; auto.
Qed.
Lemma ddim_eqb_eq a b : ddim_eqb a b = true <-> a = b.
Proof.
  destruct a, b; cbn; split; intros H; try discriminate; try (apply Zs_eqb_eq in H; congruence); injection H as ->; apply Zs_eqb_eq; auto.
Qed.
Lemma concat_raises ax t0 rest : ((exists t, In t rest /\ other_differs ax t0 t) \/ ~ axis_unique ax (t0 :: rest)) ->
  Tri.concat (t0 :: rest) ax = Err AssertionError.
Proof.
  intros H. unfold Tri.concat. cbv zeta.
  set (objs := match ax with AxColumn => t0 :: rest | _ => map (fill_cols (union_cols (t0 :: rest))) (t0 :: rest) end).
  assert (E : exists g, objs = map g (t0 :: rest) /\ (forall t, kdims (g t) = kdims t /\ odims (g t) = odims t /\ ddims (g t) = ddims t) /\
     (ax = AxColumn -> forall t, vdims (g t) = vdims t)).
  { destruct ax; try (exists (fill_cols (union_cols (t0 :: rest))); repeat split; try apply fill_cols_frame; discriminate).
    exists (fun t => t). rewrite map_id. auto. }
  destruct E as (g & -> & Hg & Hgv). cbn [map].
  match goal with |- (if negb ?b then _ else _) = _ => destruct b eqn:Eb end; [exfalso|reflexivity].
  assert (Gk : forall t, In t rest -> (forallb (fun t => keys_eqb (kdims t) (kdims (g t0))) (map g rest) = true) -> kdims t = kdims t0).
  { intros t Ht F. rewrite forallb_forall in F. specialize (F (g t) (in_map g _ _ Ht)). apply keys_eqb_eq in F.
    destruct (Hg t) as (<- & _). destruct (Hg t0) as (<- & _). auto. }
  assert (Go : forall t, In t rest -> (forallb (fun t => Zs_eqb (odims t) (odims (g t0))) (map g rest) = true) -> odims t = odims t0).
  { intros t Ht F. rewrite forallb_forall in F. specialize (F (g t) (in_map g _ _ Ht)). apply Zs_eqb_eq in F.
    destruct (Hg t) as (_ & <- & _). destruct (Hg t0) as (_ & <- & _). auto. }
  assert (Gd : forall t, In t rest -> (forallb (fun t => ddim_eqb (ddims t) (ddims (g t0))) (map g rest) = true) -> ddims t = ddims t0).
  { intros t Ht F. rewrite forallb_forall in F. specialize (F (g t) (in_map g _ _ Ht)). apply ddim_eqb_eq in F.
    destruct (Hg t) as (_ & _ & <-). destruct (Hg t0) as (_ & _ & <-). auto. }
  destruct ax; rewrite !andb_true_iff in Eb;
    repeat match type of Eb with _ /\ _ => destruct Eb as [Eb ?Eb] end;
    (destruct H as [(t & Ht & D)|D]; [destruct D as [[D1 D]|[[D1 D]|[D1 D]]]; try congruence; apply D; auto|apply D; unfold axis_unique]).
  - apply nodup_keysb_NoDup in Eb0. change (kdims (g t0) :: map kdims (map g rest)) with (map kdims (map g (t0 :: rest))) in Eb0.
    rewrite map_fill in Eb0 by (intros; apply Hg). auto.
  - apply nodup_strb_NoDup in Eb0. change (vdims (g t0) :: map vdims (map g rest)) with (map vdims (map g (t0 :: rest))) in Eb0.
    rewrite map_fill in Eb0 by (intros; apply Hgv; auto). auto.
  - apply nodup_Zb_NoDup in Eb0. change (odims (g t0) :: map odims (map g rest)) with (map odims (map g (t0 :: rest))) in Eb0.
    rewrite map_fill in Eb0 by (intros; apply Hg). auto.
  - apply nodup_Zb_NoDup in Eb0.
    change (dlist (ddims (g t0)) :: map (fun t => dlist (ddims t)) (map g rest)) with (map (fun t => dlist (ddims t)) (map g (t0 :: rest))) in Eb0.
    rewrite (map_fill (fun t => dlist (ddims t))) in Eb0; auto. intros x _. destruct (Hg x) as (_ & _ & ->). auto.
Qed.

Lemma zmaxl_le l d b : d <= b -> (forall x, In x l -> x <= b) -> zmaxl l d <= b.
Proof. intros Hd H. destruct (zmaxl_in l d) as [<-|Hi]; auto. Qed.

(** Stacking rows gives a well-formed triangle. *)
Lemma concat_index_wf t0 rest cols u : (forall t, In t (t0 :: rest) -> wf t) -> cols_agree cols (t0 :: rest) ->
  (forall t, In t rest -> same_other AxIndex t0 t) -> axis_unique AxIndex (t0 :: rest) ->
  Tri.concat (t0 :: rest) AxIndex = Ok u -> wf u.
Proof.
  intros HW Hc Hs Hu Eu'.
  destruct (concat_gen AxIndex t0 rest cols ltac:(discriminate) HW Hc Hs Hu) as (u' & Eu & Dk & _ & Dv & Do & Kd & Dd & Vd & _ & _ & _ & _ & L0 & L1 & L2 & L3 & _).
  rewrite Eu in Eu'. injection Eu' as ->.
  assert (W0 : wf t0) by (apply HW; left; auto).
  assert (Edd : ddims u = ddims t0) by (destruct (ddims u), (ddims t0); cbn in *; try tauto; congruence).
  constructor; auto; rewrite ?L2, ?L3, ?Do, ?Edd, ?Vd; try apply W0.
  - pose proof (wf_o _ W0). pose proof (wf_o1 _ W0). lia.
  - pose proof (wf_d _ W0). pose proof (wf_d1 _ W0). lia.
  - apply zmaxl_le; [apply W0|]. intros x Hx. apply in_map_iff in Hx. destruct Hx as (t & <- & Ht). apply HW; right; auto.
  - pose proof (wf_dev _ W0) as D. destruct (ddims t0); auto. destruct D as (D1 & D2 & D3). split; [auto|]. split; [|auto].
    intros o Ho. pose proof (zmaxl_ge (map vdate rest) (vdate t0) (vdate t0) (or_introl eq_refl)). pose proof (D2 o Ho). lia.
Qed.
