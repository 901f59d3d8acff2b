(** Alignment of the operands of + and - by origin and age. *)
From Coq Require Import Lia Sorted.
From Verif Require Export P_Arith UnionFacts.
Local Open Scope Z_scope.

Lemma amount_at_kv t i c o a : uniq_labels t -> (i < List.length (kdims t))%nat -> (c < List.length (vdims t))%nat ->
  amount_at t (nth i (kdims t) []) (nth c (vdims t) EmptyString) o a =
  pick Z.eq_dec (odims t) o 0 (fun r => pick Z.eq_dec (dlist (ddims t)) a 0 (fun d => amount t i c r d)).
Proof. intros [U1 U2] Hi Hc. unfold amount_at. rewrite pick_nth by auto. rewrite pick_nth by auto. reflexivity. Qed.

Lemma has_labels_dec t k v o a : has_labels t k v o a \/ ~ has_labels t k v o a.
Proof.
  unfold has_labels.
  destruct (in_dec key_dec k (kdims t)); [|tauto]. destruct (in_dec string_dec v (vdims t)); [|tauto].
  destruct (in_dec Z.eq_dec o (odims t)); [|tauto]. destruct (in_dec Z.eq_dec a (dlist (ddims t))); tauto.
Qed.
Lemma not_has_labels t k v o a : ~ has_labels t k v o a -> amount_at t k v o a = 0%Qc.
Proof.
  intros H. apply amount_at_absent. unfold has_labels in H.
  destruct (in_dec key_dec k (kdims t)); [|tauto]. destruct (in_dec string_dec v (vdims t)); [|tauto].
  destruct (in_dec Z.eq_dec o (odims t)); [|tauto]. destruct (in_dec Z.eq_dec a (dlist (ddims t))); tauto.
Qed.

(** A statement about amounts by label follows from one about positions. *)
Lemma amount_at_fun u F : wf u -> uniq_labels u ->
  (forall i c o d, in_range u i c o d -> amount u i c o d =
     F (nth i (kdims u) []) (nth c (vdims u) EmptyString) (nth o (odims u) 0) (nth d (dlist (ddims u)) 0)) ->
  (forall k v o a, ~ has_labels u k v o a -> F k v o a = 0%Qc) ->
  forall k v o a, amount_at u k v o a = F k v o a.
Proof.
  intros W U H H0 k v o a. destruct (has_labels_dec u k v o a) as [(Hk & Hv & Ho & Ha)|Hn].
  - destruct (In_nth _ _ [] Hk) as (i & Hi & <-). destruct (In_nth _ _ EmptyString Hv) as (c & Hc & <-).
    destruct (In_nth _ _ 0 Ho) as (r & Hr & <-). destruct (In_nth _ _ 0 Ha) as (d & Hd & <-).
    assert (R : in_range u i c r d) by (unfold in_range; rewrite (wf_k _ W), (wf_v _ W), (wf_o _ W), (wf_d _ W); auto).
    rewrite amount_at_pos by auto. apply H; auto.
  - rewrite not_has_labels by auto. symmetry. auto.
Qed.

(** ** Blocks of the union *)
Lemma zunion_refl l : StronglySorted Z.lt l -> zunion l l = l.
Proof. intros H. apply sorted_Z_ext; auto using zunion_sorted. intros x. rewrite zunion_In. tauto. Qed.

Definition is_block (u l : list Z) (u1 u3 : list Z) : Prop :=
  u = u1 ++ l ++ u3 /\ (forall x, In x u1 -> ~ In x l) /\ (forall x, In x u3 -> ~ In x l).

Lemma gap_free_diff g l x y : gap_free g l -> In x l -> In y l -> (g | x - y).
Proof.
  intros (s & E) Hx Hy. rewrite E in Hx, Hy. apply in_map_iff in Hx, Hy. destruct Hx as (i & <- & _), Hy as (j & <- & _).
  exists (Z.of_nat i - Z.of_nat j). ring.
Qed.
Lemma hd_In l : l <> [] -> In (hd 0 l) l.
Proof. destruct l; [congruence|left; auto]. Qed.

Lemma alignable_blocks g l m : 0 < g -> StronglySorted Z.lt l -> StronglySorted Z.lt m -> l <> [] -> m <> [] -> alignable g l m ->
  (exists u1 u3, is_block (zunion l m) l u1 u3) /\ (exists w1 w3, is_block (zunion l m) m w1 w3).
Proof.
  intros Hg Sl Sm Nl Nm [->|(Gl & Gm & O & _)].
  - rewrite zunion_refl by auto. split; exists [], []; (split; [cbn; rewrite app_nil_r; auto|split; intros x []]).
  - split.
    + apply (union_block g); auto. intros x [H|H]; [apply (gap_free_diff g l); auto using hd_In|].
      destruct (O _ _ (hd_In l Nl) H) as (q & Hq). exists (-q). lia.
    + apply (union_block g); auto. intros x [H|H]; [|apply (gap_free_diff g m); auto using hd_In].
      apply O; auto using hd_In.
Qed.

(** ** Placing an array in a larger frame *)
Lemma place_ok n0 n1 no nd p q a : ax0 a = n0 -> ax1 a = n1 ->
  exists r, place n0 n1 no nd p (p + ax2 a) q (q + ax3 a) a = Ok r /\
    ax0 r = n0 /\ ax1 r = n1 /\ ax2 r = no /\ ax3 r = nd /\
    forall i c o d, (i < n0)%nat -> (c < n1)%nat ->
      av r i c o d = if ((p <=? o) && (o <? p + ax2 a))%nat
                     then if ((q <=? d) && (d <? q + ax3 a))%nat then av a i c (o - p)%nat (d - q)%nat else None
                     else None.
Proof.
  intros <- <-. unfold place. replace (p + ax2 a - p)%nat with (ax2 a) by lia. replace (q + ax3 a - q)%nat with (ax3 a) by lia.
  unfold fits. rewrite !Nat.eqb_refl. cbn [andb orb]. eexists. split; [reflexivity|].
  cbn [ax0 ax1 ax2 ax3 av]. do 4 (split; [reflexivity|]). intros i c o d Hi Hc.
  assert (Bx : forall n k, (k < n)%nat -> bidx n k = k).
  { intros n k Hk. unfold bidx. destruct (Nat.eqb_spec n 1); lia. }
  destruct (Nat.leb_spec p o); cbn [andb]; auto. destruct (Nat.ltb_spec o (p + ax2 a)); cbn [andb]; auto.
  destruct (Nat.leb_spec q d); cbn [andb]; auto. destruct (Nat.ltb_spec d (q + ax3 a)); cbn [andb]; auto.
  rewrite !Bx by lia. reflexivity.
Qed.

Lemma placed_amount t od du u1 u3 w1 w3 i c o d : wf t ->
  is_block od (odims t) u1 u3 -> is_block du (dlist (ddims t)) w1 w3 ->
  StronglySorted Z.lt od -> StronglySorted Z.lt du -> (o < List.length od)%nat -> (d < List.length du)%nat ->
  nz (if ((List.length u1 <=? o) && (o <? List.length u1 + ax2 (values t)))%nat
      then if ((List.length w1 <=? d) && (d <? List.length w1 + ax3 (values t)))%nat
           then av (values t) i c (o - List.length u1)%nat (d - List.length w1)%nat else None
      else None) =
  pick Z.eq_dec (odims t) (nth o od 0) 0 (fun r => pick Z.eq_dec (dlist (ddims t)) (nth d du 0) 0 (fun e => amount t i c r e)).
Proof.
  intros W (-> & _ & _) (-> & _ & _) So Sd Ho Hd. rewrite (wf_o _ W), (wf_d _ W).
  rewrite pick_block by auto using sorted_NoDup.
  destruct ((List.length u1 <=? o) && (o <? List.length u1 + List.length (odims t)))%nat; [|reflexivity].
  rewrite pick_block by auto using sorted_NoDup.
  destruct ((List.length w1 <=? d) && (d <? List.length w1 + List.length (dlist (ddims t))))%nat; reflexivity.
Qed.

Definition ddim_union (a b : ddim) : ddim :=
  match a with Ages l => Ages (zunion l (dlist b)) | Vals l => Vals (zunion l (dlist b)) end.
Lemma dlist_union a b : dlist (ddim_union a b) = zunion (dlist a) (dlist b).
Proof. destruct a; reflexivity. Qed.
Lemma ddim_all_differ_kind a b : same_kind a b -> ddim_all_differ a b = all_differ (dlist a) (dlist b).
Proof. destruct a, b; cbn; tauto. Qed.
Lemma same_kind_eq a b : same_kind a b -> dlist a = dlist b -> a = b.
Proof. destruct a, b; cbn; intros H E; try tauto; congruence. Qed.

Lemma alignable_lens g l m : alignable g l m -> l <> [] ->
  ((List.length m =? 1) && (1 <? List.length l))%nat = false /\ ((List.length l =? 1) && (1 <? List.length m))%nat = false.
Proof.
  intros [->|(_ & _ & _ & A & B)] H.
  - rewrite one_lt_eqb. auto.
  - destruct (Nat.eqb_spec (List.length m) 1), (Nat.eqb_spec (List.length l) 1); try lia; auto.
Qed.

(** Two label lists that sit as blocks in their union and are either equal or
    never taken for one another by the shape tests. *)
Definition ablocks (l m : list Z) : Prop :=
  (exists u1 u3, is_block (zunion l m) l u1 u3) /\ (exists w1 w3, is_block (zunion l m) m w1 w3) /\
  ((List.length m =? 1) && (1 <? List.length l))%nat = false /\ ((List.length l =? 1) && (1 <? List.length m))%nat = false /\
  (l <> m -> if (List.length l =? List.length m)%nat then negb (all_differ l m && (1 <? List.length l)%nat) = false
             else bcast_ok (List.length l) (List.length m) = false).

Lemma alignable_ablocks g l m : 0 < g -> StronglySorted Z.lt l -> StronglySorted Z.lt m -> l <> [] -> m <> [] ->
  alignable g l m -> ablocks l m.
Proof.
  intros Hg Sl Sm Nl Nm A. destruct (alignable_blocks g l m Hg Sl Sm Nl Nm A) as [B1 B2].
  destruct (alignable_lens g l m A Nl) as [L1 L2]. repeat (split; [auto|]).
  intros N. destruct A as [E|(A & B & O & K1 & K2)]; [contradiction|].
  destruct (Nat.eqb_spec (List.length l) (List.length m)) as [E|E].
  - destruct (gap_free_cases g l m Hg A B E) as [?|D]; [contradiction|]. rewrite D.
    destruct (Nat.ltb_spec 1 (List.length l)); [reflexivity|lia].
  - unfold bcast_ok. destruct (Nat.eqb_spec (List.length l) (List.length m)); [lia|].
    destruct (Nat.eqb_spec (List.length l) 1); [lia|]. destruct (Nat.eqb_spec (List.length m) 1); [lia|]. reflexivity.
Qed.

(** The operands are re-framed exactly when origins or ages differ. *)
Lemma unbroadcast lo lo' ld ld' : ablocks lo lo' -> ablocks ld ld' -> ~ (lo = lo' /\ ld = ld') ->
  (let b0 := (bcast_ok (List.length lo) (List.length lo') && bcast_ok (List.length ld) (List.length ld'))%bool in
   if ((List.length lo =? List.length lo') && (List.length ld =? List.length ld'))%nat
   then b0 && negb (all_differ ld ld' && (1 <? List.length ld)%nat) && negb (all_differ lo lo' && (1 <? List.length lo)%nat)
   else b0) = false.
Proof.
  intros (_ & _ & _ & _ & Ko) (_ & _ & _ & _ & Kd) Hne. cbv zeta.
  destruct (list_eq_dec Z.eq_dec lo lo') as [Eo|No].
  - assert (Nd : ld <> ld') by tauto. pose proof (Kd Nd) as Hd. subst lo'. rewrite Nat.eqb_refl. cbn [andb].
    destruct (List.length ld =? List.length ld')%nat; rewrite Hd; rewrite ?andb_false_r; reflexivity.
  - pose proof (Ko No) as Ho.
    destruct (List.length lo =? List.length lo')%nat eqn:E1; cbn [andb].
    + destruct (List.length ld =? List.length ld')%nat eqn:E2.
      * rewrite Ho. apply andb_false_r.
      * destruct (list_eq_dec Z.eq_dec ld ld') as [Ed|Nd]; [subst; rewrite Nat.eqb_refl in E2; discriminate|].
        pose proof (Kd Nd) as Hd. rewrite Hd. apply andb_false_r.
    + rewrite Ho. reflexivity.
Qed.

Record reframed (x y x' y' : tri) : Prop := {
  rf_k : kdims x' = kdims x; rf_kl : key_labels x' = key_labels x; rf_v : vdims x' = vdims x;
  rf_o : odims x' = zunion (odims x) (odims y);
  rf_d : ddims x' = ddim_union (ddims x) (ddims y);
  rf_vd : vdate x' = vdate x; rf_cum : is_cumulative x' = is_cumulative x; rf_pat : is_pattern x' = is_pattern x;
  rf_og : ograin x' = ograin x; rf_dg : dgrain x' = dgrain x;
  rf_yk : kdims y' = kdims y; rf_ykl : key_labels y' = key_labels y; rf_yv : vdims y' = vdims y;
  rf_0 : ax0 (values x') = ax0 (values x); rf_1 : ax1 (values x') = ax1 (values x);
  rf_y0 : ax0 (values y') = ax0 (values y); rf_y1 : ax1 (values y') = ax1 (values y);
  rf_2 : ax2 (values x') = List.length (odims x'); rf_3 : ax3 (values x') = List.length (dlist (ddims x'));
  rf_y2 : ax2 (values y') = ax2 (values x'); rf_y3 : ax3 (values y') = ax3 (values x');
  rf_cx : forall i c o d, (i < ax0 (values x))%nat -> (c < ax1 (values x))%nat -> (o < ax2 (values x'))%nat -> (d < ax3 (values x'))%nat ->
    nz (av (values x') i c o d) =
    pick Z.eq_dec (odims x) (nth o (odims x') 0) 0 (fun r => pick Z.eq_dec (dlist (ddims x)) (nth d (dlist (ddims x')) 0) 0 (fun e => amount x i c r e));
  rf_cy : forall i c o d, (i < ax0 (values y))%nat -> (c < ax1 (values y))%nat -> (o < ax2 (values x'))%nat -> (d < ax3 (values x'))%nat ->
    nz (av (values y') i c o d) =
    pick Z.eq_dec (odims y) (nth o (odims x') 0) 0 (fun r => pick Z.eq_dec (dlist (ddims y)) (nth d (dlist (ddims x')) 0) 0 (fun e => amount y i c r e)) }.

Lemma wf_ne_o t : wf t -> odims t <> [].
Proof. intros W H. pose proof (wf_o1 _ W). rewrite (wf_o _ W), H in *. cbn in *. lia. Qed.
Lemma wf_ne_d t : wf t -> dlist (ddims t) <> [].
Proof. intros W H. pose proof (wf_d1 _ W). rewrite (wf_d _ W), H in *. cbn in *. lia. Qed.

Lemma prep_od_union x y : wf x -> wf y -> same_kind (ddims x) (ddims y) ->
  ablocks (odims x) (odims y) -> ablocks (dlist (ddims x)) (dlist (ddims y)) ->
  ~ (odims x = odims y /\ dlist (ddims x) = dlist (ddims y)) ->
  exists x' y', prep_origin_dev (ax0 (values x)) (ax1 (values x)) x y = Ok (x', y') /\ reframed x y x' y'.
Proof.
  intros Wx Wy K Ao Ad Hne.
  pose proof (unbroadcast _ _ _ _ Ao Ad Hne) as Hb. cbv zeta in Hb.
  destruct Ao as ((u1 & u3 & Bx) & (w1 & w3 & By) & A1 & A2 & _).
  destruct Ad as ((p1 & p3 & Px) & (q1 & q3 & Qy) & A3 & A4 & _).
  assert (Pos : forall u l v1 v3, is_block u l v1 v3 -> l <> [] -> first_pos u l = List.length v1 /\ last_pos u l = (List.length v1 + List.length l)%nat).
  { intros u l v1 v3 (-> & H1 & H3) N. apply block_pos; auto. }
  destruct (Pos _ _ _ _ Bx (wf_ne_o _ Wx)) as [Fx Lx]. destruct (Pos _ _ _ _ By (wf_ne_o _ Wy)) as [Fy Ly].
  destruct (Pos _ _ _ _ Px (wf_ne_d _ Wx)) as [Fpx Lpx]. destruct (Pos _ _ _ _ Qy (wf_ne_d _ Wy)) as [Fqy Lqy]. clear Pos.
  unfold prep_origin_dev. cbv zeta. rewrite (wf_o _ Wx), (wf_o _ Wy), (wf_d _ Wx), (wf_d _ Wy), A1, A2, A3, A4.
  rewrite ddim_all_differ_kind by auto. rewrite Hb.
  assert (Edd : match ddims x with
      | Ages a => match ddims y with Ages b => Ok (Ages (zunion a b)) | Vals _ => Err TypeError end
      | Vals a => match ddims y with Ages _ => Err TypeError | Vals b => Ok (Vals (zunion a b)) end end = Ok (ddim_union (ddims x) (ddims y))).
  { destruct (ddims x), (ddims y); cbn in K; try tauto; reflexivity. }
  rewrite Edd. cbn [rbind]. rewrite dlist_union.
  rewrite Fx, Lx, Fy, Ly, Fpx, Lpx, Fqy, Lqy.
  rewrite <- (wf_o _ Wx), <- (wf_o _ Wy), <- (wf_d _ Wx), <- (wf_d _ Wy).
  set (no := List.length (zunion (odims x) (odims y))). set (nd := List.length (zunion (dlist (ddims x)) (dlist (ddims y)))).
  destruct (place_ok (ax0 (values y)) (ax1 (values y)) no nd (List.length w1) (List.length q1) (values y) eq_refl eq_refl)
    as (vy & Ey & Y0 & Y1 & Y2 & Y3 & Yc).
  destruct (place_ok (ax0 (values x)) (ax1 (values x)) no nd (List.length u1) (List.length p1) (values x) eq_refl eq_refl)
    as (vx & Ex & X0 & X1 & X2 & X3 & Xc).
  rewrite Ey. cbn [rbind]. rewrite Ex. cbn [rbind].
  eexists; eexists; split; [reflexivity|].
  constructor; cbn [kdims key_labels vdims odims ddims values vdate is_cumulative is_pattern ograin dgrain set_values set_ddims set_odims set_dims]; auto.
  - rewrite X3, dlist_union. reflexivity.
  - congruence.
  - congruence.
  - intros i c o d Hi Hc Ho Hd. rewrite X2 in Ho. rewrite X3 in Hd. rewrite Xc by auto. rewrite dlist_union.
    eapply placed_amount; eauto using zunion_sorted.
  - intros i c o d Hi Hc Ho Hd. rewrite X2 in Ho. rewrite X3 in Hd. rewrite Yc by auto. rewrite dlist_union.
    eapply placed_amount; eauto using zunion_sorted.
Qed.

Lemma pick2_zero lo ld o a f :
  (forall r e, (r < List.length lo)%nat -> (e < List.length ld)%nat -> nth r lo 0 = o -> nth e ld 0 = a -> f r e = 0%Qc) ->
  pick Z.eq_dec lo o 0 (fun r => pick Z.eq_dec ld a 0 (fun e => f r e)) = 0%Qc.
Proof.
  intros H. rewrite (pick_ext _ _ _ _ _ (fun _ => 0%Qc)).
  - apply pick_zero; auto.
  - intros r Hr Er. rewrite (pick_ext _ _ _ _ _ (fun _ => 0%Qc)); [apply pick_zero; auto|]. intros e He Ee. auto.
Qed.

Definition month_lab (d : ddim) (o a : Z) : Z := match d with Ages _ => age_month o a | Vals _ => a end.
Lemma month_of_lab t o d : month_of t o d = month_lab (ddims t) (nth o (odims t) 0) (nth d (dlist (ddims t)) 0).
Proof. unfold month_of, month_lab. destruct (ddims t); reflexivity. Qed.
Lemma month_lab_kind a b o x : same_kind a b -> month_lab a o x = month_lab b o x.
Proof. destruct a, b; cbn; tauto. Qed.

Lemma future_pick_zero t i c o a : wf t -> blank_future t -> (i < ax0 (values t))%nat -> (c < ax1 (values t))%nat ->
  vdate t < month_lab (ddims t) o a ->
  pick Z.eq_dec (odims t) o 0 (fun r => pick Z.eq_dec (dlist (ddims t)) a 0 (fun e => amount t i c r e)) = 0%Qc.
Proof.
  intros W B Hi Hc Hf. apply pick2_zero. intros r e Hr He Er Ee. unfold amount. rewrite B; auto.
  - unfold in_range. rewrite (wf_o _ W), (wf_d _ W). auto.
  - unfold future. rewrite month_of_lab, Er, Ee. auto.
Qed.

Lemma wf_reframed x y x' y' v : wf x -> wf y -> same_kind (ddims x) (ddims y) -> frame_fits x y ->
  vdate x <= v <= ULT_VAL -> vdate y <= v -> reframed (set_vdate x v) y x' y' -> wf x'.
Proof.
  intros Wx Wy K Fit Hv Hvy R.
  pose proof (rf_0 _ _ _ _ R) as R0. pose proof (rf_1 _ _ _ _ R) as R1. pose proof (rf_2 _ _ _ _ R) as R2. pose proof (rf_3 _ _ _ _ R) as R3.
  pose proof (rf_k _ _ _ _ R) as Rk. pose proof (rf_v _ _ _ _ R) as Rv. pose proof (rf_o _ _ _ _ R) as Ro. pose proof (rf_d _ _ _ _ R) as Rd.
  pose proof (rf_vd _ _ _ _ R) as Rvd.
  cbn [kdims vdims odims ddims values vdate set_vdate] in *.
  constructor.
  - rewrite R0, Rk. apply Wx.
  - rewrite R1, Rv. apply Wx.
  - auto.
  - auto.
  - rewrite R2, Ro. destruct (zunion (odims x) (odims y)) eqn:E; [|cbn; lia]. exfalso.
    assert (In (hd 0 (odims x)) (zunion (odims x) (odims y))) by (apply zunion_In; left; apply hd_In, wf_ne_o; auto).
    rewrite E in H. destruct H.
  - rewrite R3, Rd, dlist_union. destruct (zunion (dlist (ddims x)) (dlist (ddims y))) eqn:E; [|cbn; lia]. exfalso.
    assert (In (hd 0 (dlist (ddims x))) (zunion (dlist (ddims x)) (dlist (ddims y)))) by (apply zunion_In; left; apply hd_In, wf_ne_d; auto).
    rewrite E in H. destruct H.
  - rewrite Ro. apply zunion_sorted.
  - rewrite Rd, dlist_union. apply zunion_sorted.
  - lia.
  - rewrite Rd, Ro, Rvd. unfold frame_fits in Fit. pose proof (wf_dev _ Wx) as Dx. pose proof (wf_dev _ Wy) as Dy.
    destruct (ddims x) as [l|l], (ddims y) as [m|m]; cbn in K; try tauto; cbn [ddim_union dlist] in *.
    + destruct Dx as (A & B & C), Dy as (A' & B' & C'). split; [|split].
      * intros a Ha. apply zunion_In in Ha. destruct Ha; auto.
      * intros o Ho. apply zunion_In in Ho. destruct Ho as [Ho|Ho]; [specialize (B _ Ho)|specialize (B' _ Ho)]; lia.
      * intros o a Ho Ha Hn. apply zunion_In in Ho, Ha. auto.
    + intros w Hw. apply zunion_In in Hw. destruct Hw; auto.
Qed.

Lemma qop_0 op : is_addsub op -> qop op 0%Qc 0%Qc = 0%Qc.
Proof. intros [-> | ->]; reflexivity. Qed.

Lemma addsub_reframe op x y : is_addsub op -> wf x -> wf y -> uniq_labels x ->
  kdims y = kdims x -> key_labels y = key_labels x -> vdims y = vdims x -> ograin y = ograin x -> dgrain y = dgrain x ->
  same_kind (ddims x) (ddims y) -> ablocks (odims x) (odims y) -> ablocks (dlist (ddims x)) (dlist (ddims y)) ->
  frame_fits x y -> blank_future x -> blank_future y -> ~ (odims x = odims y /\ dlist (ddims x) = dlist (ddims y)) ->
  exists u, tri_op op x y = Ok u /\ wf u /\ blank_future u /\
    (is_cumulative u = is_cumulative x /\ is_pattern u = (is_pattern x && is_pattern y)%bool /\ ograin u = ograin x /\ dgrain u = dgrain x) /\
    kdims u = kdims x /\ key_labels u = key_labels x /\ vdims u = vdims x /\
    (forall o, In o (odims u) <-> In o (odims x) \/ In o (odims y)) /\
    same_kind (ddims x) (ddims u) /\
    (forall a, In a (dlist (ddims u)) <-> In a (dlist (ddims x)) \/ In a (dlist (ddims y))) /\
    vdate u = Z.max (vdate x) (vdate y) /\
    forall k v o a, amount_at u k v o a = qop op (amount_at x k v o a) (amount_at y k v o a).
Proof.
  intros Hop Wx Wy U Ek El Ev Eog Edg K Ao Ad Fit Bx By Hne.
  assert (Uy : uniq_labels y) by (destruct U; split; [rewrite Ek|rewrite Ev]; auto).
  destruct (lhs_fields x y) as (Lk & Ll & Lv & Lo & Ld & La & Lvd & Lc & Log & Ldg).
  destruct (rhs_fields x y) as (Rk & Rl & Rv & Ro & Rd & Ra & Rvd & Rog & Rdg).
  pose proof (wf_lhs x y Wx Wy) as Wl. pose proof (wf_rhs x y Wy) as Wr.
  destruct (prep_od_union (lhs x y) (rhs x y)) as (x' & y' & E' & RF); try (rewrite ?Lo, ?Ld, ?Ro, ?Rd; auto; fail); auto.
  unfold tri_op. rewrite validate_unfold by (apply compatible_same; auto).
  rewrite prep_columns_same.
  2: rewrite Rv, Lv; auto.
  2: rewrite Ra, La, (wf_v _ Wx), (wf_v _ Wy), Ev; auto.
  cbn [rbind fst snd]. rewrite La in E'. rewrite E'. cbn [rbind fst snd].
  assert (Wx' : wf x').
  { unfold lhs in RF. pose proof (wf_vd _ Wx). pose proof (wf_vd _ Wy).
    eapply wf_reframed; [| | | | | |exact RF].
    - destruct (Bool.eqb _ _); auto. destruct Wx. constructor; cbn; auto.
    - auto.
    - rewrite Rd. destruct (Bool.eqb _ _); auto.
    - unfold frame_fits. rewrite Ro, Rd. destruct (Bool.eqb _ _); exact Fit.
    - destruct (Bool.eqb _ _); cbn [vdate set_pattern]; lia.
    - rewrite Rvd. lia. }
  rewrite prep_index_same.
  2: rewrite (rf_yk _ _ _ _ RF), (rf_k _ _ _ _ RF), Rk, Lk; auto.
  2: rewrite (rf_ykl _ _ _ _ RF), (rf_kl _ _ _ _ RF), Rl, Ll; auto.
  cbn [rbind].
  destruct (addsub_arr op x' (values y') Hop Wx') as (u & Eu & F & Hc & Hp & Hcell).
  { rewrite (rf_y0 _ _ _ _ RF), (rf_0 _ _ _ _ RF), Ra, La, (wf_k _ Wx), (wf_k _ Wy), Ek. auto. }
  { rewrite (rf_y1 _ _ _ _ RF), (rf_1 _ _ _ _ RF), Ra, La, (wf_v _ Wx), (wf_v _ Wy), Ev. auto. }
  { apply (rf_y2 _ _ _ _ RF). }
  { apply (rf_y3 _ _ _ _ RF). }
  exists u. split; [auto|].
  assert (Wu : wf u) by (eapply wf_same_frame; eauto). split; [auto|].
  assert (Kx' : same_kind (ddims x) (ddims x')).
  { rewrite (rf_d _ _ _ _ RF), Ld, Rd. destruct (ddims x), (ddims y); cbn in *; tauto. }
  assert (Ux : kdims u = kdims x) by (rewrite (sf_k _ _ F), (rf_k _ _ _ _ RF); auto).
  assert (Uv : vdims u = vdims x) by (rewrite (sf_v _ _ F), (rf_v _ _ _ _ RF); auto).
  assert (Uo : odims u = zunion (odims x) (odims y)) by (rewrite (sf_o _ _ F), (rf_o _ _ _ _ RF), Lo, Ro; auto).
  assert (Ud : dlist (ddims u) = zunion (dlist (ddims x)) (dlist (ddims y))) by (rewrite (sf_d _ _ F), (rf_d _ _ _ _ RF), dlist_union, Ld, Rd; auto).
  assert (Uvd : vdate u = Z.max (vdate x) (vdate y)) by (rewrite (sf_vd _ _ F), (rf_vd _ _ _ _ RF); auto).
  assert (Val : forall i c o d, in_range u i c o d -> stores (cel u i c o d)
     (qop op (amount_at x (nth i (kdims u) []) (nth c (vdims u) EmptyString) (nth o (odims u) 0) (nth d (dlist (ddims u)) 0))
             (amount_at y (nth i (kdims u) []) (nth c (vdims u) EmptyString) (nth o (odims u) 0) (nth d (dlist (ddims u)) 0))) /\
     (vdate u < month_of u o d -> 
       amount_at x (nth i (kdims u) []) (nth c (vdims u) EmptyString) (nth o (odims u) 0) (nth d (dlist (ddims u)) 0) = 0%Qc /\
       amount_at y (nth i (kdims u) []) (nth c (vdims u) EmptyString) (nth o (odims u) 0) (nth d (dlist (ddims u)) 0) = 0%Qc)).
  { intros i c o d R. assert (Rx' : in_range x' i c o d) by (apply (range_same_frame _ _ i c o d F); auto).
    destruct Rx' as (Hi' & Hc' & Ho' & Hd').
    assert (Hi : (i < ax0 (values x))%nat) by (rewrite (rf_0 _ _ _ _ RF), La in Hi'; auto).
    assert (Hcc : (c < ax1 (values x))%nat) by (rewrite (rf_1 _ _ _ _ RF), La in Hc'; auto).
    assert (Hiy : (i < ax0 (values y))%nat) by (rewrite (wf_k _ Wy), Ek, <- (wf_k _ Wx); auto).
    assert (Hcy : (c < ax1 (values y))%nat) by (rewrite (wf_v _ Wy), Ev, <- (wf_v _ Wx); auto).
    assert (EX : amount_at x (nth i (kdims u) []) (nth c (vdims u) EmptyString) (nth o (odims u) 0) (nth d (dlist (ddims u)) 0) = amount x' i c o d).
    { rewrite Ux, Uv, amount_at_kv; [|auto|rewrite <- (wf_k _ Wx); auto|rewrite <- (wf_v _ Wx); auto].
      unfold amount at 2, cel. rewrite (rf_cx _ _ _ _ RF) by (rewrite ?La; auto). rewrite Lo, Ld, (sf_o _ _ F), (sf_d _ _ F).
      apply pick_ext. intros r Hr _. apply pick_ext. intros e He _. unfold amount, cel. rewrite La. reflexivity. }
    assert (EY : amount_at y (nth i (kdims u) []) (nth c (vdims u) EmptyString) (nth o (odims u) 0) (nth d (dlist (ddims u)) 0) = nz (av (values y') i c o d)).
    { rewrite Ux, Uv, <- Ek, <- Ev, amount_at_kv; [|auto|rewrite <- (wf_k _ Wy); auto|rewrite <- (wf_v _ Wy); auto].
      rewrite (rf_cy _ _ _ _ RF) by (rewrite ?Ra; auto). rewrite Ro, Rd, (sf_o _ _ F), (sf_d _ _ F).
      apply pick_ext. intros r Hr _. apply pick_ext. intros e He _. unfold amount, cel. rewrite Ra. reflexivity. }
    assert (Fut : vdate u < month_of u o d -> 
       amount_at x (nth i (kdims u) []) (nth c (vdims u) EmptyString) (nth o (odims u) 0) (nth d (dlist (ddims u)) 0) = 0%Qc /\
       amount_at y (nth i (kdims u) []) (nth c (vdims u) EmptyString) (nth o (odims u) 0) (nth d (dlist (ddims u)) 0) = 0%Qc).
    { intros Hf. rewrite month_of_lab in Hf. rewrite Ux, Uv. split.
      - rewrite amount_at_kv; [|auto|rewrite <- (wf_k _ Wx); auto|rewrite <- (wf_v _ Wx); auto].
        apply future_pick_zero; auto. rewrite (month_lab_kind _ (ddims u)); [lia|]. rewrite (sf_d _ _ F); auto.
      - rewrite <- Ek, <- Ev, amount_at_kv; [|auto|rewrite <- (wf_k _ Wy); auto|rewrite <- (wf_v _ Wy); auto].
        apply future_pick_zero; auto. rewrite (month_lab_kind _ (ddims u)); [lia|]. rewrite (sf_d _ _ F).
        destruct (ddims x), (ddims y), (ddims x'); cbn in *; tauto. }
    split; [|auto].
    rewrite Hcell by (repeat split; auto).
    destruct (Nat.min (ax2 (values x')) (ax3 (values x')) =? 1)%nat; cbn [orb]; [rewrite <- EX, <- EY; apply stores_n2n|].
    destruct (Z.ltb_spec (vdate x') (month_of x' o d)) as [Hf|Hf]; cbn [negb]; [|rewrite <- EX, <- EY; apply stores_n2n].
    rewrite <- (sf_vd _ _ F), <- (month_same_frame _ _ o d F) in Hf. destruct (Fut Hf) as [Z1 Z2].
    rewrite Z1, Z2, qop_0 by auto. apply stores_None. }
  split. { intros i c o d R Hf. destruct (Val i c o d R) as [S Z0]. destruct (Z0 Hf) as [Z1 Z2]. rewrite Z1, Z2, qop_0 in S by auto. apply S; auto. }
  split. { rewrite Hc, Hp, (rf_cum _ _ _ _ RF), (rf_pat _ _ _ _ RF), pattern_lhs, (sf_og _ _ F), (sf_dg _ _ F), (rf_og _ _ _ _ RF), (rf_dg _ _ _ _ RF). auto. }
  do 3 (split; [rewrite ?(sf_kl _ _ F), ?(rf_kl _ _ _ _ RF); auto|]).
  split; [intros o; rewrite Uo; apply zunion_In|]. split; [rewrite (sf_d _ _ F); auto|].
  split; [intros a; rewrite Ud; apply zunion_In|]. split; [auto|].
  apply amount_at_fun; auto.
  - destruct U; split; [rewrite Ux|rewrite Uv]; auto.
  - intros i c o d R. destruct (Val i c o d R) as [S _]. unfold amount. apply stores_nz in S. exact S.
  - intros k v o a Hn. unfold has_labels in Hn. rewrite Ux, Uv, Uo, Ud, !zunion_In in Hn.
    rewrite !not_has_labels; [apply qop_0; auto| |]; unfold has_labels; rewrite ?Ek, ?Ev; tauto.
Qed.

(** Operands whose origins and ages can be aligned are combined by label. *)
Lemma addsub_align op g h x y : is_addsub op -> 0 < g -> 0 < h -> wf x -> wf y -> uniq_labels x ->
  kdims y = kdims x -> key_labels y = key_labels x -> vdims y = vdims x -> ograin y = ograin x -> dgrain y = dgrain x ->
  same_kind (ddims x) (ddims y) -> alignable g (odims x) (odims y) -> alignable h (dlist (ddims x)) (dlist (ddims y)) ->
  frame_fits x y -> blank_future x -> blank_future y ->
  exists u, tri_op op x y = Ok u /\ wf u /\ blank_future u /\
    kdims u = kdims x /\ key_labels u = key_labels x /\ vdims u = vdims x /\
    (forall o, In o (odims u) <-> In o (odims x) \/ In o (odims y)) /\
    same_kind (ddims x) (ddims u) /\
    (forall a, In a (dlist (ddims u)) <-> In a (dlist (ddims x)) \/ In a (dlist (ddims y))) /\
    vdate u = Z.max (vdate x) (vdate y) /\
    forall k v o a, amount_at u k v o a = qop op (amount_at x k v o a) (amount_at y k v o a).
Proof.
  intros Hop Hg Hh Wx Wy U Ek El Ev Eog Edg K Ao Ad Fit Bx By.
  assert (Uy : uniq_labels y) by (destruct U; split; [rewrite Ek|rewrite Ev]; auto).
  assert (Kr : forall d, same_kind d d) by (destruct d; cbn; auto).
  destruct (list_eq_dec Z.eq_dec (odims x) (odims y)) as [Eo|No];
  [destruct (list_eq_dec Z.eq_dec (dlist (ddims x)) (dlist (ddims y))) as [Ed|Nd]|].
  { assert (S : same_axes x y) by (constructor; auto; symmetry; apply same_kind_eq; auto).
    destruct (addsub_same op x y Hop Wx Wy S Bx By) as (u & Eu & Wu & J & Su & Bu & Hu).
    exists u. do 3 (split; [auto|]). destruct S as [_ _ _ So Sd _ _], Su as [Uk Ukl Uv Uo Ud _ _]. do 3 (split; [auto|]).
    split; [rewrite Uo, So; tauto|]. split; [rewrite Ud; apply Kr|]. split; [rewrite Ud, Sd; tauto|].
    destruct J as (_ & _ & _ & _ & _ & Jv & _). split; [auto|].
    apply amount_at_fun; auto.
    - destruct U; split; [rewrite Uk|rewrite Uv]; auto.
    - intros i c o d R.
      assert (Rx : in_range x i c o d).
      { unfold in_range in *. rewrite (wf_k _ Wu), (wf_v _ Wu), (wf_o _ Wu), (wf_d _ Wu), Uk, Uv, Uo, Ud in R.
        rewrite (wf_k _ Wx), (wf_v _ Wx), (wf_o _ Wx), (wf_d _ Wx). auto. }
      assert (Ry : in_range y i c o d).
      { unfold in_range in *. rewrite (wf_k _ Wy), (wf_v _ Wy), (wf_o _ Wy), (wf_d _ Wy), Ek, Ev, So, Sd.
        rewrite (wf_k _ Wx), (wf_v _ Wx), (wf_o _ Wx), (wf_d _ Wx) in Rx. auto. }
      rewrite Uk, Uv, Uo, Ud. rewrite amount_at_pos by auto. rewrite <- Ek, <- Ev, <- So, <- Sd. rewrite amount_at_pos by auto.
      unfold amount at 1. rewrite (stores_nz _ _ (Hu i c o d Rx)). reflexivity.
    - intros k v o a Hn. unfold has_labels in Hn. rewrite Uk, Uv, Uo, Ud in Hn.
      rewrite !not_has_labels; [apply qop_0; auto| |]; unfold has_labels; rewrite ?Ek, ?Ev, ?So, ?Sd; auto. }
  all: destruct (addsub_reframe op x y) as (u & A1 & A2 & A3 & _ & A); auto;
    [eapply (alignable_ablocks g); auto using wf_ne_o; apply wf_osort; auto
    |eapply (alignable_ablocks h); auto using wf_ne_d; apply wf_dsort; auto|tauto|exists u; auto].
Qed.
