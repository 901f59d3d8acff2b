(** Applying fitted factors to new data: proofs. *)
From Coq Require Import Lia Permutation.
From Verif Require Export P_CL P_Benk Predict SpecPredict P_Align3.
Local Open Scope Z_scope.

(** ** The zero row with the ages of the fitted triangle *)
Record zero_row (m z : tri) : Prop := {
  zr_k : List.length (kdims z) = 1%nat; zr_kl : key_labels z = key_labels m; zr_v : List.length (vdims z) = 1%nat;
  zr_o : odims z = [nth 0 (odims m) 0]; zr_d : ddims z = ddims m; zr_vd : vdate z = vdate m; zr_pat : is_pattern z = false;
  zr_og : ograin z = ograin m; zr_dg : dgrain z = dgrain m;
  zr_0 : ax0 (values z) = 1%nat; zr_1 : ax1 (values z) = 1%nat; zr_2 : ax2 (values z) = 1%nat; zr_3 : ax3 (values z) = ax3 (values m);
  zr_c : forall i c o d, nz (av (values z) i c o d) = 0%Qc }.
Lemma zero_row_ok m : method_input m ->
  exists a z, iloc_first m = Ok a /\ mul_arr (sum_axis a AxOrigin) (scalar_arr 0%Qc) = Ok z /\ zero_row m z.
Proof.
  intros MI. pose proof (mi_wf _ MI) as W.
  destruct (iloc_first_ok m W (mi_diag _ MI) (mi_0 _ MI) (mi_1 _ MI)) as (a & Ea & Ak & Akl & Av & Ao & Ad & Avd & (A1 & A2 & A3 & A4) & Wa & B0 & B1 & B2 & B3).
  exists a. set (s := sum_axis a AxOrigin).
  assert (S : kdims s = kdims a /\ key_labels s = key_labels a /\ vdims s = vdims a /\ odims s = [nth 0 (odims m) 0] /\ ddims s = ddims a /\ vdate s = vdate a /\
    is_pattern s = is_pattern a /\ ograin s = ograin a /\ dgrain s = dgrain a /\ ax0 (values s) = 1%nat /\ ax1 (values s) = 1%nat /\ ax2 (values s) = 1%nat /\ ax3 (values s) = ax3 (values m)).
  { assert (O1 : (1 <= List.length (odims a))%nat) by (rewrite <- (wf_o _ Wa); apply Wa).
    unfold s, sum_axis. destruct (Nat.ltb_spec 1 (List.length (odims a))) as [L|L]; cbn [kdims key_labels vdims odims ddims vdate is_pattern ograin dgrain values set_values set_odims set_dims map_arr nansum_axis axis_num ax0 ax1 ax2 ax3];
      (repeat split; auto); rewrite <- Ao; destruct (odims a) as [|q [|r w]]; cbn in *; try lia; reflexivity. }
  destruct S as (Sk & Skl & Sv & So & Sd & Svd & Sp & Sog & Sdg & S0 & S1 & S2 & S3).
  unfold mul_arr. rewrite bmap2_bc by (unfold bok; cbn [scalar_arr ax0 ax1 ax2 ax3]; pose proof (wf_d1 _ W); lia). cbn [rbind].
  eexists; split; [exact Ea|]. split; [reflexivity|].
  clearbody s. constructor; cbn [kdims key_labels vdims odims ddims vdate is_pattern ograin dgrain values set_values ax0 ax1 ax2 ax3 av scalar_arr]; rewrite ?Sk, ?Skl, ?Sv, ?Sd, ?Svd, ?Sp, ?Sog, ?Sdg, ?S0, ?S1, ?S2, ?S3; auto.
  - rewrite Ak. reflexivity.
  - rewrite Av. reflexivity.
  - rewrite A2. apply MI.
  - pose proof (wf_d1 _ W). lia.
  - intros i c o d. rewrite bav_scalar. destruct (bav _ _ _ _ _) as [q|]; cbn; [ring|reflexivity].
Qed.

(** ** The new data with further ages *)
Record extended (t x : tri) (zs : list Z) : Prop := {
  ex_k : kdims x = kdims t; ex_kl : key_labels x = key_labels t; ex_v : vdims x = vdims t; ex_o : odims x = odims t;
  ex_d : ddims x = Ages zs; ex_vd : vdate x = vdate t; ex_cum : is_cumulative x = is_cumulative t; ex_pat : is_pattern x = is_pattern t;
  ex_og : ograin x = ograin t; ex_dg : dgrain x = dgrain t;
  ex_0 : ax0 (values x) = ax0 (values t); ex_1 : ax1 (values x) = ax1 (values t); ex_2 : ax2 (values x) = ax2 (values t); ex_3 : ax3 (values x) = List.length zs;
  ex_c : forall i c o d, (i < ax0 (values t))%nat -> (c < ax1 (values t))%nat -> (o < ax2 (values t))%nat -> (d < List.length zs)%nat ->
     cel x i c o d = n2n (cmul (Some (if (d <? ax3 (values t))%nat then amount t i c o d else 0%Qc)) (Some (nz (nan_triangle x o d)))) }.

Lemma cut_progression a s n m : (1 <= s)%nat -> exists m', forall k, (k < m')%nat <-> (k < m /\ a + s * k < n)%nat.
Proof.
  intros Hs. induction m as [|m (m' & IH)]; [exists 0%nat; lia|].
  destruct (Nat.lt_ge_cases (a + s * m) n) as [L|L].
  - exists (S m). intros k. split; [|lia]. intros Hk. split; [lia|]. assert (s * k <= s * m)%nat by (apply Nat.mul_le_mono_l; lia). lia.
  - exists m'. intros k. rewrite IH. split; [lia|]. intros [H1 H2]. split; auto. destruct (Nat.eq_dec k m); [subst; lia|lia].
Qed.
Lemma extended_input t x xs more : method_input t -> ddims t = Ages xs -> extended t x (xs ++ more) ->
  StronglySorted Z.lt (xs ++ more) -> (forall a, In a more -> 1 <= a <= 9999) ->
  (forall o a, In o (odims t) -> In a more -> a <> 9999 -> o + a - 1 < ULT_VAL) ->
  method_input x /\ (forall o d, (d < ax3 (values t))%nat -> month_of x o d = month_of t o d) /\
  (forall i c o d, in_range t i c o d -> amount x i c o d = amount t i c o d).
Proof.
  intros MI Ed E S Ha Hr. pose proof (mi_wf _ MI) as W.
  assert (Lx : ax3 (values t) = List.length xs) by (rewrite (wf_d _ W), Ed; reflexivity).
  assert (Wx : wf x).
  { pose proof (wf_dev _ W) as WD. rewrite Ed in WD. destruct WD as (D1 & D2 & D3).
    constructor; rewrite ?(ex_0 _ _ _ E), ?(ex_1 _ _ _ E), ?(ex_2 _ _ _ E), ?(ex_3 _ _ _ E), ?(ex_k _ _ _ E), ?(ex_v _ _ _ E), ?(ex_o _ _ _ E), ?(ex_d _ _ _ E), ?(ex_vd _ _ _ E); try apply W; auto.
    - rewrite app_length. pose proof (wf_d1 _ W). lia.
    - split; [|split; auto].
      + intros a Hin. apply in_app_or in Hin. destruct Hin; auto.
      + intros o a Ho Hin. apply in_app_or in Hin. destruct Hin; auto. }
  assert (Mo : forall o d, (d < ax3 (values t))%nat -> month_of x o d = month_of t o d).
  { intros o d Hd. rewrite !month_of_lab, (ex_o _ _ _ E), (ex_d _ _ _ E), Ed. cbn [month_lab dlist]. rewrite app_nth1 by lia. reflexivity. }
  assert (Lat : forall o, (o < ax2 (values t))%nat -> exists d, (d < ax3 (values t))%nat /\ month_of t o d = vdate t) by apply (mi_diag _ MI).
  assert (Later : forall o d, (o < ax2 (values t))%nat -> (ax3 (values t) <= d < List.length (xs ++ more))%nat -> vdate t < month_of x o d).
  { intros o d Ho Hd. destruct (Lat o Ho) as (e & He & Me). rewrite <- Me, <- Mo by auto.
    apply month_strict; auto; rewrite ?(ex_2 _ _ _ E), ?(ex_3 _ _ _ E); auto; lia. }
  assert (Am : forall i c o d, in_range t i c o d -> amount x i c o d = amount t i c o d).
  { intros i c o d (R0 & R1 & R2 & R3). unfold amount at 1. rewrite (ex_c _ _ _ E) by (rewrite ?app_length; lia).
    rewrite nz_n2n. destruct (Nat.ltb_spec d (ax3 (values t))); [|lia]. cbn [cmul nz].
    rewrite nan_triangle_cases by (rewrite ?(ex_2 _ _ _ E), ?(ex_3 _ _ _ E), ?app_length; auto; lia).
    destruct (_ =? 1)%nat; [cbn; ring|]. rewrite (ex_vd _ _ _ E), Mo by auto.
    destruct (Z.ltb_spec (vdate t) (month_of t o d)) as [F|F]; [|cbn; ring].
    unfold amount. rewrite (mi_blank _ MI i c o d); [cbn; ring|repeat split; auto|exact F]. }
  split; [|split; auto]. constructor; rewrite ?(ex_0 _ _ _ E), ?(ex_1 _ _ _ E), ?(ex_pat _ _ _ E), ?(ex_cum _ _ _ E); try apply MI; auto.
  - intros i c o d (R0 & R1 & R2 & R3) F. rewrite (ex_0 _ _ _ E) in R0. rewrite (ex_1 _ _ _ E) in R1. rewrite (ex_2 _ _ _ E) in R2. rewrite (ex_3 _ _ _ E) in R3.
    rewrite (ex_c _ _ _ E) by auto. destruct (Nat.ltb_spec d (ax3 (values t))) as [L|L].
    + unfold future in F. rewrite (ex_vd _ _ _ E), Mo in F by auto. unfold amount. rewrite (mi_blank _ MI i c o d); [|repeat split; auto|exact F].
      cbn [nz cmul]. replace (0 * nz (nan_triangle x o d))%Qc with 0%Qc by ring. reflexivity.
    + cbn [cmul]. replace (0 * nz (nan_triangle x o d))%Qc with 0%Qc by ring. reflexivity.
  - destruct (mi_diag _ MI) as (_ & (p & s & k & Hs & Hk)). split.
    + intros o Ho. rewrite (ex_2 _ _ _ E) in Ho. destruct (Lat o Ho) as (d & Hd & M). exists d. rewrite (ex_3 _ _ _ E), app_length, Mo, (ex_vd _ _ _ E) by auto. split; [lia|auto].
    + destruct (cut_progression p s (ax3 (values t)) k Hs) as (k' & Hk'). exists p, s, k'. rewrite (ex_3 _ _ _ E), (ex_2 _ _ _ E), (ex_vd _ _ _ E). split; auto.
      intros d Hd. destruct (Nat.ltb_spec d (ax3 (values t))) as [L|L].
      * specialize (Hk d L). split.
        -- intros (o & Ho & M). rewrite Mo in M by auto. destruct (proj1 Hk (ex_intro _ o (conj Ho M))) as (q & Hq & ->). exists q. rewrite Hk'. auto.
        -- intros (q & Hq & ->). apply Hk' in Hq. destruct (proj2 Hk (ex_intro _ q (conj (proj1 Hq) eq_refl))) as (o & Ho & M). exists o. rewrite Mo by auto. auto.
      * split.
        -- intros (o & Ho & M). specialize (Later o d Ho ltac:(lia)). lia.
        -- intros (q & Hq & ->). apply Hk' in Hq. lia.
Qed.

(** Labels that begin with [xs]. *)
Lemma prefix_union xs ms zs r1 r2 : zs = xs ++ r1 -> zs = ms ++ r2 -> StronglySorted Z.lt zs ->
  (List.length xs <= List.length zs)%nat -> (List.length zs = Nat.max (List.length xs) (List.length ms))%nat ->
  StronglySorted Z.lt xs -> StronglySorted Z.lt ms -> zunion xs ms = zs.
Proof.
  intros E1 E2 S L1 L2 Sx Sm. apply sorted_Z_ext; auto using zunion_sorted. intros a. rewrite zunion_In. split.
  - intros [H|H]; [rewrite E1|rewrite E2]; apply in_or_app; auto.
  - intros H. destruct (Nat.le_gt_cases (List.length xs) (List.length ms)) as [L|L].
    + right. assert (r2 = []) by (apply length_zero_iff_nil; apply (f_equal (@List.length Z)) in E2; rewrite app_length in E2; lia). subst r2. rewrite app_nil_r in E2. congruence.
    + left. assert (r1 = []) by (apply length_zero_iff_nil; apply (f_equal (@List.length Z)) in E1; rewrite app_length in E1; lia). subst r1. rewrite app_nil_r in E1. congruence.
Qed.
Lemma prefix_pos xs zs r : zs = xs ++ r -> xs <> [] -> StronglySorted Z.lt zs -> first_pos zs xs = 0%nat /\ last_pos zs xs = List.length xs.
Proof.
  intros -> N S. apply (block_pos [] xs r); auto.
  intros x H1 H2. pose proof (sorted_NoDup _ S) as ND. apply NoDup_app_disj with (x := x) in ND; auto.
Qed.

Lemma place_prefix n0 n1 no nd d2 a : ax0 a = n0 -> ax1 a = n1 -> (ax2 a = no \/ ax2 a = 1)%nat -> (1 <= no)%nat -> ax3 a = d2 ->
  exists r, place n0 n1 no nd 0 no 0 d2 a = Ok r /\ ax0 r = n0 /\ ax1 r = n1 /\ ax2 r = no /\ ax3 r = nd /\
    forall i c o d, (i < n0)%nat -> (c < n1)%nat -> (o < no)%nat ->
      av r i c o d = if (d <? d2)%nat then av a i c (if (ax2 a =? 1)%nat then 0%nat else o) d else None.
Proof.
  intros <- <- H2 Ho <-. unfold place, fits. rewrite !Nat.sub_0_r, !Nat.eqb_refl. cbn [orb andb].
  assert (F : ((ax2 a =? no) || (ax2 a =? 1))%nat = true).
  { destruct H2 as [-> | ->]; rewrite ?Nat.eqb_refl, ?orb_true_r; reflexivity. }
  rewrite F. cbn [andb]. eexists; split; [reflexivity|]. cbn [ax0 ax1 ax2 ax3 av]. do 4 (split; [reflexivity|]).
  intros i c o d Hi Hc Hoo. cbn [Nat.leb andb]. destruct (Nat.ltb_spec o no); [|lia]. cbn [andb].
  destruct (Nat.ltb_spec d (ax3 a)); [|reflexivity]. rewrite !Nat.sub_0_r, !(bidx_lt _ _ Hi), !(bidx_lt _ _ Hc), (bidx_lt (ax3 a)) by auto. reflexivity.
Qed.

Section AddAges.
Variables (m t : tri) (xs ms zs : list Z).
Hypothesis MM : method_input m.
Hypothesis MT : method_input t.
Hypothesis Kl : key_labels t = key_labels m.
Hypothesis Og : ograin t = ograin m.
Hypothesis Dg : dgrain t = dgrain m.
Hypothesis Vd : vdate m <= vdate t.
Hypothesis Ex : ddims t = Ages xs.
Hypothesis Em : ddims m = Ages ms.
Hypothesis P1 : exists r, zs = xs ++ r.
Hypothesis P2 : exists r, zs = ms ++ r.
Hypothesis Lz : List.length zs = Nat.max (List.length xs) (List.length ms).
Hypothesis Sz : StronglySorted Z.lt zs.
Hypothesis Hx : xs = ms \/ ((2 <= List.length xs)%nat /\ (2 <= List.length ms)%nat /\ ((2 <= List.length (odims t))%nat \/ odims t = [nth 0 (odims m) 0])).

Lemma add_ages_ok : exists x, add_model_ages m t = Ok x /\ extended t x zs.
Proof.
  pose proof (mi_wf _ MM) as Wm. pose proof (mi_wf _ MT) as Wt.
  destruct (zero_row_ok m MM) as (a & z & Ea & Ez & ZR). unfold add_model_ages. rewrite Ea. cbn [rbind]. rewrite Ez. cbn [rbind]. clear a Ea Ez.
  pose proof (wf_shape t Wt (mi_0 _ MT) (mi_1 _ MT)) as St.
  assert (Lx : ax3 (values t) = List.length xs) by (rewrite (wf_d _ Wt), Ex; reflexivity).
  assert (Lm : ax3 (values m) = List.length ms) by (rewrite (wf_d _ Wm), Em; reflexivity).
  assert (Sz' : shape_ok z).
  { unfold shape_ok. rewrite (zr_0 _ _ ZR), (zr_1 _ _ ZR), (zr_2 _ _ ZR), (zr_3 _ _ ZR), (zr_k _ _ ZR), (zr_v _ _ ZR), (zr_o _ _ ZR), (zr_d _ _ ZR), Em. pose proof (wf_d1 _ Wm). cbn [List.length dlist]. lia. }
  assert (Hx' : xs = ms \/ (List.length xs <> List.length ms /\ (2 <= List.length xs)%nat /\ (2 <= List.length ms)%nat /\ ((2 <= List.length (odims t))%nat \/ odims t = [nth 0 (odims m) 0]))).
  { destruct Hx as [E|(N1 & N2 & No)]; [auto|]. destruct (Nat.eq_dec (List.length xs) (List.length ms)) as [E|E]; [left|right; auto].
    destruct P1 as (r & E1), P2 as (r' & E2). rewrite E1 in E2.
    apply (f_equal (firstn (List.length xs))) in E2. rewrite !firstn_app, <- E, Nat.sub_diag, firstn_all in E2. cbn [firstn] in E2. rewrite !app_nil_r in E2.
    rewrite E2, E. apply firstn_all. }
  destruct Hx' as [E|(Ne & N1 & N2 & No)].
  - (* the same ages *)
    assert (zs = xs).
    { destruct P1 as (r & E1). assert (r = []) by (apply length_zero_iff_nil; rewrite E1, app_length, E in Lz; lia). subst r. rewrite app_nil_r in E1. auto. }
    subst zs. destruct (tri_op_narrow OAdd t z) as (x & Ex' & R).
    { constructor; auto.
      - rewrite (zr_og _ _ ZR); auto.
      - left. rewrite (zr_dg _ _ ZR); auto.
      - rewrite (zr_kl _ _ ZR); auto.
      - right. apply ZR.
      - right. apply ZR.
      - right. rewrite (zr_o _ _ ZR). reflexivity.
      - left. rewrite (zr_d _ _ ZR). congruence. }
    exists x. split; auto. constructor; try apply R.
    + rewrite (nr_d _ _ _ _ R). auto.
    + rewrite (nr_vd _ _ _ _ R), (zr_vd _ _ ZR). lia.
    + rewrite (nr_pat _ _ _ _ R), (mi_pat _ MT). reflexivity.
    + rewrite (nr_3 _ _ _ _ R). auto.
    + intros i c o d Hi Hc Ho Hd. rewrite (nr_cell _ _ _ _ R) by (repeat split; auto; lia). destruct (Nat.ltb_spec d (ax3 (values t))); [|lia].
      cbn [cop]. unfold nz_add, bav. rewrite (zr_c _ _ ZR), Qcplus_0_r. reflexivity.
  - (* further ages on one side *)
    unfold tri_op. rewrite validate_unfold.
    2:{ unfold compatible. rewrite (zr_og _ _ ZR), (zr_dg _ _ ZR), Og, Dg, !grain_eqb_refl. reflexivity. }
    destruct (lhs_fields t z) as (Lk & Ll & Lv & Lo & Ld & La & Lvd & Lc & Log & Ldg).
    destruct (rhs_fields t z) as (Rk & Rl & Rv & Ro & Rd & Ra & Rvd & Rog & Rdg).
    destruct St as (T0 & T1 & T2 & T3 & T4 & T5 & T6 & T7).
    destruct (prep_columns_bc (lhs t z) (rhs t z)) as (y1 & E1 & Hy1); try (rewrite ?Lv, ?Rv, ?La, ?Ra, ?(zr_v _ _ ZR), ?(zr_1 _ _ ZR); lia).
    { unfold bc. rewrite Rv, (zr_v _ _ ZR). auto. }
    rewrite E1. cbn [rbind fst snd]. rewrite Lv, Rv, pk_keep by (right; apply ZR).
    assert (Y1f : values y1 = values z /\ kdims y1 = kdims z /\ key_labels y1 = key_labels z /\ odims y1 = odims z /\ ddims y1 = ddims z /\ ograin y1 = ograin z /\ dgrain y1 = dgrain z).
    { destruct Hy1 as [-> | ->]; cbn; repeat split; auto. }
    destruct Y1f as (V1 & K1 & KL1 & O1 & D1 & OG1 & DG1). clear E1 Hy1.
    set (x1 := set_vdims (lhs t z) (vdims t)).
    assert (X1f : kdims x1 = kdims t /\ key_labels x1 = key_labels t /\ vdims x1 = vdims t /\ odims x1 = odims t /\ ddims x1 = ddims t /\ values x1 = values t /\
      vdate x1 = vdate t /\ is_cumulative x1 = is_cumulative t /\ is_pattern x1 = is_pattern t /\ ograin x1 = ograin t /\ dgrain x1 = dgrain t).
    { unfold x1. cbn [kdims key_labels vdims odims ddims values vdate is_cumulative is_pattern ograin dgrain set_vdims set_dims].
      rewrite Lk, Ll, Lo, Ld, La, Lvd, Lc, pattern_lhs, (mi_pat _ MT), Log, Ldg, (zr_vd _ _ ZR). repeat split; auto. lia. }
    clearbody x1. destruct X1f as (Q1 & Q2 & Q3 & Q4 & Q5 & Q6 & Q7 & Q8 & Q9 & Q10 & Q11).
    assert (Fin : exists x2 y2, prep_origin_dev (ax0 (values t)) (ax1 (values t)) x1 y1 = Ok (x2, y2) /\ kdims y2 = kdims z /\ key_labels y2 = key_labels z /\
       kdims x2 = kdims t /\ key_labels x2 = key_labels t /\ vdims x2 = vdims t /\ odims x2 = odims t /\ ddims x2 = Ages zs /\ vdate x2 = vdate t /\ is_cumulative x2 = is_cumulative t /\
       is_pattern x2 = is_pattern t /\ ograin x2 = ograin t /\ dgrain x2 = dgrain t /\
       (ax0 (values x2) = ax0 (values t) /\ ax1 (values x2) = ax1 (values t) /\ ax2 (values x2) = ax2 (values t) /\ ax3 (values x2) = List.length zs) /\
       (ax0 (values y2) = 1 /\ ax1 (values y2) = 1 /\ ax2 (values y2) = ax2 (values t) /\ ax3 (values y2) = List.length zs)%nat /\
       (forall i c o d, (i < ax0 (values t))%nat -> (c < ax1 (values t))%nat -> (o < ax2 (values t))%nat ->
          av (values x2) i c o d = if (d <? ax3 (values t))%nat then cel t i c o d else None) /\
       (forall o d, (o < ax2 (values t))%nat -> nz (av (values y2) 0 0 o d) = 0%Qc)).
    { unfold prep_origin_dev. cbv zeta. rewrite Q4, Q5, Q6, V1, O1, D1, (zr_o _ _ ZR), (zr_d _ _ ZR), (zr_2 _ _ ZR), (zr_3 _ _ ZR), Ex, Em. cbn [dlist List.length].
      rewrite Lx, Lm. rewrite (proj2 (Nat.eqb_neq (List.length xs) (List.length ms))) by auto. rewrite andb_false_r.
      assert (BF : bcast_ok (List.length xs) (List.length ms) = false).
      { unfold bcast_ok. rewrite (proj2 (Nat.eqb_neq (List.length xs) (List.length ms))) by auto. rewrite (proj2 (Nat.eqb_neq (List.length xs) 1)), (proj2 (Nat.eqb_neq (List.length ms) 1)) by lia. reflexivity. }
      rewrite BF, andb_false_r. cbn [Nat.eqb andb].
      replace (if (1 <? List.length (odims t))%nat then (x1, set_grains (set_odims y1 (odims t)) (ograin x1) (dgrain y1)) else (x1, y1))
        with (x1, if (1 <? List.length (odims t))%nat then set_grains (set_odims y1 (odims t)) (ograin x1) (dgrain y1) else y1)
        by (destruct (1 <? List.length (odims t))%nat; reflexivity).
      set (y2 := if (1 <? List.length (odims t))%nat then set_grains (set_odims y1 (odims t)) (ograin x1) (dgrain y1) else y1).
      assert (Y2f : values y2 = values z /\ kdims y2 = kdims z /\ key_labels y2 = key_labels z /\ odims y2 = odims t /\ ddims y2 = Ages ms).
      { unfold y2. destruct (Nat.ltb_spec 1 (List.length (odims t))) as [H|H]; cbn [values kdims key_labels odims ddims set_grains set_odims set_dims]; repeat split; auto; rewrite ?D1, ?(zr_d _ _ ZR); auto.
        destruct No as [No|No]; [lia|]. rewrite O1, (zr_o _ _ ZR), No. reflexivity. }
      clearbody y2. destruct Y2f as (U1 & U2 & U3 & U4 & U5).
      rewrite ?Q5, ?U5, ?Ex. cbn [dlist].
      rewrite ?andb_false_r. rewrite (proj2 (Nat.eqb_neq (List.length xs) 1)), (proj2 (Nat.eqb_neq (List.length ms) 1)) by lia. cbn [andb].
      rewrite Q4, Q5, U4, U5, Ex. cbn [dlist rbind].
      assert (Sxs : StronglySorted Z.lt xs) by (pose proof (wf_dsort _ Wt) as H; rewrite Ex in H; exact H).
      assert (Sms : StronglySorted Z.lt ms) by (pose proof (wf_dsort _ Wm) as H; rewrite Em in H; exact H).
      assert (Uz : zunion xs ms = zs).
      { destruct P1 as (r & E1), P2 as (r' & E2). apply (prefix_union xs ms zs r r'); auto. lia. }
      rewrite Uz, (zunion_refl (odims t)) by apply Wt.
      destruct P1 as (r & E1), P2 as (r' & E2).
      destruct (prefix_pos xs zs r E1) as [F1 F2]; [intros ->; cbn in *; lia|auto|].
      destruct (prefix_pos ms zs r' E2) as [G1 G2]; [intros ->; cbn in *; lia|auto|].
      destruct (prefix_pos (odims t) (odims t) [] (eq_sym (app_nil_r _))) as [H1 H2]; [apply wf_ne_o; auto|apply Wt|].
      rewrite F1, F2, G1, G2, H1, H2, Q6, U1.
      destruct (place_prefix (ax0 (values z)) (ax1 (values z)) (List.length (odims t)) (List.length zs) (List.length ms) (values z) eq_refl eq_refl) as (vy & Ey & Y0 & Y1 & Y2 & Y3 & Yc);
        [right; apply ZR|lia|rewrite (zr_3 _ _ ZR); auto|].
      destruct (place_prefix (ax0 (values t)) (ax1 (values t)) (List.length (odims t)) (List.length zs) (List.length xs) (values t) eq_refl eq_refl) as (vx & Exx & X0 & X1 & X2 & X3 & Xc);
        [left; apply Wt|lia|auto|].
      rewrite Ey. cbn [rbind]. rewrite Exx. cbn [rbind]. eexists; eexists; split; [reflexivity|].
      cbn [kdims key_labels vdims odims ddims values vdate is_cumulative is_pattern ograin dgrain set_values set_ddims set_odims set_dims].
      rewrite X0, X1, X2, X3, Y0, Y1, Y2, Y3, (zr_0 _ _ ZR), (zr_1 _ _ ZR), <- T2.
      do 12 (split; [assumption || reflexivity|]). split; [auto|]. split; [auto|]. split.
      - intros i c o d Hi Hc Ho. rewrite Xc by (auto; lia). destruct (Nat.ltb_spec d (List.length xs)); [|reflexivity].
        unfold cel. f_equal. destruct (Nat.eqb_spec (ax2 (values t)) 1); lia.
      - intros o d Ho. rewrite Yc; [|rewrite (zr_0 _ _ ZR); lia|rewrite (zr_1 _ _ ZR); lia|lia]. destruct (_ <? _)%nat; [apply ZR|reflexivity]. }
    destruct Fin as (x2 & y2 & E2 & W1 & W2 & G1 & G2 & G3 & G4 & G5 & G6 & G7 & G8 & G9 & G10 & (A0 & A1 & A2 & A3) & (B0 & B1 & B2 & B3) & Ca & Cb).
    rewrite E2. cbn [rbind fst snd].
    rewrite prep_index_bc.
    2:{ rewrite G1. lia. } 2:{ rewrite W1, (zr_k _ _ ZR). lia. } 2:{ rewrite W2, G2, (zr_kl _ _ ZR). auto. } 2:{ unfold bc. rewrite W1, (zr_k _ _ ZR). auto. }
    cbn [rbind]. rewrite G1, W1, pk_keep by (right; apply ZR). cbn [op_arr]. unfold add_arr. cbn [values set_kdims set_dims].
    pose proof (wf_o1 _ Wt). pose proof (mi_0 _ MT). pose proof (mi_1 _ MT).
    rewrite bmap2_bc by (unfold bok; lia). cbn [rbind]. eexists; split; [reflexivity|].
    set (rr := cleanup _).
    constructor; try (unfold rr; cbn [cleanup kdims key_labels vdims odims ddims values vdate is_cumulative is_pattern ograin dgrain set_values set_kdims set_dims ax0 ax1 ax2 ax3]; (assumption || lia)).
    + reflexivity.
    + intros i c o d Hi Hc Ho Hd. unfold rr at 1. unfold cel, cleanup. cbn [values set_values av]. change (nan_triangle _ o d) with (nan_triangle rr o d).
      f_equal. f_equal. unfold nz_add. f_equal. unfold bav. rewrite A0, A1, A2, A3, B0, B1, B2, B3, !(bidx_lt _ i), !(bidx_lt _ c), !(bidx_lt _ o), !(bidx_lt _ d), !bidx_1 by auto.
      rewrite Cb by auto. rewrite Ca by auto. rewrite Qcplus_0_r. destruct (_ <? _)%nat; reflexivity.
Qed.
End AddAges.

(** ** Preparing the input of a prediction *)
Lemma prefix_longer (xs ms r r' ls : list Z) : ls = xs ++ r -> ls = ms ++ r' ->
  exists zs, (exists q, zs = xs ++ q) /\ (exists q, zs = ms ++ q) /\ (exists q, ls = zs ++ q) /\ List.length zs = Nat.max (List.length xs) (List.length ms).
Proof.
  intros E1 E2. exists (firstn (Nat.max (List.length xs) (List.length ms)) ls).
  assert (L1 : (List.length xs <= List.length ls)%nat) by (rewrite E1, app_length; lia).
  assert (L2 : (List.length ms <= List.length ls)%nat) by (rewrite E2, app_length; lia).
  repeat split.
  - eexists. rewrite E1, firstn_app, (firstn_all2 xs) by lia. reflexivity.
  - eexists. rewrite E2, firstn_app, (firstn_all2 ms) by lia. reflexivity.
  - eexists. symmetry. apply firstn_skipn.
  - apply firstn_length_le. lia.
Qed.

(** What the factors and the extended triangle have in common. *)
Record prepared (t l x : tri) : Prop := {
  pr_mi : method_input x; pr_wl : wf l;
  pr_k : kdims x = kdims t; pr_kl : key_labels x = key_labels t; pr_v : vdims x = vdims t; pr_o : odims x = odims t;
  pr_vd : vdate x = vdate t; pr_og : ograin x = ograin t; pr_dg : dgrain x = dgrain t; pr_d : exists more, dlist (ddims x) = dlist (ddims t) ++ more;
  pr_0 : ax0 (values x) = ax0 (values t); pr_1 : ax1 (values x) = ax1 (values t); pr_2 : ax2 (values x) = ax2 (values t); pr_3 : (ax3 (values t) <= ax3 (values x))%nat;
  pr_mo : forall o d, (d < ax3 (values t))%nat -> month_of x o d = month_of t o d;
  pr_am : forall i c o d, in_range t i c o d -> amount x i c o d = amount t i c o d;
  pr_lk : key_labels l = key_labels t; pr_lv : vdims l = vdims t; pr_lo : List.length (odims l) = 1%nat;
  pr_ld : exists zs more, ddims x = Ages zs /\ ddims l = Ages (zs ++ more);
  pr_lp : is_pattern l = true; pr_lc : is_cumulative l <> Some true; pr_log : ograin l = ograin t; pr_ldg : dgrain l = dgrain t }.

Lemma predict_prepared m l t : new_data m l t -> exists x, predict_input m l t = intersection x l /\ prepared t l x /\ ax3 (values x) = Nat.max (ax3 (values t)) (ax3 (values m)).
Proof.
  intros N. pose proof (nd_m _ _ _ N) as MM. pose proof (nd_t _ _ _ N) as MT. pose proof (nd_l _ _ _ N) as FO.
  pose proof (mi_wf _ MM) as Wm. pose proof (mi_wf _ MT) as Wt. pose proof (fo_wf _ _ FO) as Wl.
  destruct (nd_d _ _ _ N) as (xs & r & Ex & El). destruct (fo_d _ _ FO) as (ms & r' & Em & El').
  assert (EE : xs ++ r = ms ++ r') by congruence.
  destruct (prefix_longer xs ms r r' (xs ++ r) eq_refl EE) as (zs & P1 & P2 & (q & P3) & Lz).
  assert (Sl : StronglySorted Z.lt (xs ++ r)) by (pose proof (wf_dsort _ Wl) as H; rewrite El in H; exact H).
  assert (Sz : StronglySorted Z.lt zs).
  { rewrite P3 in Sl. clear -Sl. induction zs as [|a zs IH]; [constructor|]. cbn in Sl. inversion Sl as [|? ? S1 S2]; subst. constructor; [apply IH; auto|].
    apply Forall_app in S2. tauto. }
  assert (Lx : ax3 (values t) = List.length xs) by (rewrite (wf_d _ Wt), Ex; reflexivity).
  assert (Lm : ax3 (values m) = List.length ms) by (rewrite (wf_d _ Wm), Em; reflexivity).
  destruct (add_ages_ok m t xs ms zs) as (x & Eax & EX); auto.
  { apply N. } { apply N. } { apply N. } { apply N. }
  { destruct (nd_two _ _ _ N) as [E|(H1 & H2 & H3)]; [left; congruence|right]. rewrite <- Lx, <- Lm, <- (wf_o _ Wt). auto. }
  destruct P1 as (q1 & E1).
  assert (IN : forall a, In a q1 -> In a ms).
  { intros a Ha. destruct P2 as (q2 & E2). destruct (Nat.le_gt_cases (List.length xs) (List.length ms)) as [L|L].
    - assert (q2 = []) by (apply length_zero_iff_nil; apply (f_equal (@List.length Z)) in E2; rewrite app_length in E2; lia). subst q2. rewrite app_nil_r in E2. rewrite <- E2, E1. apply in_or_app; auto.
    - assert (q1 = []) by (apply length_zero_iff_nil; apply (f_equal (@List.length Z)) in E1; rewrite app_length in E1; lia). subst q1. contradiction. }
  rewrite E1 in EX. destruct (extended_input t x xs q1 MT Ex EX) as (MX & Mo & Am).
  { rewrite <- E1; auto. }
  { intros a Ha. pose proof (wf_dev _ Wm) as WD. rewrite Em in WD. destruct WD as (D1 & _). apply D1. auto. }
  { intros o a Ho Ha Hn. apply (nd_room _ _ _ N); auto. rewrite Em. cbn. auto. }
  exists x. split.
  - unfold predict_input, val_to_dev. rewrite Ex at 1. cbn [rbind].
    assert (EB : existsb (fun a => zmaxl (dlist (ddims l)) (hd 0 (dlist (ddims l))) <? a) (dlist (ddims t)) = false).
    { apply not_true_is_false. intros H. apply existsb_exists in H. destruct H as (a & Ha & L). apply Z.ltb_lt in L.
      assert (a <= zmaxl (dlist (ddims l)) (hd 0 (dlist (ddims l)))); [|lia]. apply zmaxl_ge. right. rewrite El. cbn. rewrite Ex in Ha. cbn in Ha. apply in_or_app; auto. }
    rewrite EB, Eax. reflexivity.
  - split; [|rewrite (ex_3 _ _ _ EX), <- E1, Lx, Lm; exact Lz]. constructor; try (apply EX); auto.
    + rewrite (ex_d _ _ _ EX), Ex. cbn. eauto.
    + rewrite (ex_3 _ _ _ EX), app_length. lia.
    + rewrite (fo_kl _ _ FO). symmetry. apply N.
    + apply N.
    + apply FO.
    + exists zs, q. rewrite (ex_d _ _ _ EX), El, E1. split; auto. f_equal. rewrite P3, E1. reflexivity.
    + apply FO.
    + apply FO.
    + rewrite (fo_og _ _ FO). symmetry. apply N.
    + rewrite (fo_dg _ _ FO). symmetry. apply N.
Qed.

(** ** Selecting the shared rows *)
Lemma find_str_nth l n : NoDup l -> (n < List.length l)%nat -> find_str (nth n l EmptyString) l = Ok n.
Proof.
  intros ND Hn. destruct (find_str_In (nth n l EmptyString) l) as (k & -> & Hk & E); [apply nth_In; auto|]. f_equal. eapply NoDup_nth; eauto.
Qed.
Lemma key_part_all labels key : NoDup labels -> List.length key = List.length labels -> key_part labels key labels = key.
Proof.
  intros ND L. apply nth_ext with EmptyString EmptyString; [unfold key_part; rewrite map_length; auto|].
  intros n Hn. unfold key_part in *. rewrite map_length in Hn.
  rewrite nth_indep with (d' := match find_str EmptyString labels with Ok k => nth k key EmptyString | Err _ => EmptyString end) by (rewrite map_length; auto).
  rewrite (map_nth (fun c => match find_str c labels with Ok k => nth k key EmptyString | Err _ => EmptyString end)).
  rewrite find_str_nth by auto. reflexivity.
Qed.
Lemma sel_filter {A} (P : A -> bool) (l : list A) d : sel l d (filter (fun i => P (nth i l d)) (seq 0 (List.length l))) = filter P l.
Proof.
  induction l as [|a l IH]; [reflexivity|].
  assert (E : forall s, filter (fun i => P (nth i (a :: l) d)) (map S s) = map S (filter (fun i => P (nth i l d)) s)).
  { intros s. induction s as [|n s IHs]; [reflexivity|]. cbn [map filter]. change (nth (S n) (a :: l) d) with (nth n l d). rewrite IHs. destruct (P (nth n l d)); reflexivity. }
  assert (E2 : forall s, sel (a :: l) d (map S s) = sel l d s) by (intros s; unfold sel; rewrite map_map; reflexivity).
  change (seq 0 (List.length (a :: l))) with (0%nat :: seq 1 (List.length l)). rewrite <- seq_shift. cbn [filter]. rewrite E. change (nth 0 (a :: l) d) with a.
  destruct (P a).
  - rewrite <- IH, <- E2. reflexivity.
  - rewrite E2. apply IH.
Qed.
Lemma shared_rows_known a b : NoDup (key_labels a) -> key_labels b = key_labels a -> full_keys a -> full_keys b ->
  shared_rows (key_labels a) a b = filter (fun i => if in_dec (list_eq_dec string_dec) (nth i (kdims a) []) (kdims b) then true else false) (seq 0 (List.length (kdims a))).
Proof.
  intros ND KL FA FB. unfold shared_rows. apply filter_ext_in'. intros i Hi. apply in_seq in Hi. unfold row_key. rewrite KL.
  rewrite (key_part_all _ (nth i (kdims a) [])); [|auto|apply FA, nth_In; lia].
  destruct (in_dec _ _ _) as [I|I].
  - apply existsb_exists. apply In_nth with (d := []) in I. destruct I as (j & Hj & E). exists j. split; [apply in_seq; lia|].
    rewrite key_part_all; [|auto|rewrite <- KL; apply FB, nth_In; auto]. apply strs_eqb_eq. auto.
  - apply not_true_is_false. intros H. apply existsb_exists in H. destruct H as (j & Hj & E). apply in_seq in Hj.
    rewrite key_part_all in E; [|auto|rewrite <- KL; apply FB, nth_In; lia]. apply strs_eqb_eq in E. apply I. rewrite E. apply nth_In. lia.
Qed.

Lemma picked_input x rows u : method_input x -> picked x rows (seq 0 (ax1 (values x))) u -> rows <> [] -> (forall i, In i rows -> (i < ax0 (values x))%nat) ->
  method_input u /\ vdate u = vdate x.
Proof.
  intros MI P Ne Hr. pose proof (mi_wf _ MI) as W. pose proof (pk_le _ _ _ _ P) as Le.
  assert (Vd : vdate u = vdate x).
  { destruct (mi_diag _ MI) as (D1 & _). destruct (D1 0%nat) as (d & Hd & M); [pose proof (wf_o1 _ W); lia|].
    pose proof (pk_fut _ _ _ _ P 0%nat d ltac:(pose proof (wf_o1 _ W); lia) Hd) as F. rewrite M, Z.ltb_irrefl in F. apply Z.ltb_ge in F. lia. }
  split; auto. constructor.
  - apply P.
  - eapply picked_blank; eauto. { intros c Hc. apply in_seq in Hc. lia. } apply MI.
  - destruct (mi_diag _ MI) as (D1 & (p & s & k & Hs & D2)). split.
    + intros o Ho. rewrite (pk_2 _ _ _ _ P) in Ho. destruct (D1 o Ho) as (d & Hd & M). exists d. rewrite (pk_3 _ _ _ _ P), (picked_month _ _ _ _ _ _ P), Vd. auto.
    + exists p, s, k. split; auto. intros d Hd. rewrite (pk_3 _ _ _ _ P) in Hd. rewrite <- D2 by auto. rewrite (pk_2 _ _ _ _ P), Vd.
      split; intros (o & Ho & M); exists o; split; auto; rewrite (picked_month _ _ _ _ _ _ P) in *; auto.
  - rewrite (pk_pat _ _ _ _ P). apply MI.
  - rewrite (pk_cum _ _ _ _ P). apply MI.
  - rewrite (pk_0 _ _ _ _ P). destruct rows; [congruence|cbn; lia].
  - rewrite (pk_1 _ _ _ _ P), seq_length. apply MI.
Qed.

(** The rows of the prepared triangle and factors that go into the method. *)
Record selection (t l x a b : tri) (ra rb : list nat) : Prop := {
  se_mi : method_input a; se_fo : factors_over a b; se_k : kdims a = known_keys (kdims t) (kdims l); se_kb : kdims b = kdims a;
  se_ra : sel (kdims t) [] ra = kdims a; se_rb : sel (kdims l) [] rb = kdims a;
  se_kl : key_labels a = key_labels t; se_v : vdims a = vdims t; se_o : odims a = odims t; se_d : ddims a = ddims x; se_vd : vdate a = vdate t;
  se_og : ograin a = ograin t; se_dg : dgrain a = dgrain t;
  se_0 : ax0 (values a) = List.length ra; se_1 : ax1 (values a) = ax1 (values t); se_2 : ax2 (values a) = ax2 (values t); se_3 : ax3 (values a) = ax3 (values x);
  se_a : forall r c o d, (r < List.length ra)%nat -> in_range t (nth r ra 0%nat) c o d -> amount a r c o d = amount t (nth r ra 0%nat) c o d;
  se_b : forall r c d, (r < List.length rb)%nat -> (c < ax1 (values t))%nat -> to_ultimate b r c d = to_ultimate l (nth r rb 0%nat) c d;
  se_b1 : ax1 (values b) = ax1 (values t);
  se_ia : forall i, In i ra -> (i < List.length (kdims t))%nat; se_ib : forall i, In i rb -> (i < List.length (kdims l))%nat }.

Lemma known_nil_one ks ls : known_keys ks ls <> [] -> List.length ks = 1%nat -> List.length ls = 1%nat -> ks = ls.
Proof.
  destruct ks as [|k [|k' ks]], ls as [|j [|j' js]]; cbn [List.length]; try discriminate; intros H _ _. unfold known_keys in H. cbn [filter] in H.
  destruct (in_dec _ _ _) as [[->|[]]|]; [reflexivity|congruence].
Qed.
Lemma known_self ks : known_keys ks ks = ks.
Proof.
  unfold known_keys. rewrite (filter_ext_in' _ (fun _ => true)).
  - induction ks; cbn; congruence.
  - intros k Hk. destruct (in_dec _ _ _); tauto.
Qed.
Lemma intersection_rows t l x : prepared t l x -> matched t l -> exists a b ra rb, intersection x l = Ok (a, b) /\ selection t l x a b ra rb.
Proof.
  intros P M. pose proof (pr_mi _ _ _ P) as MX. pose proof (mi_wf _ MX) as Wx. pose proof (pr_wl _ _ _ P) as Wl.
  destruct (mt_labels _ _ M) as (NL & KL). destruct (mt_t _ _ M) as (NT & FT). destruct (mt_l _ _ M) as (Nl & Fl).
  assert (Fx : full_keys x) by (unfold full_keys; rewrite (pr_k _ _ _ P), (pr_kl _ _ _ P); exact FT).
  assert (Am : forall i c o d, in_range t i c o d -> amount x i c o d = amount t i c o d) by apply P.
  assert (Lv1 : ax1 (values l) = ax1 (values t)) by (rewrite (wf_v _ Wl), (pr_lv _ _ _ P), <- (pr_1 _ _ _ P), (wf_v _ Wx), (pr_v _ _ _ P); reflexivity).
  unfold intersection. cbv zeta. rewrite (common_same x l) by (rewrite (pr_lk _ _ _ P), (pr_kl _ _ _ P); reflexivity). rewrite (pr_k _ _ _ P).
  destruct ((List.length (kdims t) =? 1)%nat && (List.length (kdims l) =? 1)%nat) eqn:O1.
  - apply andb_true_iff in O1. destruct O1 as (O1 & O2). apply Nat.eqb_eq in O1. apply Nat.eqb_eq in O2.
    pose proof (known_nil_one _ _ (mt_some _ _ M) O1 O2) as EK. exists x, l, [0%nat], [0%nat]. split; auto.
    assert (S0 : forall ks : list (list string), List.length ks = 1%nat -> sel ks [] [0%nat] = ks) by (intros [|k [|? ?]]; cbn; congruence).
    constructor; try (apply P).
    + constructor; try (apply P); rewrite ?(pr_k _ _ _ P), ?(pr_kl _ _ _ P), ?(pr_v _ _ _ P), ?(pr_og _ _ _ P), ?(pr_dg _ _ _ P); try (apply P); auto. left. apply P.
    + rewrite (pr_k _ _ _ P), <- EK, known_self. reflexivity.
    + rewrite (pr_k _ _ _ P). auto.
    + rewrite (pr_k _ _ _ P). auto.
    + rewrite (pr_k _ _ _ P), EK. auto.
    + reflexivity.
    + rewrite (wf_k _ Wx), (pr_k _ _ _ P). auto.
    + reflexivity.
    + intros r c o d Hr R. cbn in Hr. replace r with 0%nat in * by lia. cbn in *. auto.
    + intros r c d Hr Hc. cbn in Hr. replace r with 0%nat by lia. reflexivity.
    + auto.
    + intros i [<-|[]]. lia.
    + intros i [<-|[]]. lia.
  - assert (EX : shared_rows (key_labels x) x l = filter (fun i => if in_dec (list_eq_dec string_dec) (nth i (kdims t) []) (kdims l) then true else false) (seq 0 (List.length (kdims t)))).
    { rewrite shared_rows_known; rewrite ?(pr_k _ _ _ P), ?(pr_kl _ _ _ P); auto. }
    assert (ELx : shared_rows (key_labels x) l x = filter (fun i => if in_dec (list_eq_dec string_dec) (nth i (kdims l) []) (kdims t) then true else false) (seq 0 (List.length (kdims l)))).
    { replace (key_labels x) with (key_labels l) by (rewrite (pr_kl _ _ _ P); auto).
      rewrite shared_rows_known; rewrite ?(pr_k _ _ _ P), ?(pr_kl _ _ _ P), ?KL; auto. }
    set (ra := filter _ (seq 0 (List.length (kdims t)))) in EX. set (rb := filter _ (seq 0 (List.length (kdims l)))) in ELx. rewrite EX, ELx.
    assert (SA : sel (kdims t) [] ra = known_keys (kdims t) (kdims l)) by (apply (sel_filter (fun k => if in_dec (list_eq_dec string_dec) k (kdims l) then true else false))).
    assert (SB : sel (kdims l) [] rb = known_keys (kdims l) (kdims t)) by (apply (sel_filter (fun k => if in_dec (list_eq_dec string_dec) k (kdims t) then true else false))).
    assert (Na : ra <> []) by (intros E; apply (mt_some _ _ M); rewrite <- SA, E; reflexivity).
    assert (Nb : rb <> []) by (intros E; apply (mt_some _ _ M); rewrite (mt_order _ _ M), <- SB, E; reflexivity).
    assert (Ha : forall i, In i ra -> (i < List.length (kdims t))%nat) by (intros i Hi; apply filter_In in Hi; destruct Hi as (Hi & _); apply in_seq in Hi; lia).
    assert (Hb : forall i, In i rb -> (i < List.length (kdims l))%nat) by (intros i Hi; apply filter_In in Hi; destruct Hi as (Hi & _); apply in_seq in Hi; lia).
    assert (Da : NoDup ra) by (apply NoDup_filter, seq_NoDup). assert (Db : NoDup rb) by (apply NoDup_filter, seq_NoDup).
    clearbody ra rb. clear EX ELx.
    assert (NK : key_labels x <> []).
    { intros E. rewrite (pr_kl _ _ _ P) in E. destruct ra as [|i0 ra']; [congruence|]. destruct (kdims t) as [|k0 ks] eqn:EK; [specialize (Ha i0 (or_introl eq_refl)); cbn in Ha; lia|].
      destruct ks as [|k1 ks].
      - destruct (kdims l) as [|l0 [|l1 ls]] eqn:EL.
        + destruct rb as [|j rb']; [congruence|]. specialize (Hb j (or_introl eq_refl)). cbn in Hb. lia.
        + cbn in O1. discriminate.
        + assert (F0 : l0 = []) by (apply length_zero_iff_nil; rewrite Fl by (rewrite EL; cbn; auto); rewrite KL, E; reflexivity).
          assert (F1 : l1 = []) by (apply length_zero_iff_nil; rewrite Fl by (rewrite EL; cbn; auto); rewrite KL, E; reflexivity).
          inversion Nl as [|? ? Hn _]; subst. apply Hn. cbn; auto.
      - assert (F0 : k0 = []) by (apply length_zero_iff_nil; rewrite FT by (rewrite EK; cbn; auto); rewrite E; reflexivity).
        assert (F1 : k1 = []) by (apply length_zero_iff_nil; rewrite FT by (rewrite EK; cbn; auto); rewrite E; reflexivity).
        inversion NT as [|? ? Hn _]; subst. apply Hn. cbn; auto. }
    destruct (key_labels x) as [|kl0 kls]; [congruence|]. destruct ra as [|i0 ra'] eqn:Era; [congruence|]. rewrite <- Era in *. rewrite andb_false_r.
    destruct (iloc_rows_ok l rb Wl Db Nb Hb) as (b & Eb & PB). rewrite Eb. cbn [rbind].
    assert (Ha' : forall i, In i ra -> (i < List.length (kdims x))%nat) by (intros i Hi; rewrite (pr_k _ _ _ P); auto).
    destruct (iloc_rows_ok x ra Wx Da Na Ha') as (a & Ea & PA). rewrite Ea. cbn [rbind].
    destruct (picked_input x ra a MX PA Na) as (MA & VA); [intros i Hi; rewrite (wf_k _ Wx); auto|].
    exists a, b, ra, rb. split; auto.
    assert (Ka : kdims a = known_keys (kdims t) (kdims l)) by (rewrite (pk_k _ _ _ _ PA), (pr_k _ _ _ P); auto).
    assert (Kb : kdims b = kdims a) by (rewrite (pk_k _ _ _ _ PB), SB, <- (mt_order _ _ M); auto).
    assert (Va : vdims a = vdims t) by (rewrite (pk_v _ _ _ _ PA), sel_seq_all by apply Wx; apply P).
    assert (Vb : vdims b = vdims t) by (rewrite (pk_v _ _ _ _ PB), sel_seq_all by apply Wl; apply P).
    constructor; auto.
    + constructor; auto.
      * apply PB.
      * rewrite (pk_kl _ _ _ _ PB), (pk_kl _ _ _ _ PA), (pr_kl _ _ _ P). auto.
      * left. congruence.
      * rewrite (pk_o _ _ _ _ PB). apply P.
      * rewrite (pk_d _ _ _ _ PB), (pk_d _ _ _ _ PA). apply P.
      * rewrite (pk_pat _ _ _ _ PB). apply P.
      * rewrite (pk_cum _ _ _ _ PB). apply P.
      * rewrite (pk_og _ _ _ _ PB), (pk_og _ _ _ _ PA), (pr_og _ _ _ P). apply P.
      * rewrite (pk_dg _ _ _ _ PB), (pk_dg _ _ _ _ PA), (pr_dg _ _ _ P). apply P.
    + congruence.
    + rewrite SB, Ka. symmetry. apply M.
    + rewrite (pk_kl _ _ _ _ PA). apply P.
    + rewrite (pk_o _ _ _ _ PA). apply P.
    + apply PA.
    + rewrite VA. apply P.
    + rewrite (pk_og _ _ _ _ PA). apply P.
    + rewrite (pk_dg _ _ _ _ PA). apply P.
    + apply PA.
    + rewrite (pk_1 _ _ _ _ PA), seq_length. apply P.
    + rewrite (pk_2 _ _ _ _ PA). apply P.
    + apply PA.
    + intros r c o d Hr R. rewrite <- Am by auto. pose proof R as (R0 & R1 & R2 & R3). pose proof (pr_3 _ _ _ P). unfold amount. f_equal.
      rewrite (pk_c _ _ _ _ PA) by (rewrite ?(pr_2 _ _ _ P); auto; lia). rewrite seq_nth by (rewrite (pr_1 _ _ _ P); auto). reflexivity.
    + intros r c d Hr Hc. unfold to_ultimate. rewrite (pk_3 _ _ _ _ PB). apply prodn_ext. intros k Hk. f_equal.
      rewrite (pk_c _ _ _ _ PB) by (try lia; pose proof (wf_o1 _ Wl); lia). rewrite seq_nth by lia. reflexivity.
    + rewrite (pk_1 _ _ _ _ PB), seq_length. auto.
Qed.

Lemma known_in ks ls k : In k (known_keys ks ls) <-> In k ks /\ In k ls.
Proof. unfold known_keys. rewrite filter_In. destruct (in_dec _ _ _); intuition discriminate. Qed.
Lemma selection_row t l x a b ra rb i j : wf t -> wf l -> matched t l -> selection t l x a b ra rb ->
  (i < ax0 (values t))%nat -> (j < ax0 (values l))%nat -> nth i (kdims t) [] = nth j (kdims l) [] ->
  exists r, (r < ax0 (values a))%nat /\ nth r (kdims a) [] = nth i (kdims t) [] /\ (r < List.length ra)%nat /\ nth r ra 0%nat = i /\ (r < List.length rb)%nat /\ nth r rb 0%nat = j.
Proof.
  intros Wt Wl M SE Hi Hj E. rewrite (wf_k _ Wt) in Hi. rewrite (wf_k _ Wl) in Hj.
  assert (I : In (nth i (kdims t) []) (kdims a)).
  { rewrite (se_k _ _ _ _ _ _ _ SE). apply known_in. split; [apply nth_In; auto|]. rewrite E. apply nth_In; auto. }
  apply In_nth with (d := []) in I. destruct I as (r & Hr & Er). exists r.
  assert (La : List.length (kdims a) = List.length ra) by (rewrite <- (se_ra _ _ _ _ _ _ _ SE); apply sel_length).
  assert (Lb : List.length (kdims a) = List.length rb) by (rewrite <- (se_rb _ _ _ _ _ _ _ SE); apply sel_length).
  assert (Ra : forall (k : list (list string)) rr, (r < List.length rr)%nat -> nth r (sel k [] rr) [] = nth (nth r rr 0%nat) k []).
  { intros k rr H. unfold sel. rewrite nth_indep with (d' := nth 0%nat k []) by (rewrite map_length; auto). apply (map_nth (fun q => nth q k [])). }
  split; [rewrite (se_0 _ _ _ _ _ _ _ SE); lia|]. split; [exact Er|]. split; [lia|].
  destruct (mt_t _ _ M) as (NT & _). destruct (mt_l _ _ M) as (NL & _).
  assert (IA : (nth r ra 0 < List.length (kdims t))%nat) by (apply (se_ia _ _ _ _ _ _ _ SE), nth_In; lia).
  assert (IB : (nth r rb 0 < List.length (kdims l))%nat) by (apply (se_ib _ _ _ _ _ _ _ SE), nth_In; lia).
  split; [|split; [lia|]].
  - pose proof Er as Er'. rewrite <- (se_ra _ _ _ _ _ _ _ SE), Ra in Er' by lia. apply (proj1 (NoDup_nth _ []) NT); auto.
  - pose proof Er as Er'. rewrite <- (se_rb _ _ _ _ _ _ _ SE), Ra in Er' by lia. rewrite E in Er'. apply (proj1 (NoDup_nth _ []) NL); auto.
Qed.

Theorem predict_known m l t : new_data m l t -> matched t l ->
  exists x u, cl_predict m l t = Ok (x, u) /\ ultimate_frame x u /\ kdims x = known_keys (kdims t) (kdims l) /\ key_labels x = key_labels t /\ vdims x = vdims t /\ odims x = odims t /\ vdate x = vdate t /\ blank_future x /\
    forall i j c o d, in_range t i c o d -> (j < ax0 (values l))%nat -> nth i (kdims t) [] = nth j (kdims l) [] ->
      exists r, (r < ax0 (values u))%nat /\ nth r (kdims u) [] = nth i (kdims t) [] /\ amount x r c o d = amount t i c o d /\
        (month_of t o d = vdate t -> stores (cel u r c o 0%nat) (amount t i c o d * to_ultimate l j c d)%Qc).
Proof.
  intros N M. destruct (predict_prepared m l t N) as (x & Ep & P & X3). destruct (intersection_rows t l x P M) as (a & b & ra & rb & Ei & SE).
  pose proof (se_mi _ _ _ _ _ _ _ SE) as MA. pose proof (mi_wf _ MA) as Wa. pose proof (mi_wf _ (nd_t _ _ _ N)) as Wt. pose proof (fo_wf _ _ (nd_l _ _ _ N)) as Wl.
  destruct (cl_ultimate_over a b MA (se_fo _ _ _ _ _ _ _ SE)) as (u & Eu & UF & UC).
  exists a, u. unfold cl_predict. rewrite Ep, Ei. cbn [rbind fst snd]. rewrite Eu. cbn [rbind]. split; auto. split; auto.
  do 5 (split; [apply SE|]). split; [apply MA|].
  intros i j c o d R Hj E. pose proof R as (R0 & R1 & R2 & R3).
  destruct (selection_row t l x a b ra rb i j Wt Wl M SE R0 Hj E) as (r & Hr & Er & Ha & Na & Hb & Nb).
  exists r. rewrite (uf_0 _ _ UF), (uf_k _ _ UF). split; [auto|]. split; [auto|].
  assert (Am : amount a r c o d = amount t i c o d) by (rewrite <- Na; apply (se_a _ _ _ _ _ _ _ SE); auto; rewrite Na; auto).
  split; [exact Am|]. intros Mo.
  assert (D3 : (ax3 (values t) <= ax3 (values a))%nat) by (rewrite (se_3 _ _ _ _ _ _ _ SE); apply P).
  assert (Ra : in_range a r c o d) by (unfold in_range; rewrite (se_1 _ _ _ _ _ _ _ SE), (se_2 _ _ _ _ _ _ _ SE); repeat split; auto; lia).
  assert (Ma : month_of a o d = vdate a).
  { rewrite (se_vd _ _ _ _ _ _ _ SE), <- Mo, <- (pr_mo _ _ _ P) by auto. unfold month_of. rewrite (se_o _ _ _ _ _ _ _ SE), (se_d _ _ _ _ _ _ _ SE), (pr_o _ _ _ P). reflexivity. }
  pose proof (UC r c o d Ra Ma) as C. rewrite Am in C.
  assert (B0 : ax0 (values b) = ax0 (values a)) by (rewrite (wf_k _ (fo_wf _ _ (se_fo _ _ _ _ _ _ _ SE))), (wf_k _ Wa), (se_kb _ _ _ _ _ _ _ SE); reflexivity).
  rewrite !served_in in C by (rewrite ?B0, ?(se_b1 _ _ _ _ _ _ _ SE); auto).
  rewrite (se_b _ _ _ _ _ _ _ SE), Nb in C by auto. exact C.
Qed.

(** One row of factors for data with other keys. *)
Lemma intersection_one t l x : prepared t l x -> List.length (kdims l) = 1%nat -> NoDup (key_labels t) -> full_keys t -> full_keys l ->
  ~ In (nth 0 (kdims l) []) (kdims t) \/ List.length (kdims t) = 1%nat -> intersection x l = Ok (x, l).
Proof.
  intros P L1 NL FT Fl H. unfold intersection. cbv zeta. rewrite (common_same x l) by (rewrite (pr_lk _ _ _ P), (pr_kl _ _ _ P); reflexivity). rewrite (pr_k _ _ _ P), L1.
  cbn [Nat.eqb]. rewrite andb_true_r, orb_true_r. cbn [andb]. destruct (Nat.eqb_spec (List.length (kdims t)) 1) as [|Nt]; [reflexivity|].
  destruct H as [H|]; [|contradiction].
  destruct (key_labels x) eqn:EK; [reflexivity|]. rewrite <- EK.
  rewrite shared_rows_known; rewrite ?(pr_k _ _ _ P), ?(pr_kl _ _ _ P), ?(pr_lk _ _ _ P); auto.
  2:{ unfold full_keys. rewrite (pr_k _ _ _ P), (pr_kl _ _ _ P). exact FT. }
  rewrite (filter_ext_in' _ (fun _ => false)).
  - generalize (seq 0 (List.length (kdims t))). intros z. replace (filter (fun _ => false) z) with (@nil nat) by (clear; induction z; auto). reflexivity.
  - intros i Hi. apply in_seq in Hi. destruct (in_dec _ _ _) as [I|]; [|reflexivity]. exfalso. apply H. destruct (kdims l) as [|k [|? ?]]; try discriminate. destruct I as [E|[]].
    cbn. rewrite E. apply nth_In. lia.
Qed.
Theorem predict_one_row m l t : new_data m l t -> List.length (kdims l) = 1%nat -> NoDup (key_labels t) -> full_keys t -> full_keys l ->
  ~ In (nth 0 (kdims l) []) (kdims t) \/ List.length (kdims t) = 1%nat ->
  exists x u, cl_predict m l t = Ok (x, u) /\ ultimate_frame x u /\ kdims x = kdims t /\ key_labels x = key_labels t /\ vdims x = vdims t /\ odims x = odims t /\ vdate x = vdate t /\ blank_future x /\
    forall i c o d, in_range t i c o d -> amount x i c o d = amount t i c o d /\
        (month_of t o d = vdate t -> stores (cel u i c o 0%nat) (amount t i c o d * to_ultimate l 0 c d)%Qc).
Proof.
  intros N L1 NL FT Fl H. destruct (predict_prepared m l t N) as (x & Ep & P & X3). pose proof (pr_mi _ _ _ P) as MX. pose proof (mi_wf _ MX) as Wx. pose proof (pr_wl _ _ _ P) as Wl.
  assert (FO : factors_over x l).
  { constructor; try (apply P); rewrite ?(pr_k _ _ _ P), ?(pr_kl _ _ _ P), ?(pr_v _ _ _ P), ?(pr_og _ _ _ P), ?(pr_dg _ _ _ P); try (apply P); auto. left. apply P. }
  destruct (cl_ultimate_over x l MX FO) as (u & Eu & UF & UC). exists x, u. unfold cl_predict. rewrite Ep, (intersection_one t l x) by auto. cbn [rbind fst snd]. rewrite Eu. cbn [rbind].
  split; auto. split; auto. do 5 (split; [apply P|]). split; [apply MX|].
  intros i c o d R. pose proof (pr_am _ _ _ P i c o d R) as Am. split; auto. intros Mo. pose proof R as (R0 & R1 & R2 & R3). pose proof (pr_3 _ _ _ P).
  assert (Rx : in_range x i c o d) by (unfold in_range; rewrite (pr_0 _ _ _ P), (pr_1 _ _ _ P), (pr_2 _ _ _ P); repeat split; auto; lia).
  assert (Mx : month_of x o d = vdate x) by (rewrite (pr_mo _ _ _ P), (pr_vd _ _ _ P) by auto; auto).
  pose proof (UC i c o d Rx Mx) as C. rewrite Am in C.
  assert (A1 : ax1 (values l) = ax1 (values t)) by (rewrite (wf_v _ Wl), (pr_lv _ _ _ P), <- (pr_1 _ _ _ P), (wf_v _ Wx), (pr_v _ _ _ P); reflexivity).
  rewrite (served_in (ax1 (values l))) in C by lia. rewrite (wf_k _ Wl), L1 in C. exact C.
Qed.

(** Predicting the fitted triangle. *)
Lemma stores_same x y q : stores x q -> stores y q -> x = y.
Proof. intros [X1 X2] [Y1 Y2]. destruct (Qc_eqb_spec q 0%Qc) as [E|E]; [rewrite X1, Y1 by auto|rewrite X2, Y2 by auto]; reflexivity. Qed.
Lemma new_data_self t l : method_input t -> pattern_for t l -> new_data t l t.
Proof.
  intros MI PF. constructor; auto; try reflexivity; try lia.
  - apply pattern_over; auto.
  - apply PF.
  - apply PF.
  - pose proof (wf_dev _ (mi_wf _ MI)) as WD. destruct (pf_d _ _ PF) as (xs & more & E & _). rewrite E in *. cbn. destruct WD as (_ & _ & D3). auto.
Qed.
Lemma matched_self t l : pattern_for t l -> NoDup (key_labels t) -> NoDup (kdims t) -> full_keys t -> kdims t <> [] -> matched t l.
Proof.
  intros PF NL NK FK Ne. assert (KL : key_labels l = key_labels t) by apply PF. assert (K : kdims l = kdims t) by apply PF.
  constructor; rewrite ?K, ?KL; auto.
  - split; auto. unfold full_keys. rewrite K, KL. auto.
  - rewrite known_self. auto.
Qed.
Theorem predict_self t l : method_input t -> pattern_for t l -> NoDup (key_labels t) -> NoDup (kdims t) -> full_keys t ->
  exists x u u', cl_predict t l t = Ok (x, u) /\ cl_ultimate t l = Ok u' /\ kdims x = kdims t /\ ddims x = ddims t /\ ultimate_frame t u /\ ultimate_frame t u' /\
    (forall i c o d, in_range t i c o d -> amount x i c o d = amount t i c o d) /\
    forall i c o, (i < ax0 (values t))%nat -> (c < ax1 (values t))%nat -> (o < ax2 (values t))%nat -> cel u i c o 0%nat = cel u' i c o 0%nat.
Proof.
  intros MI PF NL NK FK. pose proof (mi_wf _ MI) as W. pose proof (new_data_self t l MI PF) as N.
  assert (Ne : kdims t <> []) by (pose proof (mi_0 _ MI) as H; rewrite (wf_k _ W) in H; destruct (kdims t); [cbn in H; lia|discriminate]).
  pose proof (matched_self t l PF NL NK FK Ne) as M.
  destruct (cl_ultimate_ok t l MI PF) as (u' & Eu' & UF' & UC').
  destruct (predict_prepared t l t N) as (x & Ep & P & X3). destruct (intersection_rows t l x P M) as (a & b & ra & rb & Ei & SE).
  destruct (predict_known t l t N M) as (a' & u & Ec & UF & K & Kl & V & O & Vd & _ & C).
  assert (a' = a).
  { unfold cl_predict in Ec. rewrite Ep, Ei in Ec. cbn [rbind fst snd] in Ec. destruct (cl_ultimate a b); [|discriminate]. cbn in Ec. congruence. }
  subst a'. assert (Ka : kdims a = kdims t) by (rewrite K, (pf_k _ _ PF), known_self; reflexivity).
  assert (Dx : ddims x = ddims t).
  { destruct (pr_ld _ _ _ P) as (zs & more & Ez & _). destruct (pr_d _ _ _ P) as (q & Eq). destruct (pf_d _ _ PF) as (xs & more' & Ed & _).
    rewrite Ez, Ed in *. cbn [dlist] in Eq. rewrite (wf_d _ (mi_wf _ (pr_mi _ _ _ P))), (wf_d _ W), Ez, Ed in X3. cbn [dlist] in X3. rewrite Nat.max_id in X3.
    assert (q = []) by (apply length_zero_iff_nil; rewrite Eq, app_length in X3; lia). subst q. rewrite app_nil_r in Eq. congruence. }
  assert (A0 : ax0 (values a) = ax0 (values t)) by (rewrite (wf_k _ (mi_wf _ (se_mi _ _ _ _ _ _ _ SE))), Ka, (wf_k _ W); reflexivity).
  assert (UFt : ultimate_frame t u).
  { constructor; try apply UF.
    - rewrite (uf_k _ _ UF). auto.
    - rewrite (uf_kl _ _ UF). auto.
    - rewrite (uf_v _ _ UF). auto.
    - rewrite (uf_o _ _ UF). auto.
    - rewrite (uf_og _ _ UF). apply SE.
    - rewrite (uf_dg _ _ UF). apply SE.
    - rewrite (uf_0 _ _ UF). auto.
    - rewrite (uf_1 _ _ UF). apply SE.
    - rewrite (uf_2 _ _ UF). apply SE. }
  assert (Row : forall i c o d, in_range t i c o d -> amount a i c o d = amount t i c o d /\ (month_of t o d = vdate t -> stores (cel u i c o 0%nat) (amount t i c o d * to_ultimate l i c d)%Qc)).
  { intros i c o d R. pose proof R as (R0 & _). destruct (C i i c o d R) as (r & Hr & Er & Ha & Hs).
    - rewrite (wf_k _ (pf_wf _ _ PF)), (pf_k _ _ PF), <- (wf_k _ W). auto.
    - rewrite (pf_k _ _ PF). reflexivity.
    - assert (r = i).
      { rewrite (uf_0 _ _ UFt), (wf_k _ W) in Hr. rewrite (wf_k _ W) in R0. rewrite (uf_k _ _ UFt) in Er. apply (proj1 (NoDup_nth _ []) NK); auto. }
      subst r. auto. }
  exists a, u, u'. split; auto. split; auto. split; auto. split; [rewrite (se_d _ _ _ _ _ _ _ SE); auto|]. split; auto. split; auto. split.
  - intros i c o d R. apply Row; auto.
  - intros i c o Hi Hc Ho. destruct (mi_diag _ MI) as (D1 & _). destruct (D1 o Ho) as (d & Hd & Mo).
    assert (R : in_range t i c o d) by (repeat split; auto). apply (stores_same _ _ (amount t i c o d * to_ultimate l i c d)%Qc); [apply Row; auto|apply UC'; auto].
Qed.

(** An age beyond the factors. *)
Theorem predict_too_old m l t xs : ddims t = Ages xs -> dlist (ddims l) <> [] -> (exists a, In a xs /\ forall b, In b (dlist (ddims l)) -> b < a) -> cl_predict m l t = Err ValueError.
Proof.
  intros Ex Ne (a & Ha & H). unfold cl_predict, predict_input, val_to_dev. rewrite Ex at 1. cbn [rbind].
  assert (EB : existsb (fun a => zmaxl (dlist (ddims l)) (hd 0 (dlist (ddims l))) <? a) (dlist (ddims t)) = true).
  { apply existsb_exists. exists a. rewrite Ex. split; auto. apply Z.ltb_lt. apply H. destruct (dlist (ddims l)) as [|b bs]; [congruence|]. cbn [hd].
    destruct (zmaxl_in (b :: bs) b) as [E|E]; [rewrite <- E; cbn; auto|exact E]. }
  rewrite EB. reflexivity.
Qed.

(** Benktander. *)
Theorem predict_benktander m l t s n q : new_data m l t -> matched t l -> kdims l = kdims t -> exposure_for t s ->
  exists x u, benktander_predict n q m l t s = Ok (x, u) /\ ultimate_frame (with_row_labels x (sorted_rows x)) u /\ kdims x = kdims t /\ vdims x = vdims t /\ odims x = odims t /\ Permutation (kdims u) (kdims t) /\
    forall i c o d, in_range t i c o d -> month_of t o d = vdate t ->
      let latest := amount t i c o d in let e := (q * exposure s i c o)%Qc in let w := unreported_share l i c d in
      exists r, (r < ax0 (values u))%nat /\ nth r (kdims u) [] = nth i (kdims t) [] /\
        (latest + e = 0 -> cel u r c o 0%nat = None)%Qc /\ (latest + e <> 0 -> amount u r c o 0 = iterate n (bf_step latest w) e)%Qc.
Proof.
  intros N M K EF. destruct (predict_prepared m l t N) as (x & Ep & P & X3). destruct (intersection_rows t l x P M) as (a & b & ra & rb & Ei & SE).
  pose proof (se_mi _ _ _ _ _ _ _ SE) as MA. pose proof (mi_wf _ MA) as Wa. pose proof (mi_wf _ (nd_t _ _ _ N)) as Wt. pose proof (fo_wf _ _ (nd_l _ _ _ N)) as Wl.
  assert (Ka : kdims a = kdims t) by (rewrite (se_k _ _ _ _ _ _ _ SE), K, known_self; reflexivity).
  assert (EA : exposure_for a s).
  { constructor; rewrite ?Ka, ?(se_kl _ _ _ _ _ _ _ SE), ?(se_v _ _ _ _ _ _ _ SE), ?(se_o _ _ _ _ _ _ _ SE), ?(se_og _ _ _ _ _ _ _ SE); apply EF. }
  destruct (benk_over a b s n q MA (se_fo _ _ _ _ _ _ _ SE) EA) as (u & Eu & UF & UC).
  exists a, u. unfold benktander_predict. rewrite Ep, Ei. cbn [rbind fst snd]. rewrite Eu. cbn [rbind]. split; auto. split; auto. split; auto.
  do 2 (split; [apply SE|]). pose proof (sorted_rows_perm a) as Pm.
  assert (Ku : kdims u = sel (kdims t) [] (sorted_rows a)) by (rewrite (uf_k _ _ UF); cbn [with_row_labels kdims]; rewrite Ka; reflexivity).
  split.
  { rewrite Ku. etransitivity; [apply Permutation_map, Pm|]. rewrite <- Ka. change (map (fun i => nth i (kdims a) []) ?s) with (sel (kdims a) [] s). rewrite sel_seq_all; auto. }
  intros i c o d R Mo. set (latest := amount t i c o d). set (e := (q * exposure s i c o)%Qc). set (w := unreported_share l i c d). pose proof R as (R0 & R1 & R2 & R3).
  assert (A0 : ax0 (values a) = ax0 (values t)) by (rewrite (wf_k _ Wa), Ka, (wf_k _ Wt); reflexivity).
  assert (Hi : In i (sorted_rows a)).
  { apply (Permutation_in _ (Permutation_sym Pm)). apply in_seq. rewrite Ka, <- (wf_k _ Wt). lia. }
  apply In_nth with (d := 0%nat) in Hi. destruct Hi as (r & Hr & Er). rewrite (Permutation_length Pm), seq_length in Hr.
  assert (Hr' : (r < ax0 (values a))%nat) by (rewrite (wf_k _ Wa); auto).
  exists r. split; [rewrite (uf_0 _ _ UF); exact Hr'|]. split.
  { rewrite Ku. unfold sel. rewrite nth_indep with (d' := nth 0%nat (kdims t) []) by (rewrite map_length, (Permutation_length Pm), seq_length; auto).
    rewrite (map_nth (fun j => nth j (kdims t) [])), Er. reflexivity. }
  assert (D3 : (ax3 (values t) <= ax3 (values a))%nat) by (rewrite (se_3 _ _ _ _ _ _ _ SE); apply P).
  assert (Ra : in_range a r c o d) by (unfold in_range; rewrite (se_1 _ _ _ _ _ _ _ SE), (se_2 _ _ _ _ _ _ _ SE); repeat split; auto; lia).
  assert (Ma : month_of a o d = vdate a).
  { rewrite (se_vd _ _ _ _ _ _ _ SE), <- Mo, <- (pr_mo _ _ _ P) by auto. unfold month_of. rewrite (se_o _ _ _ _ _ _ _ SE), (se_d _ _ _ _ _ _ _ SE), (pr_o _ _ _ P). reflexivity. }
  pose proof (UC r c o d Ra Ma) as C. cbv zeta in C. rewrite Er in C.
  assert (B0 : ax0 (values b) = ax0 (values a)) by (rewrite (wf_k _ (fo_wf _ _ (se_fo _ _ _ _ _ _ _ SE))), (wf_k _ Wa), (se_kb _ _ _ _ _ _ _ SE); reflexivity).
  rewrite !served_in in C by (rewrite ?B0, ?A0, ?(se_b1 _ _ _ _ _ _ _ SE); auto).
  destruct (selection_row t l x a b ra rb i i Wt Wl M SE R0) as (i' & Hi' & Ei' & Ha & Na & Hb & Nb).
  { rewrite (wf_k _ Wl), K, <- (wf_k _ Wt). auto. } { rewrite K. reflexivity. }
  assert (i' = i).
  { rewrite Ka in Ei'. apply (proj1 (NoDup_nth _ []) (proj1 (mt_t _ _ M))); auto; rewrite <- (wf_k _ Wt); [rewrite <- A0|]; auto. }
  subst i'.
  assert (Am : amount a i c o d = latest) by (unfold latest; rewrite <- Na at 2; apply (se_a _ _ _ _ _ _ _ SE); auto; rewrite Na; auto).
  unfold unreported_share in C. rewrite (se_b _ _ _ _ _ _ _ SE), Nb in C by auto. fold (unreported_share l i c d) in C. fold w in C. fold e in C. rewrite Am in C.
  split; intros H.
  - destruct (Qc_eqb_spec (latest + e)%Qc 0%Qc); [|contradiction]. apply C. reflexivity.
  - destruct (Qc_eqb_spec (latest + e)%Qc 0%Qc); [contradiction|]. unfold amount at 1. rewrite (stores_nz _ _ C). unfold w, unreported_share. rewrite bf_iterate by apply to_ultimate_ne. reflexivity.
Qed.
