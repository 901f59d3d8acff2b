From Coq Require Import Lia.
From Verif Require Import P_Tail P_CL SpecConst SpecPandas SpecLoc NumFacts ArrFacts TriFacts ConvFacts P_Core P_Pattern BcastFacts P_Methods P_Loc P_Shift.
Local Open Scope Z_scope.

(** One row of age-to-age factors for all ages of [t] but the oldest. *)
Record factors_of (t l : tri) : Prop := {
  fo_wf : wf l;
  fo_k : kdims l = kdims t; fo_kl : key_labels l = key_labels t; fo_v : vdims l = vdims t;
  fo_o : odims l = [nth 0 (odims t) 0];
  fo_d : exists xs, ddims t = Ages xs /\ ddims l = Ages (removelast xs);
  fo_pat : is_pattern l = true; fo_cum : is_cumulative l = Some false; fo_vd : vdate l = ULT_VAL;
  fo_og : ograin l = ograin t; fo_dg : dgrain l = dgrain t }.

Lemma mapm_keys f ages (g : Z -> Qc) : (forall a, In a ages -> f a = Some (g a)) -> mapm (fun a => of_key (f a)) ages = Ok (map g ages).
Proof. induction ages as [|a l IH]; intros H; auto. cbn [mapm]. rewrite H by (left; auto). cbn [of_key rbind]. rewrite IH by (intros; apply H; right; auto). reflexivity. Qed.

Lemma pattern_arr_ok p ks ages g : ks <> [] -> (forall k a, In k ks -> In a ages -> given p ks k a (g k a)) ->
  exists v, pattern_arr p ks ages = Ok v /\ (ax0 v = 1 \/ ax0 v = List.length ks)%nat /\ ax1 v = 1%nat /\ ax2 v = 1%nat /\ ax3 v = List.length ages /\
    forall i c o d, (i < List.length ks)%nat -> (d < List.length ages)%nat -> bav v i c o d = Some (g (nth i ks []) (nth d ages 0)) /\
      forall i', av v (bidx (ax0 v) i) i' 0%nat d = Some (g (nth i ks []) (nth d ages 0)).
Proof.
  intros Nk H. destruct p as [f|f]; cbn [pattern_arr].
  - assert (Hk : exists k0, In k0 ks) by (destruct ks as [|k0 r]; [congruence|exists k0; left; auto]). destruct Hk as (k0 & Ik).
    rewrite (mapm_keys f ages (fun a => g k0 a)) by (intros a Ia; apply (H k0 a Ik Ia)). cbn [rbind].
    eexists. split; [reflexivity|]. cbn. split; [auto|]. split; [auto|]. split; [auto|]. split; [auto|].
    + intros i c o d Hi Hd. unfold bav. cbn. rewrite (bidx_lt (List.length ages)) by auto.
      assert (E : nth d (map (fun a => g k0 a) ages) 0%Qc = g (nth i ks []) (nth d ages 0)).
      { rewrite (nth_indep _ 0%Qc (g k0 0)) by (rewrite map_length; auto). rewrite map_nth.
        assert (Ia : In (nth d ages 0) ages) by (apply nth_In; auto).
        pose proof (H k0 _ Ik Ia) as A. pose proof (H (nth i ks []) _ (nth_In _ _ Hi) Ia) as B. cbn in A, B. congruence. }
      rewrite E. split; auto.
  - assert (E : forallb (fun a => existsb (fun k => match f k a with Some _ => true | None => false end) ks) ages = true).
    { apply forallb_forall. intros a Ia. apply existsb_exists. destruct ks as [|k r]; [congruence|].
      destruct (H k a (or_introl eq_refl) Ia) as ((k' & x & Ik & G) & _). exists k'. split; auto. rewrite G. auto. }
    rewrite E. eexists. split; [reflexivity|]. cbn. split; [auto|]. split; [auto|]. split; [auto|]. split; [auto|].
    intros i c o d Hi Hd. unfold bav. cbn. rewrite (bidx_lt (List.length ages)), (bidx_lt (List.length ks)) by auto.
    pose proof (H (nth i ks []) (nth d ages 0) (nth_In _ _ Hi) (nth_In _ _ Hd)) as G. destruct G as (_ & [-> | (-> & ->)]); auto.
Qed.

Lemma removelast_nth (l : list Z) d x : (d < List.length l - 1)%nat -> nth d (removelast l) x = nth d l x.
Proof.
  revert d; induction l as [|a l IH]; intros d H; [reflexivity|]. destruct l as [|b l]; [cbn in H; lia|].
  change (removelast (a :: b :: l)) with (a :: removelast (b :: l)). destruct d; auto. cbn [nth]. apply IH. cbn in *. lia.
Qed.
Lemma removelast_seq (l : list Z) : map (fun p => nth p l 0) (seq 0 (List.length l - 1)) = removelast l.
Proof.
  rewrite <- (removelast_len l).
  transitivity (map (fun p => nth p (removelast l) 0) (seq 0 (List.length (removelast l)))).
  - apply map_ext_in. intros p Hp. apply in_seq in Hp. rewrite removelast_nth; auto. rewrite <- (removelast_len l). lia.
  - apply map_seq_all. auto.
Qed.

Lemma sorted_removelast l : StronglySorted Z.lt l -> StronglySorted Z.lt (removelast l).
Proof.
  intros S. rewrite <- removelast_seq. change (StronglySorted Z.lt (sel l 0 (seq 0 (List.length l - 1)))).
  apply sel_sorted; auto. apply incr_pos_seq. lia.
Qed.

(** What the fitted triangle holds, for any array of numbers. *)
Lemma dev_const_gen p s t g : wf t -> is_pattern t = false -> (1 <= ax0 (values t))%nat -> (1 <= ax1 (values t))%nat -> (2 <= ax3 (values t))%nat ->
  is_val_tri t = false ->
  (forall k a, In k (kdims t) -> In a (removelast (dlist (ddims t))) -> given p (kdims t) k a (g k a)) ->
  exists v l, pattern_arr p (kdims t) (removelast (dlist (ddims t))) = Ok v /\ dev_constant p s t = Ok l /\ factors_of t l /\
   (ax0 v = 1 \/ ax0 v = List.length (kdims t))%nat /\ ax1 v = 1%nat /\ ax2 v = 1%nat /\ ax3 v = (ax3 (values t) - 1)%nat /\
   (forall i c o d, in_range l i c o d -> cel l i c o d = cmul (Some 1%Qc) (bav (style_arr s v) i c o d)) /\
   forall i d i', (i < ax0 (values t))%nat -> (d < ax3 (values t) - 1)%nat -> 
      av v (bidx (ax0 v) i) i' 0%nat d = Some (g (nth i (kdims t) []) (nth d (dlist (ddims t)) 0)).
Proof.
  intros W Pt H0 H1 H3 NV G. unfold dev_constant.
  set (x := match is_cumulative t with Some false => incr_to_cum t | _ => t end).
  assert (F : same_frame t x /\ is_pattern x = false).
  { unfold x. destruct (is_cumulative t) as [[|]|] eqn:E; try (split; [constructor; reflexivity|auto]).
    destruct (incr_to_cum_frame t) as (A & _ & B); auto. congruence. }
  destruct F as (F & Px). assert (Wx := wf_same_frame _ _ W F).
  unfold is_val_tri in NV. destruct (ddims t) as [xs|] eqn:Dt; [|discriminate]. cbn [dlist] in *.
  assert (Dx : ddims x = Ages xs) by (rewrite (sf_d _ _ F); auto).
  assert (Vx : val_to_dev x = Ok x) by (unfold val_to_dev; rewrite Dx; auto).
  rewrite Vx. clear Vx. clearbody x. cbn [rbind].
  destruct F as [F1 F2 F3 F4 F5 F6 F7 F8 F9 F10 F11 F12].
  assert (L0 := wf_k _ W). assert (L1 := wf_v _ W). assert (L2 := wf_o _ W). assert (L3 := wf_d _ W). assert (O1 := wf_o1 _ W). rewrite Dt in L3. cbn [dlist] in L3.
  set (n0 := ax0 (values t)) in *. set (n1 := ax1 (values t)) in *. set (n2 := ax2 (values t)) in *. set (n3 := ax3 (values t)) in *.
  destruct (iloc_taken x KAll KAll (KSlice None (Some 1) None) (KSlice None (Some (-1)) None) (seq 0 n0) (seq 0 n1) (seq 0 1) (seq 0 (n3 - 1))) as (a & Ea & Ta & Va);
    rewrite ?F9, ?F10, ?F11, ?F12; try apply ask_all; try apply ask_first; try apply ask_init; try apply plain_slice; try exact I; auto; try lia.
  change (iloc x (KSlice None None None) (KSlice None None None) (KSlice None (Some 1) None) (KSlice None (Some (-1)) None) = Ok a) in Ea. rewrite Ea. cbn [rbind].
  assert (A0 := tk_0 _ _ _ _ _ _ Ta). assert (A1 := tk_1 _ _ _ _ _ _ Ta). assert (A2 := tk_2 _ _ _ _ _ _ Ta). assert (A3 := tk_3 _ _ _ _ _ _ Ta). rewrite seq_length in A0, A1, A2, A3.
  destruct (op_arr_ok OMul a (scalar_arr 0%Qc)) as (z & Ez & Rz). { unfold bok; cbn; lia. }
  change (mul_arr a (scalar_arr 0%Qc) = Ok z) in Ez. rewrite Ez. cbn [rbind].
  assert (Z0 := ar_0 _ _ _ _ Rz). assert (Z1 := ar_1 _ _ _ _ Rz). assert (Z2 := ar_2 _ _ _ _ Rz). assert (Z3 := ar_3 _ _ _ _ Rz). cbn in Z0, Z1, Z2, Z3.
  rewrite A0 in Z0. rewrite A1 in Z1. rewrite A2 in Z2. rewrite A3 in Z3. rewrite Nat.max_l in Z0, Z1, Z2, Z3 by lia.
  destruct (op_arr_ok OAdd z (scalar_arr 1%Qc)) as (o & Eo & Ro). { unfold bok; cbn; lia. }
  change (add_arr z (scalar_arr 1%Qc) = Ok o) in Eo. rewrite Eo. cbn [rbind].
  assert (Y0 := ar_0 _ _ _ _ Ro). assert (Y1 := ar_1 _ _ _ _ Ro). assert (Y2 := ar_2 _ _ _ _ Ro). assert (Y3 := ar_3 _ _ _ _ Ro). cbn in Y0, Y1, Y2, Y3.
  rewrite Z0 in Y0. rewrite Z1 in Y1. rewrite Z2 in Y2. rewrite Z3 in Y3. rewrite Nat.max_l in Y0, Y1, Y2, Y3 by lia.
  assert (Ko : kdims o = kdims t).
  { rewrite (ar_k _ _ _ _ Ro), (ar_k _ _ _ _ Rz), (tk_k _ _ _ _ _ _ Ta), F1. apply map_seq_all; auto. }
  assert (Do : ddims o = Ages (removelast xs)).
  { rewrite (ar_d _ _ _ _ Ro), (ar_d _ _ _ _ Rz). pose proof (tk_d _ _ _ _ _ _ Ta) as D. rewrite Dx in D. destruct (ddims a); [|contradiction].
    rewrite D, L3, removelast_seq. auto. }
  assert (Co : forall i c j d, bav (values o) i c j d = Some 1%Qc).
  { intros i c j d. unfold bav. change (av (values o)) with (cel o). rewrite (ar_cell _ _ _ _ Ro), bav_scalar.
    unfold bav. change (av (values z)) with (cel z). rewrite (ar_cell _ _ _ _ Rz), bav_scalar. cbn [cop]. unfold nz_add.
    set (q := nz (cmul _ (Some 0%Qc))). assert (Eq : q = 0%Qc). { unfold q. destruct (bav (values a) _ _ _ _); cbn; auto. apply Qcmult_0_r. }
    rewrite Eq. cbn [nz]. 
    assert (N1 : forall d, nan_triangle o (bidx (ax2 (values o)) j) d = Some 1%Qc).
    { intros e. unfold nan_triangle. replace (Nat.min (ax2 (values o)) (ax3 (values o)) =? 1)%nat with true; auto. symmetry. apply Nat.eqb_eq. lia. }
    rewrite N1. reflexivity. }
  destruct (pattern_arr_ok p (kdims t) (removelast xs) g) as (v & Ev & B0 & B1 & B2 & B3 & Cv); auto.
  { intros E. rewrite E in L0. cbn in L0. lia. }
  rewrite Ko, Do. cbn [dlist]. rewrite Ev. cbn [rbind]. rewrite removelast_len in B3, Cv. rewrite <- L3 in B3, Cv.
  destruct (op_arr_ok OMul o (style_arr s v)) as (l & El & Rl).
  { assert (Q : ax0 (style_arr s v) = ax0 v /\ ax1 (style_arr s v) = ax1 v /\ ax2 (style_arr s v) = ax2 v /\ ax3 (style_arr s v) = ax3 v) by (destruct s; auto).
    destruct Q as (Q0 & Q1 & Q2 & Q3). unfold bok. rewrite Q0, Q1, Q2, Q3. lia. }
  change (mul_arr o (style_arr s v) = Ok l) in El. rewrite El. cbn [rbind].
  assert (X0 := ar_0 _ _ _ _ Rl). assert (X1 := ar_1 _ _ _ _ Rl). assert (X2 := ar_2 _ _ _ _ Rl). assert (X3 := ar_3 _ _ _ _ Rl).
  assert (Q : ax0 (style_arr s v) = ax0 v /\ ax1 (style_arr s v) = ax1 v /\ ax2 (style_arr s v) = ax2 v /\ ax3 (style_arr s v) = ax3 v) by (destruct s; auto).
  destruct Q as (Q0 & Q1 & Q2 & Q3). rewrite Q0 in X0. rewrite Q1 in X1. rewrite Q2 in X2. rewrite Q3 in X3.
  assert (X0' : ax0 (values l) = n0) by lia. assert (X1' : ax1 (values l) = n1) by lia. assert (X2' : ax2 (values l) = 1%nat) by lia. assert (X3' : ax3 (values l) = (n3 - 1)%nat) by lia.
  clear X0 X1 X2 X3.
  eexists v, _. split; [reflexivity|]. split; [reflexivity|].
  assert (Kl : kdims l = kdims t) by (rewrite (ar_k _ _ _ _ Rl); auto).
  assert (Vl : vdims l = vdims t).
  { rewrite (ar_v _ _ _ _ Rl), (ar_v _ _ _ _ Ro), (ar_v _ _ _ _ Rz), (tk_v _ _ _ _ _ _ Ta), F3. apply map_seq_all; auto. }
  assert (Ol : odims l = [nth 0 (odims t) 0]).
  { rewrite (ar_o _ _ _ _ Rl), (ar_o _ _ _ _ Ro), (ar_o _ _ _ _ Rz), (tk_o _ _ _ _ _ _ Ta), F4. reflexivity. }
  assert (Dl : ddims l = Ages (removelast xs)) by (rewrite (ar_d _ _ _ _ Rl); auto).
  assert (In0 : In (nth 0 (odims t) 0) (odims t)) by (apply nth_In; lia).
  pose proof (wf_dev _ W) as WD. rewrite Dt in WD. destruct WD as (WA & WB & WC).
  assert (Inr : forall q, In q (removelast xs) -> In q xs).
  { intros q Hq. rewrite <- removelast_seq in Hq. apply in_map_iff in Hq. destruct Hq as (e & <- & He). apply in_seq in He. apply nth_In. lia. }
  split.
  - pose proof (ar_fl _ _ _ _ Rl) as Gl. pose proof (ar_fl _ _ _ _ Ro) as Go. pose proof (ar_fl _ _ _ _ Rz) as Gz. unfold same_flags in Gl, Go, Gz.
    pose proof (tk_kl _ _ _ _ _ _ Ta) as T1. pose proof (tk_og _ _ _ _ _ _ Ta) as T2. pose proof (tk_dg _ _ _ _ _ _ Ta) as T3.
    pose proof (ar_kl _ _ _ _ Rl) as T4. pose proof (ar_kl _ _ _ _ Ro) as T5. pose proof (ar_kl _ _ _ _ Rz) as T6.
    destruct Gl as (Gl1 & Gl2 & Gl3 & Gl4). destruct Go as (Go1 & Go2 & Go3 & Go4). destruct Gz as (Gz1 & Gz2 & Gz3 & Gz4).
    assert (K1 : key_labels l = key_labels t) by congruence. assert (K2 : ograin l = ograin t) by congruence. assert (K3 : dgrain l = dgrain t) by congruence.
    constructor; cbn; auto.
    + constructor; cbn; rewrite ?Kl, ?Vl, ?Ol, ?Dl; cbn [dlist]; rewrite ?removelast_len; try (cbn; lia).
      * repeat constructor.
      * apply sorted_removelast. pose proof (wf_dsort _ W) as WS. rewrite Dt in WS. exact WS.
      * split; [|split].
        -- intros q Hq. apply WA; auto.
        -- intros q [<-|[]]. pose proof (WB _ In0). pose proof (wf_vd _ W). change 27143 with ULT_VAL. lia.
        -- intros q e [<-|[]] He Ne. apply WC; auto.
    + exists xs. auto.
  - split; [auto|]. split; [auto|]. split; [auto|]. split; [auto|]. split.
    + intros i c j d R. change (cel l i c j d = cmul (Some 1%Qc) (bav (style_arr s v) i c j d)). rewrite (ar_cell _ _ _ _ Rl). rewrite Co. reflexivity.
    + intros i d i' Hi Hd. rewrite (proj2 (Cv i 0%nat 0%nat d ltac:(lia) Hd) i'). f_equal. rewrite removelast_nth by lia. auto.
Qed.

Lemma dev_const_stop p s t : wf t -> is_pattern t = false -> (1 <= ax0 (values t))%nat -> (1 <= ax1 (values t))%nat -> (2 <= ax3 (values t))%nat ->
  is_val_tri t = false -> forall e, pattern_arr p (kdims t) (removelast (dlist (ddims t))) = Err e -> dev_constant p s t = Err e.
Proof.
  intros W Pt H0 H1 H3 NV e G. unfold dev_constant.
  set (x := match is_cumulative t with Some false => incr_to_cum t | _ => t end).
  assert (F : same_frame t x /\ is_pattern x = false).
  { unfold x. destruct (is_cumulative t) as [[|]|] eqn:E; try (split; [constructor; reflexivity|auto]).
    destruct (incr_to_cum_frame t) as (A & _ & B); auto. congruence. }
  destruct F as (F & Px). assert (Wx := wf_same_frame _ _ W F).
  unfold is_val_tri in NV. destruct (ddims t) as [xs|] eqn:Dt; [|discriminate]. cbn [dlist] in *.
  assert (Dx : ddims x = Ages xs) by (rewrite (sf_d _ _ F); auto).
  assert (Vx : val_to_dev x = Ok x) by (unfold val_to_dev; rewrite Dx; auto).
  rewrite Vx. clear Vx. clearbody x. cbn [rbind].
  destruct F as [F1 F2 F3 F4 F5 F6 F7 F8 F9 F10 F11 F12].
  assert (L0 := wf_k _ W). assert (L1 := wf_v _ W). assert (L2 := wf_o _ W). assert (L3 := wf_d _ W). assert (O1 := wf_o1 _ W). rewrite Dt in L3. cbn [dlist] in L3.
  set (n0 := ax0 (values t)) in *. set (n1 := ax1 (values t)) in *. set (n2 := ax2 (values t)) in *. set (n3 := ax3 (values t)) in *.
  destruct (iloc_taken x KAll KAll (KSlice None (Some 1) None) (KSlice None (Some (-1)) None) (seq 0 n0) (seq 0 n1) (seq 0 1) (seq 0 (n3 - 1))) as (a & Ea & Ta & Va);
    rewrite ?F9, ?F10, ?F11, ?F12; try apply ask_all; try apply ask_first; try apply ask_init; try apply plain_slice; try exact I; auto; try lia.
  change (iloc x (KSlice None None None) (KSlice None None None) (KSlice None (Some 1) None) (KSlice None (Some (-1)) None) = Ok a) in Ea. rewrite Ea. cbn [rbind].
  assert (A0 := tk_0 _ _ _ _ _ _ Ta). assert (A1 := tk_1 _ _ _ _ _ _ Ta). assert (A2 := tk_2 _ _ _ _ _ _ Ta). assert (A3 := tk_3 _ _ _ _ _ _ Ta). rewrite seq_length in A0, A1, A2, A3.
  destruct (op_arr_ok OMul a (scalar_arr 0%Qc)) as (z & Ez & Rz). { unfold bok; cbn; lia. }
  change (mul_arr a (scalar_arr 0%Qc) = Ok z) in Ez. rewrite Ez. cbn [rbind].
  assert (Z0 := ar_0 _ _ _ _ Rz). assert (Z1 := ar_1 _ _ _ _ Rz). assert (Z2 := ar_2 _ _ _ _ Rz). assert (Z3 := ar_3 _ _ _ _ Rz). cbn in Z0, Z1, Z2, Z3.
  rewrite A0 in Z0. rewrite A1 in Z1. rewrite A2 in Z2. rewrite A3 in Z3. rewrite Nat.max_l in Z0, Z1, Z2, Z3 by lia.
  destruct (op_arr_ok OAdd z (scalar_arr 1%Qc)) as (o & Eo & Ro). { unfold bok; cbn; lia. }
  change (add_arr z (scalar_arr 1%Qc) = Ok o) in Eo. rewrite Eo. cbn [rbind].
  assert (Y0 := ar_0 _ _ _ _ Ro). assert (Y1 := ar_1 _ _ _ _ Ro). assert (Y2 := ar_2 _ _ _ _ Ro). assert (Y3 := ar_3 _ _ _ _ Ro). cbn in Y0, Y1, Y2, Y3.
  rewrite Z0 in Y0. rewrite Z1 in Y1. rewrite Z2 in Y2. rewrite Z3 in Y3. rewrite Nat.max_l in Y0, Y1, Y2, Y3 by lia.
  assert (Ko : kdims o = kdims t).
  { rewrite (ar_k _ _ _ _ Ro), (ar_k _ _ _ _ Rz), (tk_k _ _ _ _ _ _ Ta), F1. apply map_seq_all; auto. }
  assert (Do : ddims o = Ages (removelast xs)).
  { rewrite (ar_d _ _ _ _ Ro), (ar_d _ _ _ _ Rz). pose proof (tk_d _ _ _ _ _ _ Ta) as D. rewrite Dx in D. destruct (ddims a); [|contradiction].
    rewrite D, L3, removelast_seq. auto. }
  rewrite Ko, Do. cbn [dlist]. rewrite G. reflexivity.
Qed.
Lemma bav_style s v i c o d : ax1 v = 1%nat -> ax2 v = 1%nat -> (d < ax3 v)%nat ->
  bav (style_arr s v) i c o d =
  match s with
  | Ldf => av v (bidx (ax0 v) i) 0%nat 0%nat d
  | Cdf => if (d <? ax3 v - 1)%nat then cdiv (av v (bidx (ax0 v) i) 0%nat 0%nat d) (av v (bidx (ax0 v) i) 0%nat 0%nat (S d)) else av v (bidx (ax0 v) i) 0%nat 0%nat d
  end.
Proof. intros H1 H2 H. unfold bav. destruct s; cbn; rewrite H1, H2, (bidx_lt (ax3 v)) by auto; reflexivity. Qed.

Lemma dev_const_ldf p t g : wf t -> is_pattern t = false -> (1 <= ax0 (values t))%nat -> (1 <= ax1 (values t))%nat -> (2 <= ax3 (values t))%nat ->
  is_val_tri t = false ->
  (forall k a, In k (kdims t) -> In a (removelast (dlist (ddims t))) -> given p (kdims t) k a (g k a)) ->
  exists l, dev_constant p Ldf t = Ok l /\ factors_of t l /\
   forall i c o d, in_range l i c o d -> cel l i c o d = Some (g (nth i (kdims t) []) (nth d (dlist (ddims t)) 0)).
Proof.
  intros W P H0 H1 H3 NV G. destruct (dev_const_gen p Ldf t g) as (v & l & _ & E & F & B0 & B1 & B2 & B3 & C & Cv); auto.
  exists l. split; auto. split; auto. intros i c o d R. rewrite C by auto.
  destruct R as (R0 & R1 & R2 & R3). rewrite (wf_k _ (fo_wf _ _ F)), (fo_k _ _ F), <- (wf_k _ W) in R0.
  destruct (fo_d _ _ F) as (xs & Dt & Dl). rewrite (wf_d _ (fo_wf _ _ F)), Dl in R3. cbn [dlist] in R3. rewrite removelast_len in R3.
  pose proof (wf_d _ W) as L3. rewrite Dt in L3. cbn [dlist] in L3. rewrite <- L3 in R3.
  rewrite bav_style by lia. rewrite Cv by auto. cbn. f_equal. ring.
Qed.

Lemma dev_const_cdf p t g : wf t -> is_pattern t = false -> (1 <= ax0 (values t))%nat -> (1 <= ax1 (values t))%nat -> (2 <= ax3 (values t))%nat ->
  is_val_tri t = false ->
  (forall k a, In k (kdims t) -> In a (removelast (dlist (ddims t))) -> given p (kdims t) k a (g k a) /\ g k a <> 0%Qc) ->
  exists l, dev_constant p Cdf t = Ok l /\ factors_of t l /\
   (forall i c o d, in_range l i c o d ->
     cel l i c o d = Some (g (nth i (kdims t) []) (nth d (dlist (ddims t)) 0%Z) /
        (if (d <? ax3 (values l) - 1)%nat then g (nth i (kdims t) []) (nth (S d) (dlist (ddims t)) 0%Z) else 1))%Qc).
Proof.
  intros W P H0 H1 H3 NV G. destruct (dev_const_gen p Cdf t g) as (v & l & _ & E & F & B0 & B1 & B2 & B3 & C & Cv); auto. { intros k a K A. apply G; auto. }
  exists l. split; auto. split; auto. intros i c o d R. rewrite C by auto.
  destruct R as (R0 & R1 & R2 & R3). rewrite (wf_k _ (fo_wf _ _ F)), (fo_k _ _ F), <- (wf_k _ W) in R0.
  destruct (fo_d _ _ F) as (xs & Dt & Dl). assert (L : ax3 (values l) = (ax3 (values t) - 1)%nat).
  { rewrite (wf_d _ (fo_wf _ _ F)), Dl. cbn [dlist]. rewrite removelast_len. rewrite (wf_d _ W), Dt. auto. }
  pose proof (wf_d _ W) as L3. rewrite Dt in L3. cbn [dlist] in L3.
  rewrite bav_style by lia. rewrite B3, L. destruct (Nat.ltb_spec d (ax3 (values t) - 1 - 1)) as [D|D].
  - rewrite !Cv by lia. assert (N : g (nth i (kdims t) []) (nth (S d) (dlist (ddims t)) 0%Z) <> 0%Qc).
    { apply G. apply nth_In. rewrite <- (wf_k _ W). auto. rewrite Dt. cbn [dlist]. rewrite <- (removelast_nth xs (S d)) by lia. apply nth_In. rewrite removelast_len. lia. }
    unfold cdiv. destruct (Qc_eqb_spec (g (nth i (kdims t) []) (nth (S d) (dlist (ddims t)) 0%Z)) 0%Qc); [contradiction|]. cbn. f_equal. ring.
  - rewrite Cv by lia. cbn. f_equal. unfold Qcdiv. change (/ 1)%Qc with 1%Qc. ring.
Qed.

(** Quotients telescope. *)
Lemma telescope n (g : nat -> Qc) d : (d < n)%nat -> (forall k, (k < n)%nat -> g k <> 0%Qc) ->
  prodn (n - d) (fun k => (g (d + k)%nat / (if (d + k <? n - 1)%nat then g (S (d + k)) else 1))%Qc) = g d.
Proof.
  intros H N. remember (n - d)%nat as m eqn:Em. revert d H Em. induction m as [|m IH]; intros d H Em; [lia|].
  rewrite prodn_S_l. rewrite Nat.add_0_r. destruct (Nat.ltb_spec d (n - 1)) as [D|D].
  - rewrite (prodn_ext m _ (fun k => (g (S d + k)%nat / (if (S d + k <? n - 1)%nat then g (S (S d + k)) else 1))%Qc)).
    2:{ intros k Hk. replace (d + S k)%nat with (S d + k)%nat by lia. auto. }
    rewrite IH by lia. field. apply N. lia.
  - assert (m = 0)%nat by lia. subst m. cbn. unfold Qcdiv. change (/ 1)%Qc with 1%Qc. ring.
Qed.

Lemma removelast_firstn_z (l : list Z) : removelast l = firstn (List.length l - 1) l.
Proof. induction l as [|a l IH]; auto. destruct l as [|b l]; auto. change (removelast (a :: b :: l)) with (a :: removelast (b :: l)). rewrite IH. cbn. rewrite Nat.sub_0_r. auto. Qed.
Lemma factors_fitted t l : wf t -> factors_of t l -> fitted_factors t l.
Proof.
  intros W F. destruct (fo_d _ _ F) as (xs & Dt & Dl). pose proof (wf_d _ W) as L. rewrite Dt in L. cbn [dlist] in L.
  pose proof (fo_wf _ _ F) as Wl. constructor; try apply F.
  - rewrite Dl, Dt. cbn [dmap]. f_equal. rewrite L. apply removelast_firstn_z.
  - rewrite (wf_k _ Wl), (wf_k _ W), (fo_k _ _ F). auto.
  - rewrite (wf_v _ Wl), (wf_v _ W), (fo_v _ _ F). auto.
  - rewrite (wf_o _ Wl), (fo_o _ _ F). auto.
  - rewrite (wf_d _ Wl), Dl. cbn [dlist]. rewrite removelast_len. lia.
Qed.
Theorem const_ldf p t g : wf t -> is_pattern t = false -> (1 <= ax0 (values t))%nat -> (1 <= ax1 (values t))%nat -> (2 <= ax3 (values t))%nat ->
  is_val_tri t = false -> all_given p t g ->
  exists l, dev_constant p Ldf t = Ok l /\ wf l /\ fitted_factors t l /\
   forall i c o d, in_range l i c o d -> cel l i c o d = Some (number t g i d).
Proof. intros W P H0 H1 H3 NV G. destruct (dev_const_ldf p t g) as (l & E & F & C); auto. exists l. split; auto. split; [apply F|]. split; auto. apply factors_fitted; auto. Qed.

Lemma number_ne t g i d : wf t -> (forall k a, In k (kdims t) -> In a (removelast (dlist (ddims t))) -> g k a <> 0%Qc) ->
  (i < ax0 (values t))%nat -> (d < ax3 (values t) - 1)%nat -> number t g i d <> 0%Qc.
Proof.
  intros W N Hi Hd. unfold number. apply N.
  - apply nth_In. rewrite <- (wf_k _ W). auto.
  - pose proof (wf_d _ W). rewrite <- removelast_nth by lia. apply nth_In. rewrite removelast_len. lia.
Qed.
Theorem const_cdf p t g : wf t -> is_pattern t = false -> (1 <= ax0 (values t))%nat -> (1 <= ax1 (values t))%nat -> (2 <= ax3 (values t))%nat ->
  is_val_tri t = false -> all_given p t g -> (forall k a, In k (kdims t) -> In a (removelast (dlist (ddims t))) -> g k a <> 0%Qc) ->
  exists l, dev_constant p Cdf t = Ok l /\ wf l /\ fitted_factors t l /\
   (forall i c o d, in_range l i c o d ->
     prodn (ax3 (values t) - 1 - d) (fun j => factor (cel l i c o (d + j)%nat)) = number t g i d) /\
   (forall i c o d, in_range l i c o d -> cel (cdf_of l) i c o d = Some (number t g i d)).
Proof.
  intros W P H0 H1 H3 NV G N. destruct (dev_const_cdf p t g) as (l & E & F & C); auto.
  exists l. split; auto. assert (FF := factors_fitted _ _ W F). split; [apply F|]. split; auto.
  assert (L0 := fd_0 _ _ FF). assert (L3 := fd_3 _ _ FF).
  assert (A : forall i c o d, in_range l i c o d -> prodn (ax3 (values t) - 1 - d) (fun j => factor (cel l i c o (d + j)%nat)) = number t g i d).
  { intros i c o d (R0 & R1 & R2 & R3). 
    assert (Nn : forall k, (k < ax3 (values t) - 1)%nat -> number t g i k <> 0%Qc) by (intros; apply number_ne; auto; lia).
    rewrite <- (telescope (ax3 (values t) - 1) (number t g i) d) by (auto; lia).
    apply prodn_ext. intros k Hk. rewrite C by (repeat split; auto; lia). rewrite L3. unfold factor. cbn [nz].
    change (g (nth i (kdims t) []) (nth (d + k) (dlist (ddims t)) 0)) with (number t g i (d + k)).
    change (g (nth i (kdims t) []) (nth (S (d + k)) (dlist (ddims t)) 0)) with (number t g i (S (d + k))).
    destruct (Qc_eqb_spec (number t g i (d + k) / (if (d + k <? ax3 (values t) - 1 - 1)%nat then number t g i (S (d + k)) else 1))%Qc 0%Qc) as [e|]; auto.
    exfalso. assert (Q : (if (d + k <? ax3 (values t) - 1 - 1)%nat then number t g i (S (d + k)) else 1%Qc) <> 0%Qc).
    { destruct (Nat.ltb_spec (d + k) (ax3 (values t) - 1 - 1)); [apply Nn; lia|discriminate]. }
    apply (Nn (d + k)%nat); [lia|]. set (q := if (d + k <? ax3 (values t) - 1 - 1)%nat then number t g i (S (d + k)) else 1%Qc) in *.
    transitivity (number t g i (d + k) / q * q)%Qc; [field; auto|rewrite e; ring]. }
  split; auto. intros i c o d R. 
  destruct (ldf_to_cdf_cell l) as (_ & _ & _ & CC).
  { apply F. } { apply F. } { rewrite (fd_cum _ _ FF). discriminate. } { left. apply FF. }
  unfold cdf_of. rewrite CC by auto. f_equal. rewrite L3. apply A; auto.
Qed.

(** With a tail and the chain ladder method. *)
Theorem const_chain_ladder p q t g : method_input t -> (2 <= ax3 (values t))%nat -> all_given p t g ->
  (forall k a, In k (kdims t) -> In a (removelast (dlist (ddims t))) -> g k a <> 0%Qc) ->
  tp_attach q = None -> tp_tail q <> 0%Qc -> decay_ok q -> room_after t (tp_years q) -> (periods_per_year (dgrain t) * tp_years q < 1000)%nat ->
  exists f l u, dev_constant p Cdf t = Ok f /\ tail_constant q t f = Ok l /\ cl_fit t (Some l) = Ok (l, u) /\ ultimate_frame t u /\
  forall i c o d, in_range t i c o d -> (d < ax3 (values t) - 1)%nat -> month_of t o d = vdate t ->
    stores (cel u i c o 0%nat) (amount t i c o d * (number t g i d * tp_tail q))%Qc.
Proof.
  intros MI N2 G N QA QT QD QR QY. pose proof (mi_wf _ MI) as W.
  destruct QR as (xs & Dt & QR'). assert (QR : room_after t (tp_years q)) by (exists xs; auto).
  destruct (const_cdf p t g) as (f & Ef & Wf & FF & C & _); auto; try apply MI. { unfold is_val_tri. rewrite Dt. auto. }
  assert (AT : attaches_at q t (ax3 (values t) - 1)) by (unfold attaches_at; rewrite QA; reflexivity).
  destruct (tail_pattern q t f (ax3 (values t) - 1) MI N2 FF QD AT ltac:(lia) QR ltac:(lia)) as (l & El & PF & X3 & C1 & C2).
  destruct (cl_fit_ok t l MI PF) as (u & r & Eu & UF & _ & _ & UC).
  exists f, l, u. do 4 (split; [assumption|]).
  intros i c o d R Hd M. destruct (UC i c o d R M) as (S1 & _).
  rewrite (tail_to_ultimate q f l (ax3 (values t) - 1) i c d) in S1; auto; try lia.
  rewrite C in S1; auto. destruct R as (R0 & R1 & R2 & R3). unfold in_range. rewrite (fd_0 _ _ FF), (fd_1 _ _ FF), (fd_2 _ _ FF), (fd_3 _ _ FF). repeat split; auto; lia.
Qed.

Lemma mapm_keys_err (f : Z -> option Qc) ages a : In a ages -> f a = None -> mapm (fun a => of_key (f a)) ages = Err KeyError.
Proof.
  induction ages as [|b l IH]; intros H N; [destruct H|]. cbn [mapm]. destruct H as [-> | H].
  - rewrite N. reflexivity.
  - destruct (f b); cbn [of_key rbind]; auto. rewrite IH; auto.
Qed.
Theorem const_missing p s t a : wf t -> is_pattern t = false -> (1 <= ax0 (values t))%nat -> (1 <= ax1 (values t))%nat -> (2 <= ax3 (values t))%nat ->
  is_val_tri t = false -> In a (removelast (dlist (ddims t))) ->
  match p with PDict f => f a = None | PRows f => forall k, In k (kdims t) -> f k a = None end ->
  dev_constant p s t = Err KeyError.
Proof.
  intros W P H0 H1 H3 NV I H. apply dev_const_stop; auto. destruct p as [f|f]; cbn [pattern_arr].
  - rewrite (mapm_keys_err f _ a); auto.
  - destruct (forallb _ _) eqn:E; auto. exfalso. rewrite forallb_forall in E. specialize (E a I). apply existsb_exists in E.
    destruct E as (k & K & E). rewrite (H k K) in E. discriminate.
Qed.
