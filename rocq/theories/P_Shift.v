(** Shifting along origin or development. *)
From Coq Require Import Lia.
From Verif Require Import SpecPandas SpecLoc ArrFacts TriFacts ConvFacts P_Loc P_Core DevFacts.
Local Open Scope Z_scope.

Lemma iloc_taken t k0 k1 k2 k3 p0 p1 p2 p3 :
  asks_for k0 (ax0 (values t)) p0 -> asks_for k1 (ax1 (values t)) p1 -> asks_for k2 (ax2 (values t)) p2 -> asks_for k3 (ax3 (values t)) p3 ->
  plain_key k0 (ax0 (values t)) p0 -> plain_key k1 (ax1 (values t)) p1 -> plain_key k2 (ax2 (values t)) p2 -> plain_key k3 (ax3 (values t)) p3 ->
  even_key k2 p2 -> even_key k3 p3 ->
  exists u, iloc t k0 k1 k2 k3 = Ok u /\ taken t u p0 p1 p2 p3 /\ vdate u <= vdate t.
Proof.
  intros A0 A1 A2 A3 P0 P1 P2 P3 E2 E3.
  destruct (norm_key_ok _ _ _ A0 P0) as (s0 & N0 & S0 & _). destruct (norm_key_ok _ _ _ A1 P1) as (s1 & N1 & S1 & _).
  destruct (norm_key_ok _ _ _ A2 P2) as (s2 & N2 & S2 & I2). destruct (norm_key_ok _ _ _ A3 P3) as (s3 & N3 & S3 & I3).
  assert (J2 : is_slice s2 = true) by (destruct k2; [eapply norm_key_slice; eauto; exact I|eapply norm_key_slice; eauto; exact I|auto]).
  assert (J3 : is_slice s3 = true) by (destruct k3; [eapply norm_key_slice; eauto; exact I|eapply norm_key_slice; eauto; exact I|auto]).
  unfold iloc. rewrite N0, N1, N2, N3. cbn [rbind]. unfold get_idx. rewrite J2, J3. cbn [andb negb]. rewrite S0, S1, S2, S3. cbn [rbind].
  set (s := sel_tri t p0 p1 p2 p3).
  assert (L2 : (1 <= List.length p2)%nat) by (destruct p2; [destruct P2; congruence|cbn; lia]).
  assert (L3 : (1 <= List.length p3)%nat) by (destruct p3; [destruct P3; congruence|cbn; lia]).
  assert (Lo : List.length (odims s) = List.length p2) by (unfold s, sel_tri, sel; cbn [odims]; apply map_length).
  assert (Ld : List.length (dlist (ddims s)) = List.length p3).
  { unfold s, sel_tri; cbn [ddims]. destruct (ddims t); cbn [dmap dlist]; unfold sel; apply map_length. }
  unfold clip_vdate. destruct (valuations s) as [|v vs] eqn:Ev.
  { exfalso. assert (In (valuation s 0 0) (valuations s)); [|rewrite Ev in H; destruct H].
    apply in_valuations. exists 0%nat, 0%nat. rewrite Lo, Ld. repeat split; lia. }
  eexists. split; [reflexivity|]. split.
  - constructor; try reflexivity. cbn [ddims set_vdate]. unfold s, sel_tri. cbn [ddims]. destruct (ddims t); reflexivity.
  - cbn [vdate set_vdate]. apply Z.le_min_r.
Qed.

Lemma ask_all n : asks_for KAll n (seq 0 n).
Proof. apply positions_all. Qed.
Lemma ask_slice a b lo len n : (1 <= n)%nat -> (lo + len <= n)%nat ->
  slice_bound a 0 0 (Z.of_nat n) (Z.of_nat n) = Z.of_nat lo -> slice_bound b (Z.of_nat n) 0 (Z.of_nat n) (Z.of_nat n) = Z.of_nat lo + Z.of_nat len ->
  asks_for (KSlice a b None) n (seq lo len).
Proof.
  intros Hn H Ea Eb. cbn [asks_for]. unfold slice_positions, slice_triple. change (1 =? 0) with false. change (0 <? 1) with true. cbn [rbind].
  rewrite Ea, Eb. f_equal. apply py_range_step1.
Qed.
Lemma ask_tail n : (1 <= n)%nat -> asks_for (KSlice (Some 1) None None) n (seq 1 (n - 1)).
Proof. intros H. apply ask_slice; auto; try lia; cbn [slice_bound]; [change (1 <? 0) with false; cbv iota; lia|lia]. Qed.
Lemma ask_last n : (1 <= n)%nat -> asks_for (KSlice (Some (-1)) None None) n (seq (n - 1) 1).
Proof. intros H. apply ask_slice; auto; try lia; cbn [slice_bound]; [change (-1 <? 0) with true; cbv iota; lia|lia]. Qed.
Lemma ask_first n : (1 <= n)%nat -> asks_for (KSlice None (Some 1) None) n (seq 0 1).
Proof. intros H. apply ask_slice; auto; try lia; cbn [slice_bound]; [change (1 <? 0) with false; cbv iota; lia]. Qed.
Lemma ask_init n : (1 <= n)%nat -> asks_for (KSlice None (Some (-1)) None) n (seq 0 (n - 1)).
Proof. intros H. apply ask_slice; auto; try lia; cbn [slice_bound]; [change (-1 <? 0) with true; cbv iota; lia]. Qed.
Lemma plain_slice a b n lo len : (1 <= len)%nat -> plain_key (KSlice a b None) n (seq lo len).
Proof. intros H. split; [destruct len; [lia|discriminate]|left; reflexivity]. Qed.

Lemma map_seq_all {A} (l : list A) d n : n = List.length l -> map (fun p => nth p l d) (seq 0 n) = l.
Proof. apply sel_seq_all. Qed.

Lemma times0_ok t : exists z, times0 t = Ok z /\ same_labels t z /\ vdate z = vdate t /\
  forall i c o d, in_range t i c o d -> amount z i c o d = 0%Qc.
Proof.
  unfold times0, mul_arr. destruct (bmap2_l cmul (values t) (scalar_arr 0%Qc)) as (r & -> & D & _ & C).
  { unfold sub_dims. cbn. lia. }
  cbn [rbind]. eexists. split; [reflexivity|]. destruct D as (D0 & D1 & D2 & D3). split; [constructor; cbn; auto|]. split; [reflexivity|].
  intros i c o d (Hi & Hc & Ho & Hd). unfold amount, cel. cbn [values set_values]. rewrite C by auto. cbn [scalar_arr av].
  destruct (av (values t) i c o d); cbn; [ring|reflexivity].
Qed.

Lemma concat_origin2 a b : kdims b = kdims a -> vdims b = vdims a -> ddims b = ddims a ->
  NoDup (odims a ++ odims b) ->
  ax0 (values b) = ax0 (values a) -> ax1 (values b) = ax1 (values a) -> ax3 (values b) = ax3 (values a) ->
  concat [a; b] AxOrigin =
    Ok (set_vdate (set_values (set_odims a (odims a ++ odims b)) (cat2 2 (values a) (values b))) (Z.max (vdate b) (vdate a))).
Proof.
  intros Hk Hv Hd Hn H0 H1 H2. unfold concat.
  rewrite (fill_cols_same [a; b] (vdims a)) by (intros t [<-|[<-|[]]]; auto).
  cbn [forallb map List.concat]. rewrite Hk, Hd, keys_eqb_refl.
  assert (X : ddim_eqb (ddims a) (ddims a) = true) by (destruct (ddims a); apply Zs_eqb_refl). rewrite X.
  rewrite app_nil_r, (proj2 (nodup_Zb_NoDup _) Hn). cbn [andb negb].
  cbn [cat_all axis_num rbind ddim_concat]. unfold cat_ok.
  rewrite H0, H1, H2, !Nat.eqb_refl. cbn [orb andb Nat.eqb rbind]. reflexivity.
Qed.

Lemma removelast_len {A} (l : list A) : List.length (removelast l) = (List.length l - 1)%nat.
Proof. destruct l as [|a l]; auto. rewrite (app_removelast_last a (l := a :: l)) at 2 by discriminate. rewrite app_length. cbn [List.length]. lia. Qed.
Lemma split_last (l : list Z) : l <> [] -> removelast l ++ map (fun p => nth p l 0) (seq (List.length l - 1) 1) = l.
Proof.
  intros H. cbn [seq map]. rewrite (app_removelast_last 0 H) at 4. f_equal. f_equal. symmetry. apply last_nth.
Qed.
Lemma split_first (l : list Z) : l <> [] -> map (fun p => nth p l 0) (seq 0 1) ++ tl l = l.
Proof. destruct l; [congruence|reflexivity]. Qed.

Lemma shift1_dev_fwd t : shiftable AxDev t -> exists u, shift1 t true AxDev = Ok u /\ moved AxDev t u 1.
Proof.
  intros ((L0 & L1 & L2 & L3) & (H0 & H1 & H2 & H3) & N2 & ND & NV & NP). unfold shift1. rewrite NV, NP. cbn [orb].
  set (n0 := ax0 (values t)) in *. set (n1 := ax1 (values t)) in *. set (n2 := ax2 (values t)) in *. set (n3 := ax3 (values t)) in *.
  destruct (iloc_taken t KAll KAll KAll (KSlice (Some 1) None None) (seq 0 n0) (seq 0 n1) (seq 0 n2) (seq 1 (n3 - 1))) as (a & -> & Ta & Va);
    try apply ask_all; try apply ask_tail; try apply plain_slice; try exact I; auto; try (fold n3; lia).
  cbn [rbind].
  destruct (iloc_taken t KAll KAll KAll (KSlice (Some (-1)) None None) (seq 0 n0) (seq 0 n1) (seq 0 n2) (seq (n3 - 1) 1)) as (b & -> & Tb & Vb);
    try apply ask_all; try apply ask_last; try apply plain_slice; try exact I; auto; try (fold n3; lia).
  cbn [rbind]. destruct (times0_ok b) as (z & -> & Sz & Vz & Cz). cbn [rbind].
  pose proof (tk_d _ _ _ _ _ _ Ta) as Da. pose proof (tk_d _ _ _ _ _ _ Tb) as Db. unfold is_val_tri in NV.
  destruct (ddims t) as [l|] eqn:Dt; [|discriminate]. cbn [dlist dmap] in *. destruct (ddims a) as [la|]; [|contradiction]. destruct (ddims b) as [lb|] eqn:Eb; [|contradiction].
  assert (Ln : l <> []) by (intros ->; cbn in L3; lia).
  rewrite (concat_dev2 _ _ (Ages l)).
  - eexists. split; [reflexivity|].
    match goal with |- moved _ _ ?x _ => set (u := x) end. assert (Ev : values u = cat2 3 (values a) (values z)) by reflexivity.
    split; [|split].
    + constructor; try (rewrite Ev; cbn [cat2 ax0 ax1 ax2 ax3]); try (unfold u; cbn; apply Ta).
      * unfold u; cbn. rewrite (tk_k _ _ _ _ _ _ Ta). apply map_seq_all; auto.
      * unfold u; cbn. rewrite (tk_v _ _ _ _ _ _ Ta). apply map_seq_all; auto.
      * unfold u; cbn. rewrite (tk_o _ _ _ _ _ _ Ta). apply map_seq_all; auto.
      * unfold u; cbn. auto.
      * rewrite (tk_0 _ _ _ _ _ _ Ta). apply seq_length.
      * rewrite (tk_1 _ _ _ _ _ _ Ta). apply seq_length.
      * rewrite (tk_2 _ _ _ _ _ _ Ta). apply seq_length.
      * rewrite (tk_3 _ _ _ _ _ _ Ta), (sm_3 _ _ Sz), (tk_3 _ _ _ _ _ _ Tb), !seq_length. fold n3. lia.
    + unfold u; cbn. lia.
    + intros i c o d (Hi & Hc & Ho & Hd). fold n0 in Hi. fold n1 in Hc. fold n2 in Ho. fold n3 in Hd. cbn [ahead]. fold n3.
      destruct (Z.leb_spec 0 (Z.of_nat d + 1)); [|lia]. unfold amount, cel. rewrite Ev. cbn [cat2 av andb].
      rewrite (tk_3 _ _ _ _ _ _ Ta), seq_length.
      destruct (Z.ltb_spec (Z.of_nat d + 1) (Z.of_nat n3)).
      * destruct (Nat.ltb_spec d (n3 - 1)); [|lia]. fold (cel a i c o d). rewrite (tk_cell _ _ _ _ _ _ Ta) by (rewrite seq_length; auto).
        rewrite !seq_nth by auto. unfold cel. f_equal. lia.
      * destruct (Nat.ltb_spec d (n3 - 1)); [lia|]. apply Cz. repeat split.
        -- rewrite (tk_0 _ _ _ _ _ _ Tb), seq_length; auto.
        -- rewrite (tk_1 _ _ _ _ _ _ Tb), seq_length; auto.
        -- rewrite (tk_2 _ _ _ _ _ _ Tb), seq_length; auto.
        -- rewrite (tk_3 _ _ _ _ _ _ Tb), seq_length. lia.
  - cbn. rewrite (sm_k _ _ Sz), (tk_k _ _ _ _ _ _ Tb), (tk_k _ _ _ _ _ _ Ta). auto.
  - cbn. rewrite (sm_v _ _ Sz), (tk_v _ _ _ _ _ _ Tb), (tk_v _ _ _ _ _ _ Ta). auto.
  - cbn. rewrite (sm_o _ _ Sz), (tk_o _ _ _ _ _ _ Tb), (tk_o _ _ _ _ _ _ Ta). auto.
  - cbn. rewrite (sm_d _ _ Sz), Eb. cbn [ddim_app]. f_equal. f_equal. rewrite Db, L3. apply split_last; auto.
  - cbn. auto.
  - cbn. rewrite (sm_0 _ _ Sz), (tk_0 _ _ _ _ _ _ Tb), (tk_0 _ _ _ _ _ _ Ta). auto.
  - cbn. rewrite (sm_1 _ _ Sz), (tk_1 _ _ _ _ _ _ Tb), (tk_1 _ _ _ _ _ _ Ta). auto.
  - cbn. rewrite (sm_2 _ _ Sz), (tk_2 _ _ _ _ _ _ Tb), (tk_2 _ _ _ _ _ _ Ta). auto.
Qed.

Lemma shift1_dev_bwd t : shiftable AxDev t -> exists u, shift1 t false AxDev = Ok u /\ moved AxDev t u (-1).
Proof.
  intros ((L0 & L1 & L2 & L3) & (H0 & H1 & H2 & H3) & N2 & ND & NV & NP). unfold shift1. rewrite NV, NP. cbn [orb].
  set (n0 := ax0 (values t)) in *. set (n1 := ax1 (values t)) in *. set (n2 := ax2 (values t)) in *. set (n3 := ax3 (values t)) in *.
  destruct (iloc_taken t KAll KAll KAll (KSlice None (Some 1) None) (seq 0 n0) (seq 0 n1) (seq 0 n2) (seq 0 1)) as (b & -> & Tb & Vb);
    try apply ask_all; try apply ask_first; try apply plain_slice; try exact I; auto; try (fold n3; lia).
  cbn [rbind]. destruct (times0_ok b) as (z & -> & Sz & Vz & Cz). cbn [rbind].
  destruct (iloc_taken t KAll KAll KAll (KSlice None (Some (-1)) None) (seq 0 n0) (seq 0 n1) (seq 0 n2) (seq 0 (n3 - 1))) as (a & -> & Ta & Va);
    try apply ask_all; try apply ask_init; try apply plain_slice; try exact I; auto; try (fold n3; lia).
  cbn [rbind].
  pose proof (tk_d _ _ _ _ _ _ Ta) as Da. pose proof (tk_d _ _ _ _ _ _ Tb) as Db. unfold is_val_tri in NV.
  destruct (ddims t) as [l|] eqn:Dt; [|discriminate]. cbn [dlist dmap] in *. destruct (ddims a) as [la|]; [|contradiction]. destruct (ddims b) as [lb|] eqn:Eb; [|contradiction].
  assert (Ln : l <> []) by (intros ->; cbn in L3; lia).
  rewrite (concat_dev2 _ _ (Ages l)).
  - eexists. split; [reflexivity|].
    match goal with |- moved _ _ ?x _ => set (u := x) end. assert (Ev : values u = cat2 3 (values z) (values a)) by reflexivity.
    split; [|split].
    + constructor; try (rewrite Ev; cbn [cat2 ax0 ax1 ax2 ax3]); try (unfold u; cbn [key_labels is_cumulative is_pattern ograin dgrain set_vdate set_values set_ddims set_dims]).
      * unfold u; cbn. rewrite (sm_k _ _ Sz), (tk_k _ _ _ _ _ _ Tb). apply map_seq_all; auto.
      * unfold u; cbn. rewrite (sm_kl _ _ Sz). apply Tb.
      * unfold u; cbn. rewrite (sm_v _ _ Sz), (tk_v _ _ _ _ _ _ Tb). apply map_seq_all; auto.
      * unfold u; cbn. rewrite (sm_o _ _ Sz), (tk_o _ _ _ _ _ _ Tb). apply map_seq_all; auto.
      * unfold u; cbn. auto.
      * unfold u; cbn. rewrite (sm_cum _ _ Sz). apply Tb.
      * unfold u; cbn. rewrite (sm_pat _ _ Sz). apply Tb.
      * unfold u; cbn. rewrite (sm_og _ _ Sz). apply Tb.
      * unfold u; cbn. rewrite (sm_dg _ _ Sz). apply Tb.
      * rewrite (sm_0 _ _ Sz), (tk_0 _ _ _ _ _ _ Tb). apply seq_length.
      * rewrite (sm_1 _ _ Sz), (tk_1 _ _ _ _ _ _ Tb). apply seq_length.
      * rewrite (sm_2 _ _ Sz), (tk_2 _ _ _ _ _ _ Tb). apply seq_length.
      * rewrite (tk_3 _ _ _ _ _ _ Ta), (sm_3 _ _ Sz), (tk_3 _ _ _ _ _ _ Tb), !seq_length. fold n3. lia.
    + unfold u; cbn. lia.
    + intros i c o d (Hi & Hc & Ho & Hd). fold n0 in Hi. fold n1 in Hc. fold n2 in Ho. fold n3 in Hd. cbn [ahead]. fold n3.
      unfold amount, cel. rewrite Ev. cbn [cat2 av]. rewrite (sm_3 _ _ Sz), (tk_3 _ _ _ _ _ _ Tb), seq_length.
      destruct (Z.leb_spec 0 (Z.of_nat d + -1)); cbn [andb].
      * destruct (Z.ltb_spec (Z.of_nat d + -1) (Z.of_nat n3)); [|lia].
        destruct (Nat.ltb_spec d 1); [lia|]. fold (cel a i c o (d - 1)). rewrite (tk_cell _ _ _ _ _ _ Ta) by (rewrite seq_length; auto; lia).
        rewrite !seq_nth by (auto; lia). unfold cel. f_equal. lia.
      * destruct (Nat.ltb_spec d 1); [|lia]. apply Cz. repeat split.
        -- rewrite (tk_0 _ _ _ _ _ _ Tb), seq_length; auto.
        -- rewrite (tk_1 _ _ _ _ _ _ Tb), seq_length; auto.
        -- rewrite (tk_2 _ _ _ _ _ _ Tb), seq_length; auto.
        -- rewrite (tk_3 _ _ _ _ _ _ Tb), seq_length. lia.
  - cbn. rewrite (sm_k _ _ Sz), (tk_k _ _ _ _ _ _ Tb), (tk_k _ _ _ _ _ _ Ta). auto.
  - cbn. rewrite (sm_v _ _ Sz), (tk_v _ _ _ _ _ _ Tb), (tk_v _ _ _ _ _ _ Ta). auto.
  - cbn. rewrite (sm_o _ _ Sz), (tk_o _ _ _ _ _ _ Tb), (tk_o _ _ _ _ _ _ Ta). auto.
  - cbn. rewrite (sm_d _ _ Sz), Eb. cbn [ddim_app]. f_equal. f_equal. rewrite Db. apply split_first; auto.
  - cbn. auto.
  - cbn. rewrite (sm_0 _ _ Sz), (tk_0 _ _ _ _ _ _ Tb), (tk_0 _ _ _ _ _ _ Ta). auto.
  - cbn. rewrite (sm_1 _ _ Sz), (tk_1 _ _ _ _ _ _ Tb), (tk_1 _ _ _ _ _ _ Ta). auto.
  - cbn. rewrite (sm_2 _ _ Sz), (tk_2 _ _ _ _ _ _ Tb), (tk_2 _ _ _ _ _ _ Ta). auto.
Qed.

Lemma shift1_org_fwd t : shiftable AxOrigin t -> exists u, shift1 t true AxOrigin = Ok u /\ moved AxOrigin t u 1.
Proof.
  intros ((L0 & L1 & L2 & L3) & (H0 & H1 & H2 & H3) & N2 & ND). unfold shift1.
  set (n0 := ax0 (values t)) in *. set (n1 := ax1 (values t)) in *. set (n2 := ax2 (values t)) in *. set (n3 := ax3 (values t)) in *.
  destruct (iloc_taken t KAll KAll (KSlice (Some 1) None None) KAll (seq 0 n0) (seq 0 n1) (seq 1 (n2 - 1)) (seq 0 n3)) as (a & -> & Ta & Va);
    try apply ask_all; try apply ask_tail; try apply plain_slice; try exact I; auto; try (fold n2; lia).
  cbn [rbind].
  destruct (iloc_taken t KAll KAll (KSlice (Some (-1)) None None) KAll (seq 0 n0) (seq 0 n1) (seq (n2 - 1) 1) (seq 0 n3)) as (b & -> & Tb & Vb);
    try apply ask_all; try apply ask_last; try apply plain_slice; try exact I; auto; try (fold n2; lia).
  cbn [rbind]. destruct (times0_ok b) as (z & -> & Sz & Vz & Cz). cbn [rbind].
  assert (Ln : odims t <> []) by (intros E; rewrite E in L2; cbn in L2; lia).
  assert (Da : ddims a = ddims t).
  { pose proof (tk_d _ _ _ _ _ _ Ta) as Da. destruct (ddims t) as [l|l], (ddims a) as [la|la]; try contradiction; f_equal; rewrite Da; apply map_seq_all; auto. }
  assert (Db : ddims b = ddims t).
  { pose proof (tk_d _ _ _ _ _ _ Tb) as Db. destruct (ddims t) as [l|l], (ddims b) as [lb|lb]; try contradiction; f_equal; rewrite Db; apply map_seq_all; auto. }
  assert (Eo : removelast (odims t) ++ odims z = odims t).
  { rewrite (sm_o _ _ Sz), (tk_o _ _ _ _ _ _ Tb), L2. apply split_last; auto. }
  rewrite concat_origin2.
  - eexists. split; [reflexivity|].
    match goal with |- moved _ _ ?x _ => set (u := x) end. assert (Ev : values u = cat2 2 (values a) (values z)) by reflexivity.
    split; [|split].
    + constructor; try (rewrite Ev; cbn [cat2 ax0 ax1 ax2 ax3]); try (unfold u; cbn; apply Ta).
      * unfold u; cbn. rewrite (tk_k _ _ _ _ _ _ Ta). apply map_seq_all; auto.
      * unfold u; cbn. rewrite (tk_v _ _ _ _ _ _ Ta). apply map_seq_all; auto.
      * unfold u; cbn. auto.
      * unfold u; cbn. auto.
      * rewrite (tk_0 _ _ _ _ _ _ Ta). apply seq_length.
      * rewrite (tk_1 _ _ _ _ _ _ Ta). apply seq_length.
      * rewrite (tk_2 _ _ _ _ _ _ Ta), (sm_2 _ _ Sz), (tk_2 _ _ _ _ _ _ Tb), !seq_length. fold n2. lia.
      * rewrite (tk_3 _ _ _ _ _ _ Ta). apply seq_length.
    + unfold u; cbn. lia.
    + intros i c o d (Hi & Hc & Ho & Hd). fold n0 in Hi. fold n1 in Hc. fold n2 in Ho. fold n3 in Hd. cbn [ahead]. fold n2.
      destruct (Z.leb_spec 0 (Z.of_nat o + 1)); [|lia]. unfold amount, cel. rewrite Ev. cbn [cat2 av andb].
      rewrite (tk_2 _ _ _ _ _ _ Ta), seq_length.
      destruct (Z.ltb_spec (Z.of_nat o + 1) (Z.of_nat n2)).
      * destruct (Nat.ltb_spec o (n2 - 1)); [|lia]. fold (cel a i c o d). rewrite (tk_cell _ _ _ _ _ _ Ta) by (rewrite seq_length; auto).
        rewrite !seq_nth by auto. unfold cel. f_equal. lia.
      * destruct (Nat.ltb_spec o (n2 - 1)); [lia|]. apply Cz. repeat split.
        -- rewrite (tk_0 _ _ _ _ _ _ Tb), seq_length; auto.
        -- rewrite (tk_1 _ _ _ _ _ _ Tb), seq_length; auto.
        -- rewrite (tk_2 _ _ _ _ _ _ Tb), seq_length. lia.
        -- rewrite (tk_3 _ _ _ _ _ _ Tb), seq_length; auto.
  - cbn. rewrite (sm_k _ _ Sz), (tk_k _ _ _ _ _ _ Tb), (tk_k _ _ _ _ _ _ Ta). auto.
  - cbn. rewrite (sm_v _ _ Sz), (tk_v _ _ _ _ _ _ Tb), (tk_v _ _ _ _ _ _ Ta). auto.
  - cbn. rewrite (sm_d _ _ Sz). congruence.
  - cbn. rewrite Eo. auto.
  - cbn. rewrite (sm_0 _ _ Sz), (tk_0 _ _ _ _ _ _ Tb), (tk_0 _ _ _ _ _ _ Ta). auto.
  - cbn. rewrite (sm_1 _ _ Sz), (tk_1 _ _ _ _ _ _ Tb), (tk_1 _ _ _ _ _ _ Ta). auto.
  - cbn. rewrite (sm_3 _ _ Sz), (tk_3 _ _ _ _ _ _ Tb), (tk_3 _ _ _ _ _ _ Ta). auto.
Qed.

Lemma shift1_org_bwd t : shiftable AxOrigin t -> exists u, shift1 t false AxOrigin = Ok u /\ moved AxOrigin t u (-1).
Proof.
  intros ((L0 & L1 & L2 & L3) & (H0 & H1 & H2 & H3) & N2 & ND). unfold shift1.
  set (n0 := ax0 (values t)) in *. set (n1 := ax1 (values t)) in *. set (n2 := ax2 (values t)) in *. set (n3 := ax3 (values t)) in *.
  destruct (iloc_taken t KAll KAll (KSlice None (Some 1) None) KAll (seq 0 n0) (seq 0 n1) (seq 0 1) (seq 0 n3)) as (b & -> & Tb & Vb);
    try apply ask_all; try apply ask_first; try apply plain_slice; try exact I; auto; try (fold n2; lia).
  cbn [rbind]. destruct (times0_ok b) as (z & -> & Sz & Vz & Cz). cbn [rbind].
  destruct (iloc_taken t KAll KAll (KSlice None (Some (-1)) None) KAll (seq 0 n0) (seq 0 n1) (seq 0 (n2 - 1)) (seq 0 n3)) as (a & -> & Ta & Va);
    try apply ask_all; try apply ask_init; try apply plain_slice; try exact I; auto; try (fold n2; lia).
  cbn [rbind].
  assert (Ln : odims t <> []) by (intros E; rewrite E in L2; cbn in L2; lia).
  assert (Da : ddims a = ddims t).
  { pose proof (tk_d _ _ _ _ _ _ Ta) as Da. destruct (ddims t) as [l|l], (ddims a) as [la|la]; try contradiction; f_equal; rewrite Da; apply map_seq_all; auto. }
  assert (Db : ddims b = ddims t).
  { pose proof (tk_d _ _ _ _ _ _ Tb) as Db. destruct (ddims t) as [l|l], (ddims b) as [lb|lb]; try contradiction; f_equal; rewrite Db; apply map_seq_all; auto. }
  assert (Eo : odims z ++ tl (odims t) = odims t).
  { rewrite (sm_o _ _ Sz), (tk_o _ _ _ _ _ _ Tb). apply split_first; auto. }
  rewrite concat_origin2.
  - eexists. split; [reflexivity|].
    match goal with |- moved _ _ ?x _ => set (u := x) end. assert (Ev : values u = cat2 2 (values z) (values a)) by reflexivity.
    split; [|split].
    + constructor; try (rewrite Ev; cbn [cat2 ax0 ax1 ax2 ax3]); try (unfold u; cbn [key_labels is_cumulative is_pattern ograin dgrain set_vdate set_values set_ddims set_dims]).
      * unfold u; cbn. rewrite (sm_k _ _ Sz), (tk_k _ _ _ _ _ _ Tb). apply map_seq_all; auto.
      * unfold u; cbn. rewrite (sm_kl _ _ Sz). apply Tb.
      * unfold u; cbn. rewrite (sm_v _ _ Sz), (tk_v _ _ _ _ _ _ Tb). apply map_seq_all; auto.
      * unfold u; cbn. auto.
      * unfold u; cbn. rewrite (sm_d _ _ Sz). auto.
      * unfold u; cbn. rewrite (sm_cum _ _ Sz). apply Tb.
      * unfold u; cbn. rewrite (sm_pat _ _ Sz). apply Tb.
      * unfold u; cbn. rewrite (sm_og _ _ Sz). apply Tb.
      * unfold u; cbn. rewrite (sm_dg _ _ Sz). apply Tb.
      * rewrite (sm_0 _ _ Sz), (tk_0 _ _ _ _ _ _ Tb). apply seq_length.
      * rewrite (sm_1 _ _ Sz), (tk_1 _ _ _ _ _ _ Tb). apply seq_length.
      * rewrite (tk_2 _ _ _ _ _ _ Ta), (sm_2 _ _ Sz), (tk_2 _ _ _ _ _ _ Tb), !seq_length. fold n2. lia.
      * rewrite (sm_3 _ _ Sz), (tk_3 _ _ _ _ _ _ Tb). apply seq_length.
    + unfold u; cbn. lia.
    + intros i c o d (Hi & Hc & Ho & Hd). fold n0 in Hi. fold n1 in Hc. fold n2 in Ho. fold n3 in Hd. cbn [ahead]. fold n2.
      unfold amount, cel. rewrite Ev. cbn [cat2 av]. rewrite (sm_2 _ _ Sz), (tk_2 _ _ _ _ _ _ Tb), seq_length.
      destruct (Z.leb_spec 0 (Z.of_nat o + -1)); cbn [andb].
      * destruct (Z.ltb_spec (Z.of_nat o + -1) (Z.of_nat n2)); [|lia].
        destruct (Nat.ltb_spec o 1); [lia|]. fold (cel a i c (o - 1) d). rewrite (tk_cell _ _ _ _ _ _ Ta) by (rewrite seq_length; auto; lia).
        rewrite !seq_nth by (auto; lia). unfold cel. f_equal. lia.
      * destruct (Nat.ltb_spec o 1); [|lia]. apply Cz. repeat split.
        -- rewrite (tk_0 _ _ _ _ _ _ Tb), seq_length; auto.
        -- rewrite (tk_1 _ _ _ _ _ _ Tb), seq_length; auto.
        -- rewrite (tk_2 _ _ _ _ _ _ Tb), seq_length. lia.
        -- rewrite (tk_3 _ _ _ _ _ _ Tb), seq_length; auto.
  - cbn. rewrite (sm_k _ _ Sz), (tk_k _ _ _ _ _ _ Tb), (tk_k _ _ _ _ _ _ Ta). auto.
  - cbn. rewrite (sm_v _ _ Sz), (tk_v _ _ _ _ _ _ Tb), (tk_v _ _ _ _ _ _ Ta). auto.
  - cbn. rewrite (sm_d _ _ Sz). congruence.
  - cbn. rewrite Eo. auto.
  - cbn. rewrite (sm_0 _ _ Sz), (tk_0 _ _ _ _ _ _ Tb), (tk_0 _ _ _ _ _ _ Ta). auto.
  - cbn. rewrite (sm_1 _ _ Sz), (tk_1 _ _ _ _ _ _ Tb), (tk_1 _ _ _ _ _ _ Ta). auto.
  - cbn. rewrite (sm_3 _ _ Sz), (tk_3 _ _ _ _ _ _ Tb), (tk_3 _ _ _ _ _ _ Ta). auto.
Qed.

Lemma shift1_ok ax fwd t : shiftable ax t -> exists u, shift1 t fwd ax = Ok u /\ moved ax t u (if fwd then 1 else -1).
Proof.
  intros H. destruct ax; try (destruct H as (_ & _ & []); fail); destruct fwd;
    auto using shift1_dev_fwd, shift1_dev_bwd, shift1_org_fwd, shift1_org_bwd.
Qed.
Lemma shiftable_same ax t u : same_labels t u -> shiftable ax t -> shiftable ax u.
Proof.
  intros S ((L0 & L1 & L2 & L3) & (H0 & H1 & H2 & H3) & H). destruct S as [? ? ? ? Sd ? Sp ? ? S0 S1 S2 S3].
  split; [unfold labelled; rewrite S0, S1, S2, S3; repeat split; congruence|]. split; [rewrite S0, S1, S2, S3; auto|].
  unfold is_val_tri in *. destruct ax; auto; rewrite ?S2, ?S3, ?Sd, ?Sp; auto; congruence.
Qed.
Lemma moved_0 ax t : moved ax t t 0.
Proof.
  split; [constructor; reflexivity|]. split; [lia|]. intros i c o d (Hi & Hc & Ho & Hd). unfold ahead. rewrite !Z.add_0_r, !Nat2Z.id.
  destruct ax;
    match goal with |- context [0 <=? ?x] => destruct (Z.leb_spec 0 x); [|lia] end;
    match goal with |- context [?x <? ?y] => destruct (Z.ltb_spec x y); [|lia] end; reflexivity.
Qed.
Lemma moved_trans ax t u w a b : (0 <= a /\ 0 <= b) \/ (a <= 0 /\ b <= 0) -> moved ax t u a -> moved ax u w b -> moved ax t w (a + b).
Proof.
  intros Hab (S & V & C) (S' & V' & C'). split; [|split; [lia|]].
  - destruct S, S'. constructor; congruence.
  - intros i c o d Hr. pose proof Hr as (Hi & Hc & Ho & Hd).
    assert (Hr' : in_range u i c o d) by (destruct S; repeat split; congruence).
    specialize (C' i c o d Hr'). unfold ahead in C' |- *. destruct S as [? ? ? ? ? ? ? ? ? S0 S1 S2 S3]. rewrite S2, S3 in C'.
    assert (G : forall n x, (x < n)%nat ->
       ((0 <=? Z.of_nat x + b) && (Z.of_nat x + b <? Z.of_nat n) = true /\ (Z.to_nat (Z.of_nat x + b) < n)%nat /\ Z.of_nat (Z.to_nat (Z.of_nat x + b)) + a = Z.of_nat x + (a + b)) \/
       ((0 <=? Z.of_nat x + b) && (Z.of_nat x + b <? Z.of_nat n) = false /\ (0 <=? Z.of_nat x + (a + b)) && (Z.of_nat x + (a + b) <? Z.of_nat n) = false)).
    { intros n x Hx. destruct (Z.leb_spec 0 (Z.of_nat x + b)), (Z.ltb_spec (Z.of_nat x + b) (Z.of_nat n)); cbn [andb].
      - left. repeat split; lia.
      - right. split; auto. destruct (Z.leb_spec 0 (Z.of_nat x + (a + b))), (Z.ltb_spec (Z.of_nat x + (a + b)) (Z.of_nat n)); cbn [andb]; auto; lia.
      - right. split; auto. destruct (Z.leb_spec 0 (Z.of_nat x + (a + b))), (Z.ltb_spec (Z.of_nat x + (a + b)) (Z.of_nat n)); cbn [andb]; auto; lia.
      - right. split; auto. destruct (Z.leb_spec 0 (Z.of_nat x + (a + b))), (Z.ltb_spec (Z.of_nat x + (a + b)) (Z.of_nat n)); cbn [andb]; auto; lia. }
    destruct ax.
    1,2,4: destruct (G _ d Hd) as [(E & R & F)|(E & F)]; rewrite E in C';
      [ assert (Hr2 : in_range t i c o (Z.to_nat (Z.of_nat d + b))) by (repeat split; auto);
        specialize (C i c o _ Hr2); unfold ahead in C; rewrite F in C; unfold amount in *; rewrite C'; exact C
      | rewrite F; exact C' ].
    destruct (G _ o Ho) as [(E & R & F)|(E & F)]; rewrite E in C'.
    + assert (Hr2 : in_range t i c (Z.to_nat (Z.of_nat o + b)) d) by (repeat split; auto).
      specialize (C i c _ d Hr2). unfold ahead in C. rewrite F in C. unfold amount in *. rewrite C'. exact C.
    + rewrite F. exact C'.
Qed.
Lemma shift_n_ok ax fwd n : forall t, shiftable ax t -> exists u, shift_n n fwd ax t = Ok u /\ moved ax t u (if fwd then Z.of_nat n else - Z.of_nat n).
Proof.
  induction n as [|n IH]; intros t H.
  - exists t. split; auto. destruct fwd; apply moved_0.
  - cbn [shift_n]. destruct (shift1_ok ax fwd t H) as (u & -> & M). cbn [rbind].
    destruct (IH u (shiftable_same ax t u (proj1 M) H)) as (w & -> & M'). exists w. split; auto.
    replace (if fwd then Z.of_nat (S n) else - Z.of_nat (S n)) with ((if fwd then 1 else -1) + (if fwd then Z.of_nat n else - Z.of_nat n)) by (destruct fwd; lia).
    eapply moved_trans; eauto. destruct fwd; lia.
Qed.
Lemma shift_ok ax t k : shiftable ax t -> exists u, Pandas.shift t k ax = Ok u /\ moved ax t u k.
Proof.
  intros H. assert (E : Pandas.shift t k ax = shift_n (Z.to_nat (Z.abs k)) (0 <? k) ax t) by (destruct ax; try (destruct H as (_ & _ & []); fail); reflexivity).
  rewrite E. destruct (shift_n_ok ax (0 <? k) (Z.to_nat (Z.abs k)) t H) as (u & -> & M). exists u. split; auto.
  replace k with (if 0 <? k then Z.of_nat (Z.to_nat (Z.abs k)) else - Z.of_nat (Z.to_nat (Z.abs k))); [exact M|].
  destruct (Z.ltb_spec 0 k); lia.
Qed.
