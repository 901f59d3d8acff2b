(** Ultimates and IBNR of the chain ladder method. *)
From Coq Require Import Lia Sorted.
From Verif Require Export P_Dev2 BcastFacts P_Pattern P_Align3 SpecMethods.
Local Open Scope Z_scope.

(** ** Flags of derived triangles *)
Definition same_flags (t u : tri) : Prop :=
  is_cumulative u = is_cumulative t /\ is_pattern u = is_pattern t /\ ograin u = ograin t /\ dgrain u = dgrain t.
Lemma clip_vdate_flags t u : clip_vdate t = Ok u -> same_flags t u /\ (1 <= List.length (dlist (ddims u)))%nat /\ ddims u = ddims t.
Proof.
  unfold clip_vdate. destruct (valuations t) eqn:E; intros H; [discriminate|]. injection H as <-.
  split; [repeat split|]. split; [|reflexivity]. cbn. unfold valuations in E.
  destruct (dlist (ddims t)); [|simpl; lia]. exfalso. cbn in E. clear - E.
  assert (G : forall n, flat_map (fun _ : nat => @nil Z) (seq 0 n) = []).
  { intros n. generalize 0%nat. induction n; intros; simpl; auto. }
  rewrite G in E. discriminate.
Qed.
Lemma get_idx_flags t a b c d u : get_idx t a b c d = Ok u -> same_flags t u /\ (1 <= List.length (dlist (ddims u)))%nat.
Proof.
  unfold get_idx. intros H. destruct (negb _); [discriminate|].
  repeat match type of H with rbind ?e _ = Ok _ => destruct e; cbn [rbind] in H; [|discriminate H] end.
  apply clip_vdate_flags in H. tauto.
Qed.
Lemma getitem_valuation_flags t key u : getitem_valuation t key = Ok u ->
  same_flags t u /\ ((1 < ax3 (values t))%nat -> (1 <= List.length (dlist (ddims u)))%nat) /\
  ((ax3 (values t) <= 1)%nat -> List.length (dlist (ddims u)) = ax3 (values t)).
Proof.
  unfold getitem_valuation. destruct (Nat.ltb_spec 1 (ax3 (values t))) as [Hn|Hn].
  - unfold slice_valuation. destruct (map _ _); [discriminate|]. intros H.
    repeat match type of H with rbind ?e _ = Ok _ => destruct e; cbn [rbind] in H; [|discriminate H] end.
    apply get_idx_flags in H. destruct H as ((F1 & F2 & F3 & F4) & L).
    repeat split; auto; lia.
  - unfold slice_origin. intros H.
    match type of H with rbind ?e _ = Ok _ => destruct e as [sl|]; cbn [rbind] in H; [|discriminate H] end.
    assert (D : forall rows, List.length (dlist (ddims (sel_tri t (seq 0 (ax0 (values t))) (seq 0 (ax1 (values t))) rows (seq 0 (ax3 (values t)))))) = ax3 (values t)).
    { intros. cbn [sel_tri ddims]. rewrite dlist_dmap_sel, sel_length, seq_length. reflexivity. }
    destruct sl.
    + match type of H with rbind ?e _ = Ok _ => destruct e; cbn [rbind] in H; [|discriminate H] end.
      injection H as <-. repeat split; auto; lia.
    + injection H as <-. repeat split; auto; lia.
Qed.
Lemma latest_diagonal_flags t l : wf t -> latest_diagonal t = Ok l -> same_flags t l /\ List.length (dlist (ddims l)) = 1%nat.
Proof.
  intros W. unfold latest_diagonal. intros H.
  match type of H with rbind ?e _ = Ok _ => destruct e as [s|] eqn:E; cbn [rbind] in H; [|discriminate H] end.
  apply getitem_valuation_flags in E. destruct E as ((F1 & F2 & F3 & F4) & L1 & L2). injection H as <-.
  pose proof (wf_d1 _ W). unfold sum_axis.
  destruct (Nat.ltb_spec 1 (List.length (dlist (ddims s)))) as [Hl|Hl]; cbn.
  - repeat split; auto.
  - repeat split; auto. destruct (Nat.ltb_spec 1 (ax3 (values t))) as [Hn|Hn]; [specialize (L1 Hn); lia|specialize (L2 Hn); lia].
Qed.

(** ** The latest diagonal of the aligned factors *)
Lemma n2n_Some_ne q : q <> 0%Qc -> n2n (Some q) = Some q.
Proof. apply n2n_Some. Qed.

Lemma latest_diagonal_ok2 t : wf t -> even_diag t ->
  exists l, latest_diagonal t = Ok l /\ kdims l = kdims t /\ key_labels l = key_labels t /\ vdims l = vdims t /\
    odims l = odims t /\ vdate l = vdate t /\
    ax0 (values l) = ax0 (values t) /\ ax1 (values l) = ax1 (values t) /\ ax2 (values l) = ax2 (values t) /\ ax3 (values l) = 1%nat /\
    (forall i c o d, in_range t i c o d -> month_of t o d = vdate t -> stores (cel l i c o 0%nat) (amount t i c o d)) /\
    same_flags t l /\ List.length (dlist (ddims l)) = 1%nat.
Proof.
  intros W E. destruct (latest_diagonal_ok t W E) as (l & El & H1 & H2 & H3 & H4 & H5 & H6 & H7 & H8 & H9 & H10 & _).
  destruct (latest_diagonal_flags t l W El) as (F & L). exists l. repeat (split; auto).
Qed.

(** The triangle of ones on the known cells (methods/base.py 30-31). *)
Lemma iloc_first_ok t : wf t -> even_diag t -> (1 <= ax0 (values t))%nat -> (1 <= ax1 (values t))%nat ->
  exists a, iloc_first t = Ok a /\ kdims a = [nth 0 (kdims t) []] /\ key_labels a = key_labels t /\ vdims a = [nth 0 (vdims t) EmptyString] /\
    odims a = odims t /\ ddims a = ddims t /\ vdate a = vdate t /\ same_flags t a /\ wf a /\
    ax0 (values a) = 1%nat /\ ax1 (values a) = 1%nat /\ ax2 (values a) = ax2 (values t) /\ ax3 (values a) = ax3 (values t).
Proof.
  intros W E H0 H1. unfold iloc_first, get_idx. cbn [is_slice all_slice andb negb].
  assert (P1 : forall n, (1 <= n)%nat -> positions (Slice (Some 0) (Some 1) None) n = Ok [0%nat]).
  { intros n Hn. unfold positions, slice_positions, slice_triple, slice_bound. cbn [Z.eqb Z.ltb Z.compare rbind].
    rewrite !Z.min_l by lia. reflexivity. }
  rewrite !P1 by auto. rewrite !positions_all. cbn [rbind].
  set (s := sel_tri t [0%nat] [0%nat] (seq 0 (ax2 (values t))) (seq 0 (ax3 (values t)))).
  assert (Ws : wf s).
  { apply (wf_sel t [0%nat] [0%nat]); auto.
    - apply (incr_pos_seq 0 _ (ax2 (values t))); lia.
    - apply (incr_pos_seq 0 _ (ax3 (values t))); lia.
    - rewrite seq_length. apply W.
    - rewrite seq_length. apply W. }
  destruct (clip_vdate_ok s Ws) as (u & Eu & Cu). rewrite Eu. exists u. split; auto.
  assert (Eu' := cl_eq _ _ Cu).
  assert (Eo : odims s = odims t) by (cbn; apply sel_seq_all; apply W).
  assert (Ed : ddims s = ddims t).
  { cbn. pose proof (wf_d _ W). destruct (ddims t) as [x|x]; cbn [dmap dlist] in *; f_equal; apply sel_seq_all; auto. }
  assert (Ev : vdate u = vdate t).
  { destruct E as (E & _). destruct (E 0%nat) as (d & Hd & Em); [apply W|].
    assert (M : month_of s 0%nat d = vdate t).
    { rewrite <- Em. unfold month_of. rewrite Ed, Eo. reflexivity. }
    assert (R2 : ax2 (values s) = ax2 (values t)) by (cbn; apply seq_length).
    assert (R3 : ax3 (values s) = ax3 (values t)) by (cbn; apply seq_length).
    pose proof (cl_le _ _ Cu) as Hle. change (vdate s) with (vdate t) in Hle.
    pose proof (wf_o1 _ W).
    pose proof (cl_fut _ _ Cu 0%nat d ltac:(lia) ltac:(lia)) as Hf. rewrite M in Hf. change (vdate s) with (vdate t) in Hf.
    destruct (Z.ltb_spec (vdate u) (vdate t)); [|lia]. rewrite (proj2 (Z.ltb_ge _ _)) in Hf by lia. discriminate. }
  assert (Fu : kdims u = kdims s /\ key_labels u = key_labels s /\ vdims u = vdims s /\ odims u = odims s /\ ddims u = ddims s /\ same_flags s u /\ values u = values s).
  { rewrite Eu'. repeat split. }
  destruct Fu as (K & KL & V & O & D & Fl & Va).
  rewrite K, KL, V, O, D, Ev, Va, Eo, Ed. cbn [s sel_tri kdims key_labels vdims values sel_arr ax0 ax1 ax2 ax3 sel map List.length].
  rewrite !seq_length. repeat (split; [solve [auto | exact Fl | apply Cu]|]). auto.
Qed.

Lemma nan_triangle_ext t u o d : ddims u = ddims t -> odims u = odims t -> vdate u = vdate t ->
  ax2 (values u) = ax2 (values t) -> ax3 (values u) = ax3 (values t) -> nan_triangle u o d = nan_triangle t o d.
Proof. intros E1 E2 E3 E4 E5. unfold nan_triangle, valuation. rewrite E1, E2, E3, E4, E5. reflexivity. Qed.
Lemma nan_01 t o d : nan_triangle t o d = None \/ nan_triangle t o d = Some 1%Qc.
Proof. unfold nan_triangle. destruct (_ =? 1)%nat; auto. destruct (_ <? _); auto. Qed.

Lemma shape_set_values t v : shape_ok t -> ax0 v = ax0 (values t) -> ax1 v = ax1 (values t) -> ax2 v = ax2 (values t) -> ax3 v = ax3 (values t) ->
  shape_ok (set_values t v).
Proof. intros (H0 & H1 & H2 & H3 & H4) E0 E1 E2 E3. unfold shape_ok. cbn. rewrite E0, E1, E2, E3. auto. Qed.

(** Operation with a plain array. *)
Record ares (op : aop) (x : tri) (b : arr) (r : tri) : Prop := {
  ar_k : kdims r = kdims x; ar_kl : key_labels r = key_labels x; ar_v : vdims r = vdims x;
  ar_o : odims r = odims x; ar_d : ddims r = ddims x; ar_vd : vdate r = vdate x; ar_fl : same_flags x r;
  ar_0 : ax0 (values r) = Nat.max (ax0 (values x)) (ax0 b);
  ar_1 : ax1 (values r) = Nat.max (ax1 (values x)) (ax1 b);
  ar_2 : ax2 (values r) = Nat.max (ax2 (values x)) (ax2 b);
  ar_3 : ax3 (values r) = Nat.max (ax3 (values x)) (ax3 b);
  ar_cell : forall i c o d, cel r i c o d =
     match op with
     | OAdd | OSub => n2n (cmul (cop op (bav (values x) i c o d) (bav b i c o d)) (Some (nz (nan_triangle r o d))))
     | _ => cop op (bav (values x) i c o d) (bav b i c o d)
     end }.
Lemma op_arr_ok op x b : bok (values x) b -> exists r, op_arr op x b = Ok r /\ ares op x b r.
Proof.
  intros B. assert (HH : op_arr op = (fun t b => do v <- bmap2 (cop op) (values t) b; Ok (match op with OAdd | OSub => cleanup (set_values t v) | _ => set_values t v end))).
  { destruct op; reflexivity. }
  rewrite HH, (bmap2_bc _ _ _ B). cbn [rbind]. eexists; split; [reflexivity|].
  destruct op; (constructor; [reflexivity..| |reflexivity|reflexivity|reflexivity|reflexivity|intros; reflexivity]; repeat split).
Qed.
Lemma bav_in a i c o d : (i < ax0 a)%nat -> (c < ax1 a)%nat -> (o < ax2 a)%nat -> (d < ax3 a)%nat -> bav a i c o d = av a i c o d.
Proof. intros. unfold bav. rewrite !bidx_lt by auto. reflexivity. Qed.
Lemma bav_scalar q i c o d : bav (scalar_arr q) i c o d = Some q.
Proof. reflexivity. Qed.

Definition ones_of (t : tri) : result tri :=
  do a0 <- iloc_first t; do a1 <- mul_arr a0 (scalar_arr 0%Qc); add_arr a1 (nan_arr a1).
Lemma ones_ok t : wf t -> even_diag t -> (1 <= ax0 (values t))%nat -> (1 <= ax1 (values t))%nat ->
  exists a, ones_of t = Ok a /\ kdims a = [nth 0 (kdims t) []] /\ key_labels a = key_labels t /\ vdims a = [nth 0 (vdims t) EmptyString] /\
    odims a = odims t /\ ddims a = ddims t /\ vdate a = vdate t /\ same_flags t a /\ shape_ok a /\
    ax0 (values a) = 1%nat /\ ax1 (values a) = 1%nat /\ ax2 (values a) = ax2 (values t) /\ ax3 (values a) = ax3 (values t) /\
    (forall i c o d, (o < ax2 (values t))%nat -> (d < ax3 (values t))%nat -> bav (values a) i c o d = nan_triangle t o d).
Proof.
  intros W E H0 H1. destruct (iloc_first_ok t W E H0 H1) as (a & Ea & K & KL & V & O & D & Vd & Fl & Wa & A0 & A1 & A2 & A3).
  unfold ones_of. rewrite Ea. cbn [rbind].
  pose proof (wf_o1 _ W) as O1. pose proof (wf_d1 _ W) as D1. pose proof (wf_shape a Wa ltac:(lia) ltac:(lia)) as (S0 & S1 & S2 & S3 & _).
  destruct (op_arr_ok OMul a (scalar_arr 0%Qc)) as (b & Eb & Rb); [unfold bok; cbn; lia|]. change (mul_arr a _) with (op_arr OMul a (scalar_arr 0%Qc)). rewrite Eb. cbn [rbind].
  pose proof (ar_0 _ _ _ _ Rb) as B0. pose proof (ar_1 _ _ _ _ Rb) as B1. pose proof (ar_2 _ _ _ _ Rb) as B2. pose proof (ar_3 _ _ _ _ Rb) as B3.
  cbn [scalar_arr ax0 ax1 ax2 ax3] in B0, B1, B2, B3.
  destruct (op_arr_ok OAdd b (nan_arr b)) as (r & Er & Rr); [unfold bok; cbn; lia|]. change (add_arr b _) with (op_arr OAdd b (nan_arr b)). rewrite Er.
  pose proof (ar_0 _ _ _ _ Rr) as C0. pose proof (ar_1 _ _ _ _ Rr) as C1. pose proof (ar_2 _ _ _ _ Rr) as C2. pose proof (ar_3 _ _ _ _ Rr) as C3.
  cbn [nan_arr ax0 ax1 ax2 ax3] in C0, C1, C2, C3.
  exists r. split; auto.
  assert (Fk : kdims r = kdims a) by (rewrite (ar_k _ _ _ _ Rr); apply Rb).
  assert (Fv : vdims r = vdims a) by (rewrite (ar_v _ _ _ _ Rr); apply Rb).
  assert (Fo : odims r = odims a) by (rewrite (ar_o _ _ _ _ Rr); apply Rb).
  assert (Fd : ddims r = ddims a) by (rewrite (ar_d _ _ _ _ Rr); apply Rb).
  assert (Fvd : vdate r = vdate a) by (rewrite (ar_vd _ _ _ _ Rr); apply Rb).
  assert (Fkl : key_labels r = key_labels a) by (rewrite (ar_kl _ _ _ _ Rr); apply Rb).
  rewrite Fk, Fkl, Fv, Fo, Fd, Fvd.
  do 6 (split; [congruence|]). split.
  { destruct Fl as (? & ? & ? & ?), (ar_fl _ _ _ _ Rb) as (? & ? & ? & ?), (ar_fl _ _ _ _ Rr) as (? & ? & ? & ?). repeat split; congruence. }
  split. { unfold shape_ok. rewrite Fk, Fv, Fo, Fd. lia. }
  do 4 (split; [lia|]). intros i c o d Ho Hd. unfold bav. replace (ax0 (values r)) with 1%nat by lia. replace (ax1 (values r)) with 1%nat by lia. rewrite !bidx_1, !bidx_lt by lia.
  change (av (values r)) with (cel r). rewrite (ar_cell _ _ _ _ Rr).
  rewrite (nan_triangle_ext t r) by (congruence || lia).
  assert (X : nz (bav (values b) 0 0 o d) = 0%Qc).
  { rewrite bav_in by lia. change (av (values b)) with (cel b). rewrite (ar_cell _ _ _ _ Rb), bav_scalar.
    cbn [cop]. destruct (bav (values a) 0 0 o d); cbn; auto. apply Qcmult_0_r. }
  assert (Y : bav (nan_arr b) 0 0 o d = nan_triangle t o d).
  { rewrite bav_in by (cbn; lia). cbn. apply nan_triangle_ext; try lia; rewrite ?(ar_o _ _ _ _ Rb), ?(ar_d _ _ _ _ Rb), ?(ar_vd _ _ _ _ Rb); auto. }
  cbn [cop]. unfold nz_add. rewrite X, Y. destruct (nan_01 t o d) as [-> | ->]; reflexivity.
Qed.

(** ** Aligned cumulative factors *)
Lemma positions_upto k n : (1 <= k <= n)%nat ->
  (do s <- normalize_slice None (Some (Z.of_nat k)) None n; positions s n) = Ok (seq 0 k).
Proof.
  intros H. unfold normalize_slice, slice_triple, slice_bound.
  change (1 =? 0) with false. change (0 <? 1) with true. cbn [rbind]. cbv iota beta.
  destruct (Z.ltb_spec (Z.of_nat k) 0); [lia|]. rewrite Z.min_l by lia. cbn [rbind]. cbv iota beta.
  change (0 <? 0) with false. cbv iota. destruct (Z.ltb_spec (-1) (Z.of_nat k)); [|lia].
  destruct (Z.eqb_spec (Z.of_nat k) (Z.of_nat n)) as [E|E].
  - replace k with n by lia. apply positions_all.
  - cbn [rbind]. unfold positions, slice_positions, slice_triple, slice_bound.
    change (1 =? 0) with false. change (0 <? 1) with true. cbn [rbind]. cbv iota beta.
    destruct (Z.ltb_spec (Z.of_nat k) 0); [lia|]. rewrite Z.min_l by lia. f_equal.
    apply (py_range_step1 0 k).
Qed.
Lemma iloc_dev_upto t k : wf t -> (1 <= k <= ax3 (values t))%nat ->
  exists u, iloc_dev t None (Some (Z.of_nat k)) = Ok u /\ clipped (sel_dev t (seq 0 k)) u.
Proof.
  intros W H. apply iloc_dev_ok; auto.
  - apply positions_upto; auto.
  - apply incr_pos_seq; lia.
  - rewrite seq_length; lia.
Qed.

(** Operations whose right operand has the labels of the left one on each axis, or
    a single label. *)
Record narrow (x y : tri) : Prop := {
  na_x : shape_ok x; na_y : shape_ok y;
  na_og : ograin y = ograin x;
  na_dg : dgrain y = dgrain x \/ ax3 (values y) = 1%nat;
  na_kl : key_labels y = key_labels x;
  na_k : kdims y = kdims x \/ List.length (kdims y) = 1%nat;
  na_v : vdims y = vdims x \/ List.length (vdims y) = 1%nat;
  na_o : odims y = odims x \/ List.length (odims y) = 1%nat;
  na_d : ddims y = ddims x \/ List.length (dlist (ddims y)) = 1%nat }.
Record nres (op : aop) (x y r : tri) : Prop := {
  nr_k : kdims r = kdims x; nr_kl : key_labels r = key_labels x; nr_v : vdims r = vdims x;
  nr_o : odims r = odims x; nr_d : ddims r = ddims x;
  nr_vd : vdate r = Z.max (vdate x) (vdate y);
  nr_cum : is_cumulative r = is_cumulative x; nr_pat : is_pattern r = (is_pattern x && is_pattern y)%bool;
  nr_og : ograin r = ograin x; nr_dg : dgrain r = dgrain x;
  nr_0 : ax0 (values r) = ax0 (values x); nr_1 : ax1 (values r) = ax1 (values x);
  nr_2 : ax2 (values r) = ax2 (values x); nr_3 : ax3 (values r) = ax3 (values x);
  nr_shape : shape_ok r;
  nr_cell : forall i c o d, in_range x i c o d -> cel r i c o d =
     match op with
     | OAdd | OSub => n2n (cmul (cop op (cel x i c o d) (bav (values y) i c o d)) (Some (nz (nan_triangle r o d))))
     | _ => cop op (cel x i c o d) (bav (values y) i c o d)
     end }.
Lemma pk_keep {A} n m (a b : A) : (m = n \/ m = 1)%nat -> pk n m a b = a.
Proof.
  intros H. unfold pk. destruct (Nat.eqb_spec n 1), (Nat.ltb_spec 1 m); cbn [andb]; auto. lia.
Qed.
Lemma narrow_bcast x y : narrow x y -> bcast x y.
Proof.
  intros N. destruct N as [Sx Sy Og Dg Kl K V O D]. constructor; auto; unfold bc.
  - destruct Dg; auto.
  - destruct K; auto.
  - destruct V; auto.
  - destruct O; auto.
  - destruct D; auto.
Qed.
Lemma tri_op_narrow op x y : narrow x y -> exists r, tri_op op x y = Ok r /\ nres op x y r.
Proof.
  intros N. pose proof (narrow_bcast _ _ N) as B. destruct (tri_op_bcast op x y B) as (r & Er & R). exists r. split; auto.
  pose proof (bres_shape _ _ _ _ B R) as Sr.
  destruct N as [Sx Sy Og Dg Kl K V O D]. pose proof Sx as (X0 & X1 & X2 & X3 & X4 & X5 & X6 & X7). pose proof Sy as (Y0 & Y1 & Y2 & Y3 & Y4 & Y5 & Y6 & Y7).
  assert (L0 : (ax0 (values y) = ax0 (values x) \/ ax0 (values y) = 1)%nat) by (rewrite X0, Y0; destruct K as [-> | ?]; auto).
  assert (L1 : (ax1 (values y) = ax1 (values x) \/ ax1 (values y) = 1)%nat) by (rewrite X1, Y1; destruct V as [-> | ?]; auto).
  assert (L2 : (ax2 (values y) = ax2 (values x) \/ ax2 (values y) = 1)%nat) by (rewrite X2, Y2; destruct O as [-> | ?]; auto).
  assert (L3 : (ax3 (values y) = ax3 (values x) \/ ax3 (values y) = 1)%nat) by (rewrite X3, Y3; destruct D as [-> | ?]; auto).
  constructor.
  - rewrite (br_k _ _ _ _ R). unfold bframe. cbn [kdims]. apply pk_keep. rewrite <- X0, <- Y0. auto.
  - apply (br_kl _ _ _ _ R).
  - rewrite (br_v _ _ _ _ R). unfold bframe. cbn [vdims]. apply pk_keep. rewrite <- X1, <- Y1. auto.
  - rewrite (br_o _ _ _ _ R). unfold bframe. cbn [odims]. apply pk_keep. rewrite <- X2, <- Y2. auto.
  - rewrite (br_d _ _ _ _ R). unfold bframe. cbn [ddims]. apply pk_keep. rewrite <- X3, <- Y3. auto.
  - apply (br_vd _ _ _ _ R).
  - apply (br_cum _ _ _ _ R).
  - apply (br_pat _ _ _ _ R).
  - apply (br_og _ _ _ _ R).
  - rewrite (br_dg _ _ _ _ R). unfold bframe. cbn [dgrain]. apply pk_keep. rewrite <- X3, <- Y3. auto.
  - rewrite (br_0 _ _ _ _ R). lia.
  - rewrite (br_1 _ _ _ _ R). lia.
  - rewrite (br_2 _ _ _ _ R). lia.
  - rewrite (br_3 _ _ _ _ R). lia.
  - exact Sr.
  - intros i c o d (Ri & Rc & Ro & Rd). rewrite (br_cell _ _ _ _ R). rewrite (bav_in (values x)) by auto. reflexivity.
Qed.

Section Align.
Variables t l : tri.
Hypothesis MI : method_input t.
Hypothesis PF : factors_over t l.
Let Wt := mi_wf _ MI.
Let Wl := fo_wf _ _ PF.

Lemma fo_len : (ax3 (values t) <= ax3 (values l))%nat.
Proof.
  destruct (fo_d _ _ PF) as (xs & more & E1 & E2). rewrite (wf_d _ Wt), (wf_d _ Wl), E1, E2. cbn. rewrite app_length. lia.
Qed.
Lemma fo_2 : ax2 (values l) = 1%nat.
Proof. rewrite (wf_o _ Wl). apply PF. Qed.
Lemma fo_0 : (ax0 (values l) = ax0 (values t) \/ ax0 (values l) = 1)%nat.
Proof. rewrite (wf_k _ Wl), (wf_k _ Wt). destruct (fo_k _ _ PF) as [-> | ->]; auto. Qed.
Lemma fo_1 : (ax1 (values l) = ax1 (values t) \/ ax1 (values l) = 1)%nat.
Proof. rewrite (wf_v _ Wl), (wf_v _ Wt). destruct (fo_v _ _ PF) as [-> | ->]; auto. Qed.

Lemma cdf_slice : exists f, iloc_dev (cdf_of l) None (Some (Z.of_nat (ax3 (values t)))) = Ok f /\
  kdims f = kdims l /\ key_labels f = key_labels t /\ vdims f = vdims l /\ odims f = odims l /\ ddims f = ddims t /\
  is_pattern f = true /\ ograin f = ograin t /\ dgrain f = dgrain t /\ shape_ok f /\ ax2 (values f) = 1%nat /\
  forall i c d, (i < ax0 (values l))%nat -> (c < ax1 (values l))%nat -> (d < ax3 (values t))%nat ->
    cel f i c 0%nat d = Some (to_ultimate l i c d).
Proof.
  destruct (ldf_to_cdf_cell l Wl (fo_pat _ _ PF) (fo_cum _ _ PF)) as (F & Fc & Fp & Hcell); [left; apply fo_2|].
  unfold cdf_of. set (m := incr_to_cum l) in *.
  pose proof (wf_same_frame _ _ Wl F) as Wm. pose proof fo_len as L. pose proof (wf_d1 _ Wt).
  destruct (iloc_dev_upto m (ax3 (values t)) Wm) as (f & Ef & Cf); [rewrite (sf_3 _ _ F); lia|].
  exists f. split; auto. assert (Eq := cl_eq _ _ Cf).
  assert (D : ddims (sel_dev m (seq 0 (ax3 (values t)))) = ddims t).
  { unfold sel_dev. cbn [sel_tri ddims]. rewrite (sf_d _ _ F). destruct (fo_d _ _ PF) as (xs & more & E1 & E2).
    rewrite E1, E2. cbn [dmap]. f_equal.
    assert (Lx : ax3 (values t) = List.length xs) by (rewrite (wf_d _ Wt), E1; reflexivity).
    rewrite sel_firstn by (rewrite app_length; lia). rewrite Lx, firstn_app, Nat.sub_diag, firstn_all. apply app_nil_r. }
  assert (K : kdims (sel_dev m (seq 0 (ax3 (values t)))) = kdims l).
  { unfold sel_dev. cbn. rewrite (sf_k _ _ F), (sf_0 _ _ F). rewrite sel_seq_all; auto. apply Wl. }
  assert (V : vdims (sel_dev m (seq 0 (ax3 (values t)))) = vdims l).
  { unfold sel_dev. cbn. rewrite (sf_v _ _ F), (sf_1 _ _ F). rewrite sel_seq_all; auto. apply Wl. }
  assert (O : odims (sel_dev m (seq 0 (ax3 (values t)))) = odims l).
  { unfold sel_dev. cbn [sel_tri odims]. rewrite (sf_o _ _ F), (sf_2 _ _ F). rewrite sel_seq_all; auto. apply Wl. }
  set (s := sel_dev m (seq 0 (ax3 (values t)))) in *.
  assert (S0 : ax0 (values s) = ax0 (values l)) by (unfold s, sel_dev; cbn; rewrite seq_length, (sf_0 _ _ F); auto).
  assert (S1 : ax1 (values s) = ax1 (values l)) by (unfold s, sel_dev; cbn; rewrite seq_length, (sf_1 _ _ F); auto).
  assert (S2 : ax2 (values s) = 1%nat) by (unfold s, sel_dev; cbn; rewrite seq_length, (sf_2 _ _ F); apply fo_2).
  assert (S3 : ax3 (values s) = ax3 (values t)) by (unfold s, sel_dev; cbn; rewrite seq_length; auto).
  assert (P : is_pattern s = true) by exact Fp.
  assert (KL : key_labels s = key_labels t) by (change (key_labels m = key_labels t); rewrite (sf_kl _ _ F); apply PF).
  assert (OG : ograin s = ograin t) by (change (ograin m = ograin t); rewrite (sf_og _ _ F); apply PF).
  assert (DG : dgrain s = dgrain t) by (change (dgrain m = dgrain t); rewrite (sf_dg _ _ F); apply PF).
  assert (Cs : forall i c d, (i < ax0 (values l))%nat -> (c < ax1 (values l))%nat -> (d < ax3 (values t))%nat ->
    cel s i c 0%nat d = Some (to_ultimate l i c d)).
  { intros i c d Hi Hc Hd. unfold s, sel_dev, cel. cbn [sel_tri values sel_arr av].
    rewrite (sf_0 _ _ F), (sf_1 _ _ F), (sf_2 _ _ F), fo_2. rewrite !seq_nth by lia. cbn [Nat.add].
    change (av (values m)) with (cel m). rewrite Hcell; [reflexivity|].
    unfold in_range. rewrite fo_2. lia. }
  clearbody s. rewrite Eq. cbn [set_vdate kdims key_labels vdims odims ddims is_pattern ograin dgrain values].
  do 8 (split; [assumption|]). split.
  - unfold shape_ok. cbn. rewrite K, V, O, D, S0, S1, S2, S3. pose proof (wf_k _ Wl). pose proof (wf_v _ Wl). pose proof (wf_d _ Wt).
    pose proof (mi_0 _ MI). pose proof (mi_1 _ MI). pose proof fo_0. pose proof fo_1. pose proof (fo_o _ _ PF). lia.
  - split; auto.
Qed.

Definition basis (sw : option tri) (i c o d : nat) : Qc :=
  (amount t i c o d + match sw with None => 0 | Some s => exposure s i c o end)%Qc.

Lemma nan_known o d : (o < ax2 (values t))%nat -> (d < ax3 (values t))%nat -> month_of t o d <= vdate t -> nan_triangle t o d = Some 1%Qc.
Proof.
  intros Ho Hd Hm. rewrite nan_triangle_cases by auto. destruct (_ =? 1)%nat; auto.
  destruct (Z.ltb_spec (vdate t) (month_of t o d)); [lia|reflexivity].
Qed.

Lemma exposure_shape s : exposure_for t s -> shape_ok s.
Proof.
  intros E. unfold shape_ok. rewrite (ef_0 _ _ E), (ef_1 _ _ E), (ef_2 _ _ E), (ef_3 _ _ E), (ef_d _ _ E), (ef_k _ _ E), (ef_o _ _ E).
  rewrite <- (wf_k _ Wt), <- (wf_o _ Wt). pose proof (mi_0 _ MI). pose proof (wf_o1 _ Wt).
  assert (1 <= List.length (vdims s))%nat. { destruct (ef_v _ _ E) as [-> | ->]; auto. rewrite <- (wf_v _ Wt). apply MI. }
  repeat split; auto; lia.
Qed.

Lemma align_cdf_over sw : (forall s, sw = Some s -> exposure_for t s) ->
  exists f, align_cdf t l sw = Ok f /\ kdims f = kdims t /\ key_labels f = key_labels t /\ vdims f = vdims t /\ odims f = odims t /\
    vdate f = vdate t /\ ax0 (values f) = ax0 (values t) /\ ax1 (values f) = ax1 (values t) /\ ax2 (values f) = ax2 (values t) /\ ax3 (values f) = 1%nat /\
    List.length (dlist (ddims f)) = 1%nat /\ same_flags t f /\
    (forall i c o d, in_range t i c o d -> month_of t o d = vdate t ->
       stores (cel f i c o 0%nat) (if Qc_eqb (basis sw i c o d) 0%Qc then 0%Qc else to_ultimate l (served (ax0 (values l)) i) (served (ax1 (values l)) c) d)).
Proof.
  intros Hsw. destruct cdf_slice as (f & Ef & Fk & Fkl & Fv & Fo & Fd & Fp & Fog & Fdg & Fs & F2 & Fc).
  pose proof (mi_0 _ MI) as T0. pose proof (mi_1 _ MI) as T1.
  pose proof (wf_shape t Wt T0 T1) as St.
  destruct (ones_ok t Wt (mi_diag _ MI) T0 T1) as (a & Ea & Ak & Akl & Av & Ao & Ad & Avd & Afl & As & A0 & A1 & A2 & A3 & Ac).
  unfold align_cdf. rewrite Ef. cbn [rbind].
  unfold ones_of in Ea. destruct (iloc_first t) as [b|]; [|discriminate]. cbn [rbind] in *.
  destruct (mul_arr b _) as [b'|]; [|discriminate]. cbn [rbind] in *. rewrite Ea. cbn [rbind].
  destruct Afl as (Afc & Afp & Afog & Afdg).
  destruct (tri_op_narrow OMul t a) as (ta & Eta & Rta).
  { constructor; auto; rewrite ?Ak, ?Av; auto. }
  rewrite Eta. cbn [rbind].
  assert (Cta : forall i c o d, in_range t i c o d -> month_of t o d = vdate t -> cel ta i c o d = cel t i c o d).
  { intros i c o d R Hm. rewrite (nr_cell _ _ _ _ Rta) by auto. destruct R as (Ri & Rc & Ro & Rd).
    rewrite Ac by auto. rewrite nan_known by (auto; lia). cbn [cop]. destruct (cel t i c o d); cbn [cmul]; auto. f_equal. ring. }
  assert (X : exists x, match sw with None => Ok ta | Some s => do sa <- tri_op OMul s a; tri_op OAdd ta sa end = Ok x /\
     kdims x = kdims t /\ key_labels x = key_labels t /\ vdims x = vdims t /\ odims x = odims t /\ ddims x = ddims t /\ same_flags t x /\ shape_ok x /\
     ax0 (values x) = ax0 (values t) /\ ax1 (values x) = ax1 (values t) /\ ax2 (values x) = ax2 (values t) /\ ax3 (values x) = ax3 (values t) /\
     (forall i c o d, in_range t i c o d -> month_of t o d = vdate t -> nz (cel x i c o d) = basis sw i c o d)).
  { destruct sw as [s|].
    - specialize (Hsw s eq_refl). pose proof (exposure_shape s Hsw) as Ss.
      assert (B : bcast s a).
      { constructor; auto; unfold bc.
        - rewrite (ef_og _ _ Hsw); auto.
        - right; left; apply Hsw.
        - rewrite (ef_kl _ _ Hsw); auto.
        - rewrite Ak; auto.
        - rewrite Av; auto.
        - left. rewrite (ef_o _ _ Hsw); auto.
        - right; right; apply Hsw. }
      destruct (tri_op_bcast OMul s a B) as (sa & Esa & Rsa). rewrite Esa. cbn [rbind].
      pose proof (bres_shape _ _ _ _ B Rsa) as Ssa.
      assert (Dsa : ddims sa = ddims t \/ List.length (dlist (ddims sa)) = 1%nat).
      { rewrite (br_d _ _ _ _ Rsa). unfold bframe. cbn [ddims]. rewrite (ef_d _ _ Hsw), Ad. unfold pk. cbn [Nat.eqb andb].
        destruct (1 <? _)%nat; auto. right. apply Hsw. }
      assert (Vsa : vdims sa = vdims s).
      { rewrite (br_v _ _ _ _ Rsa). unfold bframe. cbn [vdims]. rewrite Av. apply pk_keep. auto. }
      assert (Ksa : kdims sa = kdims t).
      { rewrite (br_k _ _ _ _ Rsa). unfold bframe. cbn [kdims]. rewrite Ak, pk_keep by auto. apply Hsw. }
      assert (Osa : odims sa = odims t).
      { rewrite (br_o _ _ _ _ Rsa). unfold bframe. cbn [odims]. rewrite Ao, (ef_o _ _ Hsw), pk_refl. reflexivity. }
      destruct (tri_op_narrow OAdd ta sa) as (x & Ex & Rx).
      { constructor; auto.
        - apply Rta.
        - rewrite (br_og _ _ _ _ Rsa), (nr_og _ _ _ _ Rta). apply Hsw.
        - rewrite (br_dg _ _ _ _ Rsa), (nr_dg _ _ _ _ Rta), (br_3 _ _ _ _ Rsa), (ef_3 _ _ Hsw), A3.
          unfold bframe. cbn [dgrain]. rewrite (ef_d _ _ Hsw), Ad, <- (wf_d _ Wt). unfold pk. cbn [Nat.eqb andb].
          destruct (Nat.ltb_spec 1 (ax3 (values t))); [left; auto|right; lia].
        - rewrite (br_kl _ _ _ _ Rsa), (nr_kl _ _ _ _ Rta). apply Hsw.
        - rewrite (nr_k _ _ _ _ Rta); auto.
        - rewrite (nr_v _ _ _ _ Rta), Vsa. apply Hsw.
        - rewrite (nr_o _ _ _ _ Rta); auto.
        - rewrite (nr_d _ _ _ _ Rta); auto. }
      exists x. split; auto.
      rewrite (nr_k _ _ _ _ Rx), (nr_kl _ _ _ _ Rx), (nr_v _ _ _ _ Rx), (nr_o _ _ _ _ Rx), (nr_d _ _ _ _ Rx),
        (nr_0 _ _ _ _ Rx), (nr_1 _ _ _ _ Rx), (nr_2 _ _ _ _ Rx), (nr_3 _ _ _ _ Rx).
      do 5 (split; [apply Rta|]). split.
      { repeat split.
        - rewrite (nr_cum _ _ _ _ Rx). apply Rta.
        - rewrite (nr_pat _ _ _ _ Rx), (nr_pat _ _ _ _ Rta), (mi_pat _ MI). reflexivity.
        - rewrite (nr_og _ _ _ _ Rx). apply Rta.
        - rewrite (nr_dg _ _ _ _ Rx). apply Rta. }
      split; [apply Rx|]. do 4 (split; [apply Rta|]).
      intros i c o d R Hm. pose proof R as (Ri & Rc & Ro & Rd). pose proof (wf_d1 _ Wt) as D1.
      rewrite (nr_cell _ _ _ _ Rx) by (unfold in_range; rewrite (nr_0 _ _ _ _ Rta), (nr_1 _ _ _ _ Rta), (nr_2 _ _ _ _ Rta), (nr_3 _ _ _ _ Rta); auto).
      assert (Kn : nan_triangle x o d = Some 1%Qc).
      { destruct (nan_01 x o d) as [N|N]; auto. exfalso. revert N. unfold nan_triangle, valuation.
        rewrite (nr_d _ _ _ _ Rx), (nr_o _ _ _ _ Rx), (nr_d _ _ _ _ Rta), (nr_o _ _ _ _ Rta).
        destruct (_ =? 1)%nat; [discriminate|].
        pose proof (valuation_month t o d Wt Ro Rd) as Vm. rewrite Hm in Vm. unfold valuation in Vm.
        assert (vdate t <= vdate x) by (rewrite (nr_vd _ _ _ _ Rx), (nr_vd _ _ _ _ Rta); lia).
        destruct (ddims t) as [xs|xs] eqn:Ed.
        - pose proof (wf_dev _ Wt) as Wd. rewrite Ed in Wd. destruct Wd as (_ & Wo & _).
          assert (In (nth o (odims t) 0) (odims t)) by (apply nth_In; rewrite <- (wf_o _ Wt); auto). specialize (Wo _ H0).
          destruct (_ && _)%bool.
          + destruct (Z.ltb_spec (vdate x) ULT_VAL); [lia|discriminate].
          + rewrite Z.min_l in * by lia. destruct (Z.ltb_spec (vdate x) (nth o (odims t) 0 + nth d xs 0 - 1)); [lia|discriminate].
        - destruct (Z.ltb_spec (vdate x) (nth d xs 0)); [lia|discriminate]. }
      rewrite Kn. cbn [nz cop]. unfold nz_add. rewrite nz_n2n. cbn [cmul nz]. unfold basis.
      rewrite Cta by auto. unfold amount at 1. rewrite Qcmult_1_r. f_equal.
      destruct Ssa as (_ & _ & Q2 & Q3 & _).
      assert (ax0 (values sa) = ax0 (values t)) by (rewrite (br_0 _ _ _ _ Rsa), (ef_0 _ _ Hsw), (ef_k _ _ Hsw), A0, <- (wf_k _ Wt); lia).
      assert (ax1 (values sa) = ax1 (values s)) by (rewrite (br_1 _ _ _ _ Rsa), A1; destruct Ss as (_ & _ & _ & _ & _ & ? & _); lia).
      assert (ax2 (values sa) = ax2 (values t)) by (rewrite (br_2 _ _ _ _ Rsa), (ef_2 _ _ Hsw), (ef_o _ _ Hsw), A2, <- (wf_o _ Wt); lia).
      assert (ax3 (values sa) = ax3 (values t)) by (rewrite (br_3 _ _ _ _ Rsa), (ef_3 _ _ Hsw), A3; lia).
      unfold bav at 1. change (av (values sa)) with (cel sa). rewrite (br_cell _ _ _ _ Rsa).
      rewrite H, H0, H1, H2, (bidx_lt (ax0 _)), (bidx_lt (ax2 _)), (bidx_lt (ax3 _)) by auto. rewrite Ac by auto. rewrite nan_known by (auto; lia).
      unfold bav, exposure, amount, cel. cbn [cop]. rewrite (ef_3 _ _ Hsw), bidx_1, (ef_0 _ _ Hsw), (ef_k _ _ Hsw), <- (wf_k _ Wt), (bidx_lt (ax0 _)) by auto.
      rewrite (ef_2 _ _ Hsw), (ef_o _ _ Hsw), <- (wf_o _ Wt), (bidx_lt (ax2 _)) by auto.
      replace (bidx (ax1 (values s)) (bidx (ax1 (values s)) c)) with (if (ax1 (values s) =? 1)%nat then 0%nat else c).
      + destruct (av (values s) i _ o 0%nat); cbn; auto. ring.
      + unfold bidx. destruct (Nat.eqb_spec (ax1 (values s)) 1); reflexivity.
    - exists ta. split; auto. do 5 (split; [apply Rta|]). split.
      { repeat split; try apply Rta. rewrite (nr_pat _ _ _ _ Rta), (mi_pat _ MI). reflexivity. }
      split; [apply Rta|]. do 4 (split; [apply Rta|]). intros i c o d R Hm. rewrite Cta by auto. unfold basis, amount. ring. }
  destruct X as (x & Ex & Xk & Xkl & Xv & Xo & Xd & (Xc & Xp & Xog & Xdg) & Xs & X0 & X1 & X2 & X3 & Xcell).
  rewrite Ex. cbn [rbind].
  destruct (tri_op_narrow ODiv x x) as (q & Eq & Rq). { constructor; auto. }
  rewrite Eq. cbn [rbind].
  destruct (tri_op_narrow OMul q f) as (r & Er & Rr).
  { constructor; auto; rewrite ?(nr_k _ _ _ _ Rq), ?(nr_v _ _ _ _ Rq), ?(nr_o _ _ _ _ Rq), ?(nr_d _ _ _ _ Rq), ?(nr_kl _ _ _ _ Rq), ?(nr_og _ _ _ _ Rq), ?(nr_dg _ _ _ _ Rq); try (left; congruence); try congruence.
    - apply Rq.
    - rewrite Fk, Xk. apply PF.
    - rewrite Fv, Xv. apply PF.
    - right. rewrite Fo. apply PF. }
  rewrite Er. cbn [rbind].
  set (r' := set_vdate r (vdate t)).
  assert (SF : same_frame t r').
  { constructor; unfold r'; cbn; rewrite ?(nr_k _ _ _ _ Rr), ?(nr_v _ _ _ _ Rr), ?(nr_o _ _ _ _ Rr), ?(nr_d _ _ _ _ Rr), ?(nr_kl _ _ _ _ Rr), ?(nr_og _ _ _ _ Rr), ?(nr_dg _ _ _ _ Rr),
      ?(nr_0 _ _ _ _ Rr), ?(nr_1 _ _ _ _ Rr), ?(nr_2 _ _ _ _ Rr), ?(nr_3 _ _ _ _ Rr),
      ?(nr_k _ _ _ _ Rq), ?(nr_v _ _ _ _ Rq), ?(nr_o _ _ _ _ Rq), ?(nr_d _ _ _ _ Rq), ?(nr_kl _ _ _ _ Rq), ?(nr_og _ _ _ _ Rq), ?(nr_dg _ _ _ _ Rq),
      ?(nr_0 _ _ _ _ Rq), ?(nr_1 _ _ _ _ Rq), ?(nr_2 _ _ _ _ Rq), ?(nr_3 _ _ _ _ Rq); auto. }
  assert (Wr : wf r') by (apply (wf_same_frame t); auto).
  assert (Er' : even_diag r').
  { destruct (mi_diag _ MI) as (E1 & (p & s & m & Hs & E2)). split.
    - intros o Ho. rewrite (sf_2 _ _ SF) in Ho. destruct (E1 o Ho) as (d & Hd & E). exists d. rewrite (sf_3 _ _ SF), (month_same_frame t r'), (sf_vd _ _ SF); auto.
    - exists p, s, m. split; auto. rewrite (sf_3 _ _ SF). intros d Hd. rewrite <- E2 by auto. rewrite (sf_2 _ _ SF), (sf_vd _ _ SF).
      split; intros (o & Ho & E); exists o; split; auto; rewrite (month_same_frame t r') in *; auto. }
  destruct (latest_diagonal_ok2 r' Wr Er') as (g & Eg & Gk & Gkl & Gv & Go & Gvd & G0 & G1 & G2 & G3 & Gc & (Gfc & Gfp & Gfog & Gfdg) & Gl).
  exists g. split; auto. rewrite Gk, Gkl, Gv, Go, Gvd, G0, G1, G2, G3.
  do 9 (split; [apply SF || reflexivity|]). split; auto. split.
  { repeat split.
    - rewrite Gfc. unfold r'. cbn. rewrite (nr_cum _ _ _ _ Rr), (nr_cum _ _ _ _ Rq). auto.
    - rewrite Gfp. unfold r'. cbn. rewrite (nr_pat _ _ _ _ Rr), (nr_pat _ _ _ _ Rq), Xp, (mi_pat _ MI). reflexivity.
    - rewrite Gfog. apply SF.
    - rewrite Gfdg. apply SF. }
  intros i c o d R Hm. specialize (Gc i c o d). rewrite (range_same_frame t r') in Gc by auto. rewrite (month_same_frame t r'), (sf_vd _ _ SF) in Gc by auto.
  eapply stores_eq; [apply Gc; auto|]. pose proof R as (Ri & Rc & Ro & Rd).
  unfold amount, r', cel. cbn [set_vdate values]. change (av (values r)) with (cel r).
  rewrite (nr_cell _ _ _ _ Rr) by (unfold in_range; rewrite (nr_0 _ _ _ _ Rq), (nr_1 _ _ _ _ Rq), (nr_2 _ _ _ _ Rq), (nr_3 _ _ _ _ Rq), X0, X1, X2, X3; auto).
  rewrite (nr_cell _ _ _ _ Rq) by (unfold in_range; rewrite X0, X1, X2, X3; auto).
  rewrite bav_in by (rewrite ?X0, ?X1, ?X2, ?X3; auto). change (av (values x)) with (cel x).
  assert (B : bav (values f) i c o d = Some (to_ultimate l (served (ax0 (values l)) i) (served (ax1 (values l)) c) d)).
  { destruct Fs as (L0 & L1 & L2 & L3 & _). unfold bav. rewrite F2, bidx_1, L0, Fk, L1, Fv, L3, Fd, <- (wf_k _ Wl), <- (wf_v _ Wl), <- (wf_d _ Wt), (bidx_lt (ax3 (values t))) by auto.
    change (bidx (ax0 (values l)) i) with (served (ax0 (values l)) i). change (bidx (ax1 (values l)) c) with (served (ax1 (values l)) c).
    pose proof fo_0. pose proof fo_1. pose proof (mi_0 _ MI). pose proof (mi_1 _ MI).
    apply Fc; auto; unfold served; match goal with |- context [(?n =? 1)%nat] => destruct (Nat.eqb_spec n 1) end; lia. }
  rewrite B. cbn [cop]. rewrite <- (Xcell i c o d R Hm).
  destruct (cel x i c o d) as [v|]; cbn [nz cdiv cmul].
  - destruct (Qc_eqb_spec v 0%Qc) as [E0|E0].
    + subst. reflexivity.
    + cbn [cmul nz]. field. auto.
  - reflexivity.
Qed.
End Align.

Lemma served_in n i : (i < n)%nat -> served n i = i.
Proof. unfold served. destruct (Nat.eqb_spec n 1); lia. Qed.
Lemma pf_len t l : method_input t -> pattern_for t l -> (ax3 (values t) <= ax3 (values l))%nat.
Proof.
  intros MI PF. destruct (pf_d _ _ PF) as (xs & more & E1 & E2). rewrite (wf_d _ (mi_wf _ MI)), (wf_d _ (pf_wf _ _ PF)), E1, E2. cbn. rewrite app_length. lia.
Qed.
Lemma pf_2 t l : pattern_for t l -> ax2 (values l) = 1%nat.
Proof. intros PF. rewrite (wf_o _ (pf_wf _ _ PF)), (pf_o _ _ PF). reflexivity. Qed.
Lemma pf_0 t l : method_input t -> pattern_for t l -> ax0 (values l) = ax0 (values t).
Proof. intros MI PF. rewrite (wf_k _ (pf_wf _ _ PF)), (wf_k _ (mi_wf _ MI)), (pf_k _ _ PF). reflexivity. Qed.
Lemma pf_1 t l : method_input t -> pattern_for t l -> ax1 (values l) = ax1 (values t).
Proof. intros MI PF. rewrite (wf_v _ (pf_wf _ _ PF)), (wf_v _ (mi_wf _ MI)), (pf_v _ _ PF). reflexivity. Qed.
Lemma pattern_over t l : pattern_for t l -> factors_over t l.
Proof. intros []. constructor; auto. rewrite pf_o. reflexivity. Qed.
Lemma align_cdf_ok t l (MI : method_input t) (PF : pattern_for t l) sw : (forall s, sw = Some s -> exposure_for t s) ->
  exists f, align_cdf t l sw = Ok f /\ kdims f = kdims t /\ key_labels f = key_labels t /\ vdims f = vdims t /\ odims f = odims t /\
    vdate f = vdate t /\ ax0 (values f) = ax0 (values t) /\ ax1 (values f) = ax1 (values t) /\ ax2 (values f) = ax2 (values t) /\ ax3 (values f) = 1%nat /\
    List.length (dlist (ddims f)) = 1%nat /\ same_flags t f /\
    (forall i c o d, in_range t i c o d -> month_of t o d = vdate t ->
       stores (cel f i c o 0%nat) (if Qc_eqb (basis t sw i c o d) 0%Qc then 0%Qc else to_ultimate l i c d)).
Proof.
  intros Hsw. destruct (align_cdf_over t l MI (pattern_over t l PF) sw Hsw) as (f & Ef & H1 & H2 & H3 & H4 & H5 & H6 & H7 & H8 & H9 & H10 & H11 & Hc).
  exists f. split; [exact Ef|]. do 11 (split; [assumption|]). intros i c o d R M. pose proof (Hc i c o d R M) as C. destruct R as (R0 & R1 & R2 & R3).
  rewrite !served_in in C by (rewrite ?(pf_0 t l MI PF), ?(pf_1 t l MI PF); auto). exact C.
Qed.


Lemma to_ultimate_ne l i c d : to_ultimate l i c d <> 0%Qc.
Proof. unfold to_ultimate. apply prodn_ne. intros. apply factor_ne. Qed.

Lemma stores_cmul x y p q : stores x p -> stores y q -> stores (cmul x y) (p * q)%Qc.
Proof.
  intros [X1 X2] [Y1 Y2]. split; intros H.
  - destruct (Qc_eqb_spec p 0%Qc) as [E|E]; [rewrite (X1 E); reflexivity|].
    destruct (Qc_eqb_spec q 0%Qc) as [F|F]; [rewrite (Y1 F), (X2 E); reflexivity|].
    exfalso. apply Qcmult_integral in H. tauto.
  - destruct (Qc_eqb_spec p 0%Qc) as [E|E]; [subst; exfalso; apply H; ring|].
    destruct (Qc_eqb_spec q 0%Qc) as [F|F]; [subst; exfalso; apply H; ring|].
    rewrite (X2 E), (Y2 F). reflexivity.
Qed.

Lemma set_ult_frame t u : kdims u = kdims t -> key_labels u = key_labels t -> vdims u = vdims t -> odims u = odims t ->
  is_pattern u = false -> ograin u = ograin t -> dgrain u = dgrain t ->
  ax0 (values u) = ax0 (values t) -> ax1 (values u) = ax1 (values t) -> ax2 (values u) = ax2 (values t) -> ax3 (values u) = 1%nat ->
  ultimate_frame t (set_ult_attr u).
Proof. intros. constructor; auto. Qed.

Lemma cl_ultimate_over t l : method_input t -> factors_over t l ->
  exists u, cl_ultimate t l = Ok u /\ ultimate_frame t u /\
    forall i c o d, in_range t i c o d -> month_of t o d = vdate t ->
      stores (cel u i c o 0%nat) (amount t i c o d * to_ultimate l (served (ax0 (values l)) i) (served (ax1 (values l)) c) d)%Qc.
Proof.
  intros MI PF. pose proof (mi_wf _ MI) as W. unfold cl_ultimate.
  destruct (latest_diagonal_ok2 t W (mi_diag _ MI)) as (ld & Eld & Lk & Lkl & Lv & Lo & Lvd & L0 & L1 & L2 & L3 & Lc & (Lf1 & Lf2 & Lf3 & Lf4) & Ll).
  rewrite Eld. cbn [rbind].
  destruct (align_cdf_over t l MI PF None) as (f & Ef & Fk & Fkl & Fv & Fo & Fvd & F0 & F1 & F2 & F3 & Fl & (Ff1 & Ff2 & Ff3 & Ff4) & Fc); [discriminate|].
  rewrite Ef. cbn [rbind].
  pose proof (wf_k _ W). pose proof (wf_v _ W). pose proof (wf_o _ W). pose proof (wf_o1 _ W). pose proof (mi_0 _ MI). pose proof (mi_1 _ MI).
  destruct (tri_op_narrow OMul ld f) as (u & Eu & Ru).
  { constructor; try congruence; auto; try (left; congruence).
    - unfold shape_ok. rewrite Lk, Lv, Lo, Ll. lia.
    - unfold shape_ok. rewrite Fk, Fv, Fo, Fl. lia. }
  rewrite Eu. cbn [rbind]. eexists; split; [reflexivity|]. split.
  - apply set_ult_frame; rewrite ?(nr_k _ _ _ _ Ru), ?(nr_v _ _ _ _ Ru), ?(nr_o _ _ _ _ Ru), ?(nr_kl _ _ _ _ Ru), ?(nr_og _ _ _ _ Ru), ?(nr_dg _ _ _ _ Ru),
      ?(nr_0 _ _ _ _ Ru), ?(nr_1 _ _ _ _ Ru), ?(nr_2 _ _ _ _ Ru), ?(nr_3 _ _ _ _ Ru); auto.
    rewrite (nr_pat _ _ _ _ Ru), Lf2, (mi_pat _ MI). reflexivity.
  - intros i c o d R Hm. pose proof R as (Ri & Rc & Ro & Rd).
    change (cel (set_ult_attr u)) with (cel u).
    rewrite (nr_cell _ _ _ _ Ru) by (unfold in_range; rewrite L0, L1, L2, L3; lia). cbn [cop].
    rewrite bav_in by (rewrite ?F0, ?F1, ?F2, ?F3; lia). change (av (values f)) with (cel f).
    specialize (Lc i c o d R Hm). specialize (Fc i c o d R Hm).
    eapply stores_eq; [apply stores_cmul; eassumption|].
    unfold basis. destruct (Qc_eqb_spec (amount t i c o d + 0) 0%Qc) as [E|E]; auto.
    rewrite Qcplus_0_r in E. rewrite E. ring.
Qed.

Lemma cl_ultimate_ok t l : method_input t -> pattern_for t l ->
  exists u, cl_ultimate t l = Ok u /\ ultimate_frame t u /\
    forall i c o d, in_range t i c o d -> month_of t o d = vdate t ->
      stores (cel u i c o 0%nat) (amount t i c o d * to_ultimate l i c d)%Qc.
Proof.
  intros MI PF. destruct (cl_ultimate_over t l MI (pattern_over t l PF)) as (u & Eu & UF & Uc). exists u. split; [exact Eu|]. split; [exact UF|].
  intros i c o d R M. pose proof (Uc i c o d R M) as C. destruct R as (R0 & R1 & R2 & R3).
  rewrite !served_in in C by (rewrite ?(pf_0 t l MI PF), ?(pf_1 t l MI PF); auto). exact C.
Qed.

Lemma stores_n2n_eq q q' : q = q' -> stores (n2n (Some q)) q'.
Proof. intros <-. apply stores_n2n. Qed.

Lemma ibnr_ok t u : method_input t -> ultimate_frame t u ->
  exists r, ibnr_of t u = Ok r /\ ultimate_frame t r /\
    forall i c o d, in_range t i c o d -> month_of t o d = vdate t ->
      stores (cel r i c o 0%nat) (amount u i c o 0%nat - amount t i c o d)%Qc.
Proof.
  intros MI UF. pose proof (mi_wf _ MI) as W. unfold ibnr_of.
  destruct (latest_diagonal_ok2 t W (mi_diag _ MI)) as (ld & Eld & Lk & Lkl & Lv & Lo & Lvd & L0 & L1 & L2 & L3 & Lc & (Lf1 & Lf2 & Lf3 & Lf4) & Ll).
  rewrite Eld. cbn [rbind].
  destruct UF as [Uk Ukl Uv Uo Ud Uvd Ucum Upat Uog Udg U0 U1 U2 U3].
  pose proof (wf_k _ W). pose proof (wf_v _ W). pose proof (wf_o _ W). pose proof (wf_o1 _ W). pose proof (mi_0 _ MI). pose proof (mi_1 _ MI).
  destruct (tri_op_narrow OSub u ld) as (r & Er & Rr).
  { constructor; try congruence; auto; try (left; congruence).
    - unfold shape_ok. rewrite Uk, Uv, Uo, Ud. cbn. lia.
    - unfold shape_ok. rewrite Lk, Lv, Lo, Ll. lia. }
  rewrite Er. cbn [rbind]. eexists; split; [reflexivity|]. split.
  - constructor; cbn [set_vdims set_dims kdims key_labels vdims odims ddims vdate is_cumulative is_pattern ograin dgrain values];
      rewrite ?(nr_k _ _ _ _ Rr), ?(nr_v _ _ _ _ Rr), ?(nr_o _ _ _ _ Rr), ?(nr_kl _ _ _ _ Rr), ?(nr_og _ _ _ _ Rr), ?(nr_dg _ _ _ _ Rr),
      ?(nr_0 _ _ _ _ Rr), ?(nr_1 _ _ _ _ Rr), ?(nr_2 _ _ _ _ Rr), ?(nr_3 _ _ _ _ Rr), ?(nr_d _ _ _ _ Rr), ?(nr_vd _ _ _ _ Rr), ?(nr_cum _ _ _ _ Rr), ?(nr_pat _ _ _ _ Rr); auto.
    + rewrite Uvd, Lvd. pose proof (wf_vd _ W). lia.
    + rewrite Upat. reflexivity.
  - intros i c o d R Hm. pose proof R as (Ri & Rc & Ro & Rd).
    change (cel (set_vdims r (vdims u))) with (cel r).
    rewrite (nr_cell _ _ _ _ Rr) by (unfold in_range; rewrite U0, U1, U2, U3; lia). cbn [cop].
    rewrite bav_in by (rewrite ?L0, ?L1, ?L2, ?L3; lia). change (av (values ld)) with (cel ld).
    assert (N : nan_triangle r o 0 = Some 1%Qc).
    { unfold nan_triangle. rewrite (nr_3 _ _ _ _ Rr), U3, (nr_2 _ _ _ _ Rr), U2. destruct (Nat.eqb_spec (Nat.min (ax2 (values t)) 1) 1); [reflexivity|lia]. }
    rewrite N. unfold nz_sub. cbn [nz cmul]. apply stores_n2n_eq.
    rewrite (stores_nz _ _ (Lc i c o d R Hm)). unfold amount. ring.
Qed.
