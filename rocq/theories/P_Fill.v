(** Proofs about filling gaps, dropping columns, first and last rows, minimum and maximum. *)
From Coq Require Import Lia.
From Verif Require Import NumFacts ArrFacts TriFacts ConvFacts BcastFacts P_Core P_Loc P_Align P_Align2 P_Methods P_Select P_Select2 SpecFill.
Local Open Scope Z_scope.

(** [u] has the labels, dates and shape of [t]. *)
Record like (t u : tri) : Prop := {
  lk_k : kdims u = kdims t; lk_kl : key_labels u = key_labels t; lk_v : vdims u = vdims t; lk_o : odims u = odims t; lk_d : ddims u = ddims t;
  lk_vd : vdate u = vdate t; lk_og : ograin u = ograin t; lk_dg : dgrain u = dgrain t;
  lk_0 : ax0 (values u) = ax0 (values t); lk_1 : ax1 (values u) = ax1 (values t);
  lk_2 : ax2 (values u) = ax2 (values t); lk_3 : ax3 (values u) = ax3 (values t) }.
Lemma like_nan t u o d : like t u -> nan_triangle u o d = nan_triangle t o d.
Proof. intros [? ? ? ? ? ? ? ? ? ? ? ?]. apply nan_triangle_ext; auto. Qed.
Lemma fillable_nan t o d : wf t -> (o < ax2 (values t))%nat -> (d < ax3 (values t))%nat ->
  (fillable t o d /\ nan_triangle t o d = Some 1%Qc) \/ (~ fillable t o d /\ nan_triangle t o d = None).
Proof.
  intros W Ho Hd. rewrite (nan_triangle_cases t o d W Ho Hd). unfold fillable, future.
  destruct (Nat.eqb_spec (Nat.min (ax2 (values t)) (ax3 (values t))) 1).
  - left. split; [lia|auto].
  - destruct (Z.ltb_spec (vdate t) (month_of t o d)); [right|left]; (split; [lia|auto]).
Qed.

Lemma gap_value a b : n2n (cmul (Some (nz (n2n (cmul (Some a) (Some 1%Qc))) + nz (empty_times (n2n (cmul (Some a) (Some 1%Qc))) (n2n (cmul (Some b) (Some 1%Qc)))))%Qc) (Some 1%Qc)) =
  n2n (Some (if Qc_eqb a 0%Qc then b else a)).
Proof.
  cbn [cmul]. rewrite !Qcmult_1_r. unfold empty_times. rewrite !nz_n2n. cbn [nz]. do 2 f_equal.
  assert (G : forall q, nz (cmul (Some q) (n2n (Some b))) = (q * b)%Qc).
  { intros q. unfold n2n. destruct (Qc_eqb_spec b 0%Qc) as [->|E]; cbn [cmul nz]; ring. }
  destruct (Qc_eqb_spec a 0%Qc) as [->|E]; rewrite G; ring.
Qed.

Section Fill.
Variable t : tri.
Hypotheses (W : wf t) (H0 : (1 <= ax0 (values t))%nat) (H1 : (1 <= ax1 (values t))%nat).

Lemma shape_like u : like t u -> shape_ok u.
Proof using W H0 H1.
  intros [K KL V O D VD OG DG A0 A1 A2 A3]. destruct W. unfold shape_ok. rewrite A0, A1, A2, A3, K, V, O, D. repeat split; auto.
Qed.
Lemma scalar_ok op q : exists r, op_arr op t (scalar_arr q) = Ok r /\ like t r /\ forall i c o d, in_range t i c o d -> cel r i c o d =
  match op with
  | OAdd | OSub => n2n (cmul (cop op (cel t i c o d) (Some q)) (Some (nz (nan_triangle t o d))))
  | _ => cop op (cel t i c o d) (Some q)
  end.
Proof using W H0 H1.
  destruct W as [_ _ _ _ O1 D1 _ _ _ _].
  destruct (op_arr_ok op t (scalar_arr q)) as (r & E & R); [unfold bok; cbn; lia|]. exists r. split; [exact E|].
  assert (L : like t r). { destruct R as [? ? ? ? ? ? (F1 & F2 & F3 & F4) ? ? ? ? _]. cbn in *. constructor; auto; lia. }
  split; [exact L|]. intros i c o d (Hi & Hc & Ho & Hd). rewrite (ar_cell _ _ _ _ R), bav_scalar, bav_in by auto. rewrite (like_nan _ _ o d L). reflexivity.
Qed.
Lemma like_bcast x y : like t x -> like t y -> bcast x y.
Proof using W H0 H1.
  intros X Y. constructor.
  - apply shape_like; auto. - apply shape_like; auto. - rewrite (lk_og _ _ X), (lk_og _ _ Y). auto.
  - left. rewrite (lk_dg _ _ X), (lk_dg _ _ Y). auto. - rewrite (lk_kl _ _ X), (lk_kl _ _ Y). auto.
  - left. rewrite (lk_k _ _ X), (lk_k _ _ Y). auto. - left. rewrite (lk_v _ _ X), (lk_v _ _ Y). auto.
  - left. rewrite (lk_o _ _ X), (lk_o _ _ Y). auto. - left. rewrite (lk_d _ _ X), (lk_d _ _ Y). auto.
Qed.
Lemma pk_le {A} (n m : nat) (a b : A) : b = a \/ m = 1%nat -> pk n m a b = a.
Proof. unfold pk. intros [-> | ->]; [destruct (_ && _)%bool; auto|]. cbn [Nat.ltb Nat.leb]. rewrite andb_false_r. reflexivity. Qed.

(** Laying [v] over a triangle like [t]. *)
Lemma over_bcast x v : like t x -> lies_over t v -> bcast x v.
Proof using W H0 H1.
  intros X L. constructor.
  - apply shape_like; auto. - apply wf_shape; [apply (lo_wf _ _ L)|apply (lo_0 _ _ L)|apply (lo_1 _ _ L)].
  - rewrite (lk_og _ _ X). apply (lo_og _ _ L). - left. rewrite (lk_dg _ _ X). apply (lo_dg _ _ L). - rewrite (lk_kl _ _ X). apply (lo_kl _ _ L).
  - unfold bc. rewrite (lk_k _ _ X). destruct (lo_k _ _ L); auto. - unfold bc. rewrite (lk_v _ _ X). destruct (lo_v _ _ L); auto.
  - unfold bc. rewrite (lk_o _ _ X). destruct (lo_o _ _ L); auto. - unfold bc. rewrite (lk_d _ _ X). destruct (lo_d _ _ L); auto.
Qed.
Lemma over_add x v : like t x -> lies_over t v -> exists r, tri_op OAdd x v = Ok r /\ like t r /\ forall i c o d, in_range t i c o d ->
  cel r i c o d = n2n (cmul (Some (nz (cel x i c o d) + amount_over v i c o d)%Qc) (Some (nz (nan_triangle t o d)))).
Proof using W H0 H1.
  intros X L. pose proof (over_bcast x v X L) as B. destruct (tri_op_bcast OAdd x v B) as (r & E & R). exists r. split; [exact E|].
  pose proof (lo_wf _ _ L) as Wv. pose proof (wf_k _ Wv) as Vk. pose proof (wf_v _ Wv) as Vv. pose proof (wf_o _ Wv) as Vo. pose proof (wf_d _ Wv) as Vd.
  pose proof (wf_k _ W) as Tk. pose proof (wf_v _ W) as Tv. pose proof (wf_o _ W) as To. pose proof (wf_d _ W) as Td. pose proof (wf_o1 _ W). pose proof (wf_d1 _ W).
  assert (LE : (ax0 (values v) <= ax0 (values t) /\ ax1 (values v) <= ax1 (values t) /\ ax2 (values v) <= ax2 (values t) /\ ax3 (values v) <= ax3 (values t))%nat).
  { destruct (lo_k _ _ L) as [K|K], (lo_v _ _ L) as [V|V], (lo_o _ _ L) as [O|O], (lo_d _ _ L) as [D|D]; try rewrite K in Vk; try rewrite V in Vv; try rewrite O in Vo; try rewrite D in Vd; lia. }
  assert (LR : like t r).
  { constructor.
    - rewrite (br_k _ _ _ _ R). cbn [bframe kdims]. rewrite pk_le, (lk_k _ _ X); auto. rewrite (lk_k _ _ X). apply (lo_k _ _ L).
    - rewrite (br_kl _ _ _ _ R). apply (lk_kl _ _ X).
    - rewrite (br_v _ _ _ _ R). cbn [bframe vdims]. rewrite pk_le, (lk_v _ _ X); auto. rewrite (lk_v _ _ X). apply (lo_v _ _ L).
    - rewrite (br_o _ _ _ _ R). cbn [bframe odims]. rewrite pk_le, (lk_o _ _ X); auto. rewrite (lk_o _ _ X). apply (lo_o _ _ L).
    - rewrite (br_d _ _ _ _ R). cbn [bframe ddims]. rewrite pk_le, (lk_d _ _ X); auto. rewrite (lk_d _ _ X). apply (lo_d _ _ L).
    - rewrite (br_vd _ _ _ _ R), (lk_vd _ _ X). pose proof (lo_vd _ _ L). lia.
    - rewrite (br_og _ _ _ _ R). apply (lk_og _ _ X).
    - rewrite (br_dg _ _ _ _ R). cbn [bframe dgrain]. rewrite pk_le, (lk_dg _ _ X); auto. left. rewrite (lk_dg _ _ X). apply (lo_dg _ _ L).
    - rewrite (br_0 _ _ _ _ R), (lk_0 _ _ X). lia. - rewrite (br_1 _ _ _ _ R), (lk_1 _ _ X). lia.
    - rewrite (br_2 _ _ _ _ R), (lk_2 _ _ X). lia. - rewrite (br_3 _ _ _ _ R), (lk_3 _ _ X). lia. }
  split; [exact LR|]. intros i c o d (Hi & Hc & Ho & Hd). rewrite (br_cell _ _ _ _ R), (like_nan _ _ o d LR).
  rewrite bav_in by (rewrite ?(lk_0 _ _ X), ?(lk_1 _ _ X), ?(lk_2 _ _ X), ?(lk_3 _ _ X); auto). reflexivity.
Qed.
Lemma self_over v : like t v -> lies_over t v.
Proof using W H0 H1.
  intros [K KL V O D VD OG DG A0 A1 A2 A3]. constructor; auto; try lia. destruct W as [? ? ? ? ? ? ? ? ? WD]. constructor; rewrite ?A0, ?A1, ?A2, ?A3, ?K, ?V, ?O, ?D, ?VD; auto.
Qed.
Lemma over_self v i c o d : like t v -> in_range t i c o d -> amount_over v i c o d = amount v i c o d.
Proof using W H0 H1.
  intros L (Hi & Hc & Ho & Hd). unfold amount_over. rewrite (lk_0 _ _ L), (lk_1 _ _ L), (lk_2 _ _ L), (lk_3 _ _ L). unfold amount.
  change (fun n k : nat => if (n =? 1)%nat then 0%nat else k) with bidx. cbv beta.
  replace (if (ax0 (values t) =? 1)%nat then 0%nat else i) with i by (destruct (Nat.eqb_spec (ax0 (values t)) 1); lia).
  replace (if (ax1 (values t) =? 1)%nat then 0%nat else c) with c by (destruct (Nat.eqb_spec (ax1 (values t)) 1); lia).
  replace (if (ax2 (values t) =? 1)%nat then 0%nat else o) with o by (destruct (Nat.eqb_spec (ax2 (values t)) 1); lia).
  replace (if (ax3 (values t) =? 1)%nat then 0%nat else d) with d by (destruct (Nat.eqb_spec (ax3 (values t)) 1); lia).
  reflexivity.
Qed.

(** The last step. *)
Lemma gaps_ok frame w x : like t frame -> like t w ->
  (forall i c o d, in_range t i c o d -> cel frame i c o d = n2n (cmul (Some (amount t i c o d)) (Some (nz (nan_triangle t o d))))) ->
  (forall i c o d, in_range t i c o d -> cel w i c o d = n2n (cmul (Some (x i c o d)) (Some (nz (nan_triangle t o d))))) ->
  exists u, fill_gaps t frame w = Ok u /\ filled t u x.
Proof using W H0 H1.
  intros F L CF CW. unfold fill_gaps.
  destruct (bmap2_same empty_times (values frame) (values w)) as (f & Ef & F0 & F1 & F2 & F3 & FC);
    [rewrite (lk_0 _ _ L), (lk_0 _ _ F); auto|rewrite (lk_1 _ _ L), (lk_1 _ _ F); auto|rewrite (lk_2 _ _ L), (lk_2 _ _ F); auto|rewrite (lk_3 _ _ L), (lk_3 _ _ F); auto|].
  rewrite Ef. cbn [rbind].
  assert (LF : like t (set_values w f)). { destruct L, F. constructor; cbn; congruence. }
  destruct (over_add frame (set_values w f) F (self_over _ LF)) as (r & Er & LR & RC). rewrite Er. cbn [rbind].
  eexists. split; [reflexivity|]. constructor; [reflexivity|apply (lk_0 _ _ LR)|apply (lk_1 _ _ LR)|apply (lk_2 _ _ LR)|apply (lk_3 _ _ LR)| |].
  - intros i c o d H Fi. pose proof H as (Hi & Hc & Ho & Hd). change (cel (set_values t (values r)) i c o d) with (cel r i c o d).
    destruct (fillable_nan t o d W Ho Hd) as [(_ & N)|(NF & _)]; [|contradiction].
    assert (CR : cel r i c o d = n2n (Some (if Qc_eqb (amount t i c o d) 0%Qc then x i c o d else amount t i c o d))).
    { rewrite (RC _ _ _ _ H), (over_self _ _ _ _ _ LF H), <- gap_value. change (amount (set_values w f) i c o d) with (nz (av f i c o d)).
      rewrite FC by (rewrite ?(lk_0 _ _ F), ?(lk_1 _ _ F), ?(lk_2 _ _ F), ?(lk_3 _ _ F); auto).
      change (av (values frame) i c o d) with (cel frame i c o d). change (av (values w) i c o d) with (cel w i c o d).
      rewrite (CF _ _ _ _ H), (CW _ _ _ _ H), N. reflexivity. }
    rewrite CR. destruct (Qc_eqb_spec (amount t i c o d) 0%Qc) as [E|E]; (split; intros Z; [|]); try contradiction; [apply stores_n2n|apply n2n_Some; auto].
  - intros i c o d H Fi. pose proof H as (Hi & Hc & Ho & Hd). change (cel (set_values t (values r)) i c o d) with (cel r i c o d).
    destruct (fillable_nan t o d W Ho Hd) as [(? & _)|(_ & N)]; [contradiction|].
    rewrite (RC _ _ _ _ H), N. cbn [nz cmul]. rewrite Qcmult_0_r. reflexivity.
Qed.

Lemma fill_num v : exists u, fillna_num t v = Ok u /\ filled t u (fun _ _ _ _ => v).
Proof using W H0 H1.
  unfold fillna_num. change add_arr with (op_arr OAdd). change mul_arr with (op_arr OMul).
  destruct (scalar_ok OAdd (v * 0)%Qc) as (frame & E1 & L1 & C1). rewrite E1. cbn [rbind].
  destruct (scalar_ok OMul 0%Qc) as (z & E2 & L2 & C2). rewrite E2. cbn [rbind].
  assert (Wz : wf z) by apply (self_over _ L2 : lies_over t z).
  change (op_arr OAdd z (scalar_arr v)) with (op_arr OAdd z (scalar_arr v)).
  destruct (op_arr_ok OAdd z (scalar_arr v)) as (w & E3 & R). { pose proof (wf_o1 _ Wz). pose proof (wf_d1 _ Wz). unfold bok. cbn. rewrite (lk_0 _ _ L2), (lk_1 _ _ L2) in *. lia. }
  rewrite E3. cbn [rbind].
  assert (L3 : like t w).
  { destruct R as [? ? ? ? ? ? (F1 & F2 & F3 & F4) R0 R1 R2 R3 _]. cbn in R0, R1, R2, R3. pose proof (wf_o1 _ W). pose proof (wf_d1 _ W).
    destruct L2 as [? ? ? ? ? ? ? ? ? ? ? ?]. constructor; try congruence; lia. }
  apply gaps_ok; auto.
  - intros i c o d H. rewrite (C1 _ _ _ _ H). cbn [cop]. unfold nz_add. cbn [nz]. unfold amount. do 3 f_equal. ring.
  - intros i c o d H. pose proof H as (Hi & Hc & Ho & Hd). rewrite (ar_cell _ _ _ _ R), bav_scalar, (like_nan _ _ o d L3).
    rewrite bav_in by (rewrite ?(lk_0 _ _ L2), ?(lk_1 _ _ L2), ?(lk_2 _ _ L2), ?(lk_3 _ _ L2); auto). change (av (values z) i c o d) with (cel z i c o d).
    rewrite (C2 _ _ _ _ H). cbn [cop]. unfold nz_add. cbn [nz]. do 3 f_equal. destruct (cel t i c o d); cbn [cmul nz]; ring.
Qed.
End Fill.

Lemma fill_tri t v : wf t -> (1 <= ax0 (values t))%nat -> (1 <= ax1 (values t))%nat -> lies_over t v ->
  exists u, fillna_tri t v = Ok u /\ filled t u (amount_over v).
Proof.
  intros W H0 H1 L. unfold fillna_tri. change mul_arr with (op_arr OMul).
  assert (Wv := lo_wf _ _ L). assert (V0 := lo_0 _ _ L). assert (V1 := lo_1 _ _ L).
  destruct (scalar_ok v Wv V0 V1 OMul 0%Qc) as (v0 & E0 & L0 & C0). rewrite E0. cbn [rbind].
  assert (LO : lies_over t v0).
  { pose proof (lo_wf _ _ (self_over v Wv V0 V1 v0 L0)) as Wv0. constructor; [exact Wv0|rewrite (lk_0 _ _ L0); auto|rewrite (lk_1 _ _ L0); auto| | | | | | | |].
    - rewrite (lk_kl _ _ L0). apply (lo_kl _ _ L). - rewrite (lk_k _ _ L0). apply (lo_k _ _ L). - rewrite (lk_v _ _ L0). apply (lo_v _ _ L).
    - rewrite (lk_o _ _ L0). apply (lo_o _ _ L). - rewrite (lk_d _ _ L0). apply (lo_d _ _ L). - rewrite (lk_og _ _ L0). apply (lo_og _ _ L).
    - rewrite (lk_dg _ _ L0). apply (lo_dg _ _ L). - rewrite (lk_vd _ _ L0). apply (lo_vd _ _ L). }
  assert (LT : like t t) by (constructor; reflexivity).
  destruct (over_add t W H0 H1 t v0 LT LO) as (frame & E1 & L1 & C1). rewrite E1. cbn [rbind].
  destruct (scalar_ok t W H0 H1 OMul 0%Qc) as (z & E2 & L2 & C2). rewrite E2. cbn [rbind].
  destruct (over_add t W H0 H1 z v L2 L) as (w & E3 & L3 & C3). rewrite E3. cbn [rbind].
  assert (Z0 : forall x, nz (cmul x (Some 0%Qc)) = 0%Qc). { intros [x|]; cbn [cmul nz]; ring. }
  apply gaps_ok; auto.
  - intros i c o d H. rewrite (C1 _ _ _ _ H). do 3 f_equal.
    enough (A : amount_over v0 i c o d = 0%Qc) by (rewrite A; unfold amount; ring).
    unfold amount_over, amount. rewrite (lk_0 _ _ L0), (lk_1 _ _ L0), (lk_2 _ _ L0), (lk_3 _ _ L0).
    pose proof H as (Hi & Hc & Ho & Hd). pose proof (wf_k _ Wv) as Vk. pose proof (wf_v _ Wv) as Vv. pose proof (wf_o _ Wv) as Vo. pose proof (wf_d _ Wv) as Vd.
    pose proof (wf_k _ W) as Tk. pose proof (wf_v _ W) as Tv. pose proof (wf_o _ W) as To. pose proof (wf_d _ W) as Td.
    rewrite C0; [apply Z0|].
    repeat split.
    + destruct (Nat.eqb_spec (ax0 (values v)) 1); [lia|]. destruct (lo_k _ _ L) as [K|K]; [rewrite K in Vk; lia|lia].
    + destruct (Nat.eqb_spec (ax1 (values v)) 1); [lia|]. destruct (lo_v _ _ L) as [K|K]; [rewrite K in Vv; lia|lia].
    + destruct (Nat.eqb_spec (ax2 (values v)) 1); [lia|]. destruct (lo_o _ _ L) as [K|K]; [rewrite K in Vo; lia|lia].
    + destruct (Nat.eqb_spec (ax3 (values v)) 1); [lia|]. destruct (lo_d _ _ L) as [K|K]; [rewrite K in Vd; lia|lia].
  - intros i c o d H. rewrite (C3 _ _ _ _ H), (C2 _ _ _ _ H). cbn [cop]. rewrite Z0. do 3 f_equal. ring.
Qed.

(** Filling again. *)
Lemma filled_again t u w x y : filled t u x -> (forall i c o d, in_range t i c o d -> x i c o d <> 0%Qc) -> filled u w y ->
  w = set_values u (values w) /\ forall i c o d, in_range t i c o d -> cel w i c o d = cel u i c o d.
Proof.
  intros F N G. split; [apply (fi_frame _ _ _ G)|]. intros i c o d H. pose proof H as (Hi & Hc & Ho & Hd).
  assert (Hu : in_range u i c o d) by (unfold in_range; rewrite (fi_0 _ _ _ F), (fi_1 _ _ _ F), (fi_2 _ _ _ F), (fi_3 _ _ _ F); auto).
  assert (FU : fillable u o d <-> fillable t o d).
  { unfold fillable. rewrite (fi_2 _ _ _ F), (fi_3 _ _ _ F). rewrite (fi_frame _ _ _ F). cbn. reflexivity. }
  assert (D : fillable t o d \/ ~ fillable t o d) by (unfold fillable, future; lia).
  destruct D as [D|D].
  - destruct (fi_cell _ _ _ F _ _ _ _ H D) as (A & B). destruct (fi_cell _ _ _ G _ _ _ _ Hu (proj2 FU D)) as (A' & _).
    assert (U : exists q, q <> 0%Qc /\ cel u i c o d = Some q).
    { destruct (Qc_eqb_spec (amount t i c o d) 0%Qc) as [E|E]; [exists (x i c o d); split; auto; apply B; auto|exists (amount t i c o d); auto]. }
    destruct U as (q & Q & U). rewrite A'; unfold amount; rewrite U; auto.
  - rewrite (fi_future _ _ _ G _ _ _ _ Hu), (fi_future _ _ _ F _ _ _ _ H D); auto. tauto.
Qed.

(** ** Dropping columns *)
Lemma drop_ok t labels : wf t -> NoDup (vdims t) -> (1 <= ax0 (values t))%nat -> (exists c, In c (vdims t) /\ ~ In c labels) ->
  exists u, drop t labels (inl 1) = Ok u /\ taken t u (every (ax0 (values t))) (staying t labels) (every (ax2 (values t))) (every (ax3 (values t))) /\
    (no_ultimate t -> latest_left t u (every (ax2 (values t))) (every (ax3 (values t)))).
Proof.
  intros W N H0 (c & Hc & Hl). unfold drop.
  assert (M : forall x, mem_str x labels = if in_dec string_dec x labels then true else false).
  { intros x. unfold mem_str. destruct (in_dec string_dec x labels) as [I|I].
    - apply existsb_exists. exists x. split; auto. apply String.eqb_refl.
    - apply not_true_iff_false. intros E. apply existsb_exists in E. destruct E as (y & Hy & E). apply String.eqb_eq in E. congruence. }
  apply cols_taken; auto.
  - intros E. assert (I : In c (filter (fun c => negb (mem_str c labels)) (vdims t))).
    { apply filter_In. split; auto. rewrite M. destruct (in_dec string_dec c labels); [contradiction|reflexivity]. }
    rewrite E in I. destruct I.
  - unfold staying. apply NoDup_filter. apply seq_NoDup.
  - unfold staying. clear N Hc.
    assert (G : forall l pre, vdims t = pre ++ l -> Forall2 (fun c p => nth_error (vdims t) p = Some c) (filter (fun c => negb (mem_str c labels)) l)
      (filter (fun p => negb (if in_dec string_dec (nth p (vdims t) EmptyString) labels then true else false)) (seq (List.length pre) (List.length l)))).
    { induction l as [|x l IH]; intros pre E; cbn [filter List.length seq]; [constructor|].
      assert (Ex : nth_error (vdims t) (List.length pre) = Some x).
      { rewrite E, nth_error_app2, Nat.sub_diag by lia. reflexivity. }
      rewrite (nth_error_nth _ _ EmptyString Ex), M.
      assert (IH' := IH (pre ++ [x])). rewrite app_length in IH'. cbn [List.length] in IH'. rewrite Nat.add_1_r in IH'.
      assert (E' : vdims t = (pre ++ [x]) ++ l) by (rewrite <- app_assoc; exact E).
      destruct (in_dec string_dec x labels); cbn [negb]; [apply IH'; auto|]. constructor; [exact Ex|apply IH'; auto]. }
    apply (G (vdims t) []). reflexivity.
Qed.
Lemma drop_every t labels : (forall c, In c (vdims t) -> In c labels) -> drop t labels (inl 1) = Err ValueError.
Proof.
  intros H. unfold drop. replace (filter (fun c => negb (mem_str c labels)) (vdims t)) with (@nil string).
  - reflexivity.
  - symmetry. induction (vdims t) as [|x l IH]; auto. cbn [filter].
    replace (mem_str x labels) with true; [cbn [negb]; apply IH; intros; apply H; right; auto|].
    symmetry. apply existsb_exists. exists x. split; [apply H; left; auto|apply String.eqb_refl].
Qed.

(** ** First and last rows *)
Lemma head_ok t n : wf t -> (1 <= ax1 (values t))%nat -> head_rows (ax0 (values t)) n <> [] ->
  exists u, head t n = Ok u /\ taken t u (head_rows (ax0 (values t)) n) (every (ax1 (values t))) (every (ax2 (values t))) (every (ax3 (values t))) /\
    (no_ultimate t -> latest_left t u (every (ax2 (values t))) (every (ax3 (values t)))).
Proof.
  intros W H1 NE. destruct (every_pos _ H1) as (A1 & P1). destruct (every_pos _ (wf_o1 _ W)) as (A2 & P2). destruct (every_pos _ (wf_d1 _ W)) as (A3 & P3).
  unfold head. apply iloc_ok; auto; try exact I; [|split; [auto|left; reflexivity]].
  cbn [asks_for]. unfold slice_positions, slice_triple, head_rows. cbn [Z.eqb Z.ltb Z.compare rbind]. cbn [slice_bound]. f_equal.
  set (N := ax0 (values t)).
  match goal with |- map _ (py_range 0 ?h 1) = _ => replace h with (0 + Z.of_nat (if n <? 0 then N - Z.to_nat (- n) else Nat.min (Z.to_nat n) N)) by (destruct (Z.ltb_spec n 0); lia) end.
  apply (py_range_step1 0).
Qed.
Lemma tail_rows_ok t n : wf t -> (1 <= ax1 (values t))%nat -> n <> 0 -> tail_rows (ax0 (values t)) n <> [] ->
  exists u, tail t n = Ok u /\ taken t u (tail_rows (ax0 (values t)) n) (every (ax1 (values t))) (every (ax2 (values t))) (every (ax3 (values t))) /\
    (no_ultimate t -> latest_left t u (every (ax2 (values t))) (every (ax3 (values t)))).
Proof.
  intros W H1 N0 NE. destruct (every_pos _ H1) as (A1 & P1). destruct (every_pos _ (wf_o1 _ W)) as (A2 & P2). destruct (every_pos _ (wf_d1 _ W)) as (A3 & P3).
  unfold tail. apply iloc_ok; auto; try exact I; [|split; [auto|left; reflexivity]].
  cbn [asks_for]. unfold slice_positions, slice_triple, tail_rows. cbn [Z.eqb Z.ltb Z.compare rbind]. cbn [slice_bound]. f_equal.
  set (N := ax0 (values t)). set (k := if n <? 0 then (N - Z.to_nat (- n))%nat else Nat.min (Z.to_nat n) N).
  match goal with |- map _ (py_range ?a ?h 1) = _ => replace a with (Z.of_nat (N - k)) by (unfold k; destruct (Z.ltb_spec n 0), (Z.ltb_spec (- n) 0); lia); replace h with (Z.of_nat (N - k) + Z.of_nat k) by (unfold k; destruct (Z.ltb_spec n 0); lia) end.
  apply py_range_step1.
Qed.
Lemma tail_zero t : wf t -> (1 <= ax0 (values t))%nat -> (1 <= ax1 (values t))%nat ->
  exists u, tail t 0 = Ok u /\ taken t u (every (ax0 (values t))) (every (ax1 (values t))) (every (ax2 (values t))) (every (ax3 (values t))).
Proof.
  intros W H0 H1. destruct (every_pos _ H0) as (A0 & P0). destruct (every_pos _ H1) as (A1 & P1). destruct (every_pos _ (wf_o1 _ W)) as (A2 & P2). destruct (every_pos _ (wf_d1 _ W)) as (A3 & P3).
  assert (A0' : asks_for (KSlice (Some (- 0)) None None) (ax0 (values t)) (every (ax0 (values t)))).
  { cbn [asks_for]. unfold slice_positions, slice_triple. cbn [Z.eqb Z.ltb Z.compare rbind]. cbn [slice_bound Z.opp Z.ltb Z.compare]. f_equal.
    replace (Z.min 0 (Z.of_nat (ax0 (values t)))) with 0 by lia. apply (py_range_step1 0). }
  destruct (iloc_ok t (KSlice (Some (- 0)) None None) (KSlice None None None) (KSlice None None None) (KSlice None None None) _ _ _ _ W A0' A1 A2 A3) as (u & E & T & _); auto; try exact I; [split; [apply P0|left; reflexivity]|].
  exists u. auto.
Qed.

(** ** Minimum, maximum, absolute value, difference, power *)
Lemma cell_min_ok a b : exists x, cell_min (Some a) (Some b) = Some x /\ is_min x a b.
Proof.
  cbn [cell_min]. eexists. split; [reflexivity|]. unfold is_min. destruct (Qc_ltb_spec b a) as [L|L].
  - split; [auto|]. split; [apply Qclt_le_weak; auto|apply Qcle_refl].
  - split; [auto|]. split; [apply Qcle_refl|apply Qcnot_lt_le; auto].
Qed.
Lemma cell_max_ok a b : exists x, cell_max (Some a) (Some b) = Some x /\ is_max x a b.
Proof.
  cbn [cell_max]. eexists. split; [reflexivity|]. unfold is_max. destruct (Qc_ltb_spec a b) as [L|L].
  - split; [auto|]. split; [apply Qclt_le_weak; auto|apply Qcle_refl].
  - split; [auto|]. split; [apply Qcle_refl|apply Qcnot_lt_le; auto].
Qed.
Lemma pairwise_ok f t u : twins t u -> exists v, bmap2 f (values t) (values u) = Ok v /\
  ax0 v = ax0 (values t) /\ ax1 v = ax1 (values t) /\ ax2 v = ax2 (values t) /\ ax3 v = ax3 (values t) /\
  forall i c o d, in_range t i c o d -> av v i c o d = f (cel t i c o d) (cel u i c o d).
Proof.
  intros T. destruct (bmap2_same f (values t) (values u) (tw_0 _ _ T) (tw_1 _ _ T) (tw_2 _ _ T) (tw_3 _ _ T)) as (v & E & A0 & A1 & A2 & A3 & C).
  exists v. repeat (split; [auto|]). intros i c o d (? & ? & ? & ?). apply C; auto.
Qed.
Lemma number_ok f t q : wf t -> (1 <= ax0 (values t))%nat -> (1 <= ax1 (values t))%nat -> exists v, bmap2 f (values t) (scalar_arr q) = Ok v /\
  ax0 v = ax0 (values t) /\ ax1 v = ax1 (values t) /\ ax2 v = ax2 (values t) /\ ax3 v = ax3 (values t) /\
  forall i c o d, in_range t i c o d -> av v i c o d = f (cel t i c o d) (Some q).
Proof.
  intros W H0 H1. pose proof (wf_o1 _ W). pose proof (wf_d1 _ W).
  rewrite bmap2_bc by (unfold bok; cbn; lia). eexists. split; [reflexivity|]. cbn [ax0 ax1 ax2 ax3 av scalar_arr].
  repeat (split; [lia|]). intros i c o d (? & ? & ? & ?). rewrite bav_in by auto. reflexivity.
Qed.
Lemma rsub_ok q t : wf t -> (1 <= ax0 (values t))%nat -> (1 <= ax1 (values t))%nat -> exists u, rsub_num q t = Ok u /\ u = set_values t (values u) /\
  forall i c o d, in_range t i c o d -> (fillable t o d -> stores (cel u i c o d) (q - amount t i c o d)%Qc) /\ (~ fillable t o d -> cel u i c o d = None).
Proof.
  intros W H0 H1. unfold rsub_num. destruct (number_ok (fun x y => nz_sub y x) t q W H0 H1) as (v & E & A0 & A1 & A2 & A3 & C). rewrite E. cbn [rbind].
  eexists. split; [reflexivity|]. split; [reflexivity|]. intros i c o d H. pose proof H as (Hi & Hc & Ho & Hd).
  unfold cel, cleanup. cbn [values set_values av]. rewrite (C _ _ _ _ H). unfold nz_sub. cbn [nz].
  rewrite (nan_triangle_ext t (set_values t v)) by (auto).
  destruct (fillable_nan t o d W Ho Hd) as [(F & ->)|(F & ->)]; cbn [nz cmul]; (split; [intros G|intros G]); try contradiction.
  - rewrite Qcmult_1_r. apply stores_n2n.
  - rewrite Qcmult_0_r. reflexivity.
Qed.
