(** Full cumulative triangles in the valuation view. *)
From Verif Require Import Num NumFacts Arr Tri ArrFacts Spec TriFacts ConvFacts SliceFacts P_Core P_Filter UnionFacts SpecView P_View.
From Coq Require Import Lia ZArith List Arith Psatz.
Import ListNotations.
Local Open Scope Z_scope.

Lemma wf_shifted t u : wf t -> same_rows t u -> ddims u = Vals (known_valuations t) ->
  ax3 (values u) = List.length (known_valuations t) -> (1 <= ax3 (values u))%nat -> wf u.
Proof.
  intros W S Ed L Wd. constructor; auto.
  - rewrite (sr_0 _ _ S), (sr_k _ _ S). apply W.
  - rewrite (sr_1 _ _ S), (sr_v _ _ S). apply W.
  - rewrite (sr_2 _ _ S), (sr_o _ _ S). apply W.
  - rewrite L, Ed. reflexivity.
  - rewrite (sr_2 _ _ S). apply W.
  - rewrite (sr_o _ _ S). apply W.
  - rewrite Ed. apply zunion_sorted.
  - rewrite (sr_vd _ _ S). apply W.
  - rewrite Ed. intros v Hv. apply known_in in Hv; auto. destruct Hv as (o & d & _ & _ & _ & Hv). pose proof (wf_vd _ W). lia.
Qed.

Lemma positions_last n : (1 <= n)%nat ->
  (do s <- normalize_slice (Some (-1)) None None n; positions s n) = Ok [(n - 1)%nat].
Proof.
  intros H.
  assert (E : exists a, normalize_slice (Some (-1)) None None n = Ok (Slice a None (match a with None => None | _ => Some 1 end)) /\
     (a = Some (Z.of_nat n - 1) \/ (a = None /\ n = 1%nat))).
  { unfold normalize_slice, slice_triple, slice_bound.
    change (1 =? 0) with false. change (0 <? 1) with true. change (-1 <? 0) with true.
    cbn [rbind]. cbv iota beta. rewrite Z.max_l by lia.
    destruct (Z.ltb_spec (-1) (Z.of_nat n)); [|lia]. rewrite Z.eqb_refl.
    destruct (Z.ltb_spec 0 (-1 + Z.of_nat n)).
    - exists (Some (-1 + Z.of_nat n)). split; auto. left. f_equal. lia.
    - exists None. split; auto. right. split; auto. lia. }
  destruct E as (a & -> & Ha). cbn [rbind]. destruct Ha as [->|(-> & ->)]; [|reflexivity].
  unfold positions, slice_positions, slice_triple, slice_bound.
  change (1 =? 0) with false. change (0 <? 1) with true.
  cbn [rbind]. cbv iota beta. destruct (Z.ltb_spec (Z.of_nat n - 1) 0); [lia|]. rewrite Z.min_l by lia. f_equal.
  replace (Z.of_nat n - 1) with (Z.of_nat (n - 1)) by lia. replace (Z.of_nat n) with (Z.of_nat (n - 1) + Z.of_nat 1) by lia.
  apply (py_range_step1 (n - 1) 1).
Qed.
Lemma iloc_dev_last t : wf t ->
  exists u, iloc_dev t (Some (-1)) None = Ok u /\ clipped (sel_dev t [(ax3 (values t) - 1)%nat]) u.
Proof.
  intros W. pose proof (wf_d1 _ W). apply iloc_dev_ok; auto.
  - apply positions_last. lia.
  - apply (incr_pos_seq (ax3 (values t) - 1) 1). lia.
Qed.

(** Increments of a full triangle add up to its amounts. *)
Lemma full_increments t : wf t -> no_future t -> is_pattern t = false -> is_cumulative t = Some true -> (2 <= ax3 (values t))%nat ->
  exists u, cum_to_incr t = Ok u /\ same_frame t u /\ is_cumulative u = Some false /\ is_pattern u = false /\
    forall i c o d, in_range t i c o d -> sumn (S d) (fun k => amount u i c o k) = amount t i c o d.
Proof.
  intros W NF Hp Hc Hd. destruct (cum_to_incr_cell t W Hp ltac:(congruence) Hd) as (u & Eu & F & Uc & Up & C).
  exists u. repeat (split; auto). intros i c o d R. destruct R as (R1 & R2 & R3 & R4).
  induction d as [|d IH].
  - cbn. unfold amount at 1. rewrite C by (repeat split; auto). unfold amount. ring.
  - change (sumn (S (S d)) ?f) with (sumn (S d) f + f (S d))%Qc. rewrite IH by lia.
    unfold amount at 2. rewrite C by (repeat split; auto).
    replace (diff_kept t o (S d)) with true.
    2:{ unfold diff_kept. specialize (NF o (S d) R3 R4). unfold future in NF.
        destruct (Z.ltb_spec (vdate t) (month_of t o (S d))); [lia|]. symmetry. apply Bool.orb_true_r. }
    rewrite nz_n2n. cbn [nz]. ring.
Qed.

Lemma sum_shift (inc : nat -> Qc) x n k : (1 <= n)%nat ->
  sumn (S k) (fun j => if ((x <=? j) && (j - x <? n))%nat then inc (j - x)%nat else 0%Qc) =
  if (k <? x)%nat then 0%Qc else sumn (S (Nat.min (k - x) (n - 1))) inc.
Proof.
  intros Hn. induction k as [|k IH].
  - cbn [sumn]. destruct x as [|x].
    + cbn. destruct n; [lia|]. cbn. ring.
    + cbn. ring.
  - change (sumn (S (S k)) ?f) with (sumn (S k) f + f (S k))%Qc. rewrite IH. clear IH.
    destruct (Nat.leb_spec x (S k)) as [L|L]; destruct (Nat.ltb_spec (S k) x) as [L'|L']; try lia; cbn [andb].
    2:{ destruct (Nat.ltb_spec k x); [ring|lia]. }
    destruct (Nat.ltb_spec k x) as [L2|L2].
    + replace (S k - x)%nat with 0%nat by lia. destruct (Nat.ltb_spec 0 n); [|lia]. cbn. ring.
    + destruct (Nat.ltb_spec (S k - x) n) as [L3|L3].
      * rewrite (Nat.min_l (k - x)), (Nat.min_l (S k - x)) by lia. replace (S k - x)%nat with (S (k - x)) by lia.
        change (sumn (S (S (k - x))) inc) with (sumn (S (k - x)) inc + inc (S (k - x)))%Qc. reflexivity.
      * rewrite (Nat.min_r (k - x)), (Nat.min_r (S k - x)) by lia. ring.
Qed.

Lemma beyond_amounts t u n : same_frame t u ->
  (forall i c o d, in_range t i c o d -> sumn (S d) (fun k => amount u i c o k) = amount t i c o d) ->
  amounts_beyond_first t n -> (n <= ax3 (values t))%nat ->
  ax2 (values t) = 1%nat \/ exists i c o d, in_range t i c o d /\ (1 <= o)%nat /\ (d < n)%nat /\ cel u i c o d <> None.
Proof.
  intros F Sm [H|(i & c & o & d & R & Ho & Hd & H)] Hn; auto. right. pose proof R as (R1 & R2 & R3 & R4).
  assert (X : exists k, (k <= d)%nat /\ cel u i c o k <> None).
  { destruct (existsb (fun k => negb (is_nan (cel u i c o k))) (seq 0 (S d))) eqn:E.
    - apply existsb_exists in E. destruct E as (k & Hk & E). apply in_seq in Hk. exists k. split; [lia|].
      destruct (cel u i c o k); cbn in E; congruence.
    - exfalso. apply H. rewrite <- Sm by auto. apply sumn_zero. intros k Hk. unfold amount.
      destruct (cel u i c o k) eqn:Ec; auto. exfalso. rewrite <- Bool.not_true_iff_false, existsb_exists in E. apply E.
      exists k. split; [apply in_seq; lia|]. rewrite Ec. reflexivity. }
  destruct X as (k & Hk & Hc). exists i, c, o, k. repeat split; auto; lia.
Qed.

Lemma total_at_grid t o0 a0 h m i c o k : wf t -> age_grid t o0 a0 h m -> (o < ax2 (values t))%nat ->
  total_at t i c o (o0 + a0 - 1 + Z.of_nat (h * k))
    (if (k <? m * o)%nat then 0%Qc else amount t i c o (Nat.min (k - m * o) (ax3 (values t) - 1))).
Proof.
  intros W G Ho. pose proof (wf_d1 _ W) as Wd. assert (Hh : (1 <= h)%nat) by apply G.
  assert (M : forall d, (d < ax3 (values t))%nat -> month_of t o d = o0 + a0 - 1 + Z.of_nat (h * (d + m * o))) by (intros; apply (grid_month t o0 a0 h m); auto).
  destruct (Nat.ltb_spec k (m * o)) as [L|L].
  - left. split; auto. intros d Hd. rewrite M by auto. nia.
  - right. exists (Nat.min (k - m * o) (ax3 (values t) - 1)). split; [lia|].
    assert (Hm : (Nat.min (k - m * o) (ax3 (values t) - 1) + m * o <= k)%nat) by lia.
    split; [rewrite M by lia; nia|]. split; auto.
    intros e He Hme. rewrite M in Hme by auto. assert (e + m * o <= k)%nat by nia. lia.
Qed.

Lemma full_to_valuation t o0 a0 h m : wf t -> age_grid t o0 a0 h m -> no_future t -> is_pattern t = false ->
  is_cumulative t = Some true -> (2 <= ax3 (values t))%nat -> no_gap t h m -> before_ultimate t ->
  amounts_beyond_first t (ax3 (values t)) ->
  exists u vs, dev_to_val t = Ok u /\ same_rows t u /\ ddims u = Vals vs /\ StronglySorted Z.lt vs /\
    ax3 (values u) = List.length vs /\
    (forall v, In v vs <-> exists o d, (o < ax2 (values t))%nat /\ (d < ax3 (values t))%nat /\ month_of t o d = v) /\
    forall i c o k, in_range u i c o k -> exists q, total_at t i c o (month_of u o k) q /\ stores (cel u i c o k) q.
Proof.
  intros W G NF Hp Hc Hd Hg U D. pose proof (wf_o1 _ W) as W2.
  destruct (full_increments t W NF Hp Hc Hd) as (s & Es & F & Sc & Sp & Sum).
  assert (Ws : wf s) by (eapply wf_same_frame; eauto).
  assert (Gs : age_grid s o0 a0 h m).
  { unfold age_grid. rewrite (sf_2 _ _ F), (sf_3 _ _ F), (sf_o _ _ F), (sf_d _ _ F), (sf_og _ _ F), (sf_dg _ _ F). exact G. }
  assert (Ms : forall o d, month_of s o d = month_of t o d) by (intros; apply month_same_frame; auto).
  assert (Ks : known_valuations s = known_valuations t).
  { unfold known_valuations, valuations, valuation. rewrite (sf_o _ _ F), (sf_d _ _ F), (sf_vd _ _ F). reflexivity. }
  destruct (shift_to_val_ok s o0 a0 h m Ws Gs) as (w & Ew & (Sw & Cw) & Vw & Lw & Ed & _).
  { unfold no_gap. rewrite Ms, (sf_2 _ _ F), (sf_3 _ _ F), (sf_vd _ _ F). exact Hg. }
  { intros i c o d R Hf. exfalso. unfold future in Hf. rewrite Ms, (sf_vd _ _ F) in Hf.
    destruct R as (_ & _ & R3 & R4). rewrite (sf_2 _ _ F) in R3. rewrite (sf_3 _ _ F) in R4. apply (NF o d); auto. }
  { destruct (beyond_amounts t s (ax3 (values t)) F Sum D (le_n _)) as [H|(i & c & o & d & R & H1 & H2 & H3)].
    - left. rewrite (sf_2 _ _ F). auto.
    - right. exists i, c, o, d. rewrite (range_same_frame t s) by auto. auto. }
  assert (Wd1 : (1 <= ax3 (values w))%nat).
  { rewrite Lw. assert (K : In (month_of s 0 0) (known_valuations s)).
    { apply known_in; auto. exists 0%nat, 0%nat. rewrite Ms, (sf_2 _ _ F), (sf_3 _ _ F), (sf_vd _ _ F).
      specialize (NF 0%nat 0%nat ltac:(lia) ltac:(lia)). unfold future in NF. repeat split; auto; lia. }
    destruct (known_valuations s); [destruct K|cbn; lia]. }
  assert (Ww : wf w) by (apply (wf_shifted s); auto).
  assert (Cc : is_cumulative w <> Some true) by (rewrite (sr_cum _ _ Sw), Sc; congruence).
  assert (Pw : is_pattern w = false) by (rewrite (sr_pat _ _ Sw); auto).
  destruct (incr_to_cum_frame w Pw Cc) as (Fw & Fc & Fp).
  exists (incr_to_cum w), (known_valuations t).
  split.
  { unfold dev_to_val. replace (is_val_tri t) with false.
    2:{ unfold is_val_tri. destruct G as (_ & _ & _ & -> & _). reflexivity. }
    replace (is_full t) with true by (symmetry; apply is_full_spec; auto).
    rewrite is_ultimate_no, Hc by auto. cbv zeta. rewrite Es. cbn [rbind]. rewrite Ew. reflexivity. }
  split.
  { destruct Fw, Sw, F. constructor; congruence. }
  split; [rewrite (sf_d _ _ Fw), Ed, Ks; auto|]. split; [apply zunion_sorted|]. split; [rewrite (sf_3 _ _ Fw), Lw, Ks; auto|]. split.
  { intros v. rewrite known_in by auto. split.
    - intros (o & d & Ho & Hd' & E & _). exists o, d; auto.
    - intros (o & d & Ho & Hd' & E). exists o, d. repeat split; auto. specialize (NF o d Ho Hd'). unfold future in NF. lia. }
  intros i c o k R. apply (range_same_frame w (incr_to_cum w) i c o k Fw) in R. destruct R as (R1 & R2 & R3 & R4).
  rewrite (month_same_frame w) by auto. rewrite (vgrid_month w o0 a0 h m) by auto.
  assert (R3' : (o < ax2 (values s))%nat) by (rewrite <- (sr_2 _ _ Sw); auto).
  assert (R3t : (o < ax2 (values t))%nat) by (rewrite <- (sf_2 _ _ F); auto).
  eexists. split; [apply (total_at_grid t o0 a0 h m); auto|].
  rewrite incr_to_cum_cell by auto.
  replace (negb (vdate w <? month_of w o k)) with true.
  2:{ symmetry. apply negb_true_iff, Z.ltb_ge. unfold month_of. rewrite Ed.
      destruct (proj1 (known_in s (nth k (known_valuations s) 0) Ws)) as (o' & d & _ & _ & _ & Hv); [apply nth_In; lia|].
      rewrite (sr_vd _ _ Sw). auto. }
  rewrite orb_true_r.
  rewrite (sumn_ext _ _ (fun j => if ((m * o <=? j) && (j - m * o <? ax3 (values s)))%nat then amount s i c o (j - m * o) else 0%Qc)).
  2:{ intros j Hj. unfold amount. rewrite Cw by (auto; lia). destruct (_ && _); auto. }
  rewrite (sum_shift (fun d => amount s i c o d)) by (apply Ws). rewrite (sf_3 _ _ F).
  destruct (k <? m * o)%nat; [apply stores_n2n|]. rewrite Sum; [apply stores_n2n|].
  rewrite (sr_0 _ _ Sw), (sf_0 _ _ F) in R1. rewrite (sr_1 _ _ Sw), (sf_1 _ _ F) in R2. repeat split; auto. lia.
Qed.

(** ** With an ultimate column *)
Lemma ugrid_month t o0 a0 h m o d : wf t -> ultimate_grid t o0 a0 h m -> (o < ax2 (values t))%nat -> (d < ax3 (values t) - 1)%nat ->
  month_of t o d = o0 + a0 - 1 + Z.of_nat (h * (d + m * o)) /\ month_of t o d < ULT_VAL /\ a0 + Z.of_nat (h * d) <> 9999.
Proof.
  intros W (Hh & Hm & H2 & Eo & Ed & _) Ho Hd.
  assert (Hn : nth d (map (fun k => a0 + Z.of_nat (h * k)) (seq 0 (ax3 (values t) - 1)) ++ [9999]) 0 = a0 + Z.of_nat (h * d)).
  { rewrite app_nth1 by (rewrite map_length, seq_length; auto). rewrite nth_map_seq by auto; auto. }
  assert (H9 : a0 + Z.of_nat (h * d) <> 9999).
  { pose proof (wf_dsort _ W) as S. rewrite Ed in S. cbn [dlist] in S.
    pose proof (sorted_nth_lt _ d (ax3 (values t) - 1) 0 S) as X. rewrite Hn in X.
    rewrite app_nth2 in X by (rewrite map_length, seq_length; lia). rewrite map_length, seq_length, Nat.sub_diag in X. cbn in X.
    rewrite app_length, map_length, seq_length in X. cbn in X. lia. }
  pose proof (wf_dev _ W) as Wd. rewrite Ed in Wd. destruct Wd as (_ & _ & Wd).
  unfold month_of. rewrite Ed, Hn. unfold age_month. destruct (Z.eqb_spec (a0 + Z.of_nat (h * d)) 9999); [contradiction|].
  split; [rewrite Eo, nth_map_seq by auto; nia|]. split; auto.
  apply Wd; auto.
  - apply nth_In. rewrite <- (wf_o _ W). auto.
  - rewrite <- Hn. apply nth_In. rewrite app_length, map_length, seq_length. cbn. lia.
Qed.
Lemma ugrid_last t o0 a0 h m o : ultimate_grid t o0 a0 h m -> month_of t o (ax3 (values t) - 1) = ULT_VAL.
Proof.
  intros (Hh & Hm & H2 & Eo & Ed & _). unfold month_of. rewrite Ed.
  rewrite app_nth2 by (rewrite map_length, seq_length; lia). rewrite map_length, seq_length, Nat.sub_diag. reflexivity.
Qed.

Lemma total_at_ult t o0 a0 h m i c o k : wf t -> ultimate_grid t o0 a0 h m -> (o < ax2 (values t))%nat ->
  o0 + a0 - 1 + Z.of_nat (h * k) < ULT_VAL ->
  total_at t i c o (o0 + a0 - 1 + Z.of_nat (h * k))
    (if (k <? m * o)%nat then 0%Qc else amount t i c o (Nat.min (k - m * o) (ax3 (values t) - 1 - 1))).
Proof.
  intros W G Ho Hv. assert (Hh : (1 <= h)%nat) by apply G. assert (H2 : (2 <= ax3 (values t))%nat) by apply G.
  assert (M : forall d, (d < ax3 (values t))%nat -> month_of t o d <= o0 + a0 - 1 + Z.of_nat (h * k) <-> (d < ax3 (values t) - 1 /\ d + m * o <= k)%nat).
  { intros d Hd. destruct (Nat.eq_dec d (ax3 (values t) - 1)) as [->|Hn].
    - rewrite (ugrid_last t o0 a0 h m) by auto. lia.
    - destruct (ugrid_month t o0 a0 h m o d W G Ho ltac:(lia)) as (-> & _). nia. }
  destruct (Nat.ltb_spec k (m * o)) as [L|L].
  - left. split; auto. intros d Hd. specialize (M d Hd). lia.
  - right. exists (Nat.min (k - m * o) (ax3 (values t) - 1 - 1)). split; [lia|]. split; [apply M; lia|]. split; auto.
    intros e He Hme. apply M in Hme; auto. lia.
Qed.

Lemma ultimate_to_valuation t o0 a0 h m : wf t -> ultimate_grid t o0 a0 h m -> no_future t -> is_pattern t = false ->
  is_cumulative t = Some true ->
  (ax2 (values t) = 1 \/ m <= ax3 (values t) - 1)%nat ->
  amounts_beyond_first t (ax3 (values t) - 1) ->
  exists u vs, dev_to_val t = Ok u /\ same_rows t u /\ ddims u = Vals vs /\ StronglySorted Z.lt vs /\
    ax3 (values u) = List.length vs /\
    (forall v, In v vs <-> exists o d, (o < ax2 (values t))%nat /\ (d < ax3 (values t))%nat /\ month_of t o d = v) /\
    forall i c o k, in_range u i c o k -> exists q, total_at t i c o (month_of u o k) q /\ stores (cel u i c o k) q.
Proof.
  intros W G NF Hp Hc Hg D. pose proof (wf_o1 _ W) as W2. assert (Hd : (2 <= ax3 (values t))%nat) by apply G.
  set (n := (ax3 (values t) - 1)%nat) in *.
  assert (Vd : vdate t = ULT_VAL).
  { pose proof (wf_vd _ W). specialize (NF 0%nat n ltac:(lia) ltac:(lia)). unfold future in NF. unfold n in NF.
    rewrite (ugrid_last t o0 a0 h m) in NF by auto. lia. }
  destruct (full_increments t W NF Hp Hc Hd) as (s & Es & F & Sc & Sp & Sum).
  assert (Ws : wf s) by (eapply wf_same_frame; eauto).
  assert (Ms : forall o d, month_of s o d = month_of t o d) by (intros; apply month_same_frame; auto).
  destruct (iloc_dev_last s Ws) as (ul & Eul & Cul).
  destruct (iloc_dev_init s Ws) as (r & Er & Cr); [rewrite (sf_3 _ _ F); auto|].
  rewrite (sf_3 _ _ F) in Cul, Cr. fold n in Cul, Cr.
  pose proof (cl_eq _ _ Cr) as Eqr. pose proof (cl_eq _ _ Cul) as Equ.
  (* the part before ultimate *)
  assert (r0 : ax0 (values r) = ax0 (values t)) by (rewrite Eqr; cbn; rewrite seq_length; apply F).
  assert (r1 : ax1 (values r) = ax1 (values t)) by (rewrite Eqr; cbn; rewrite seq_length; apply F).
  assert (r2 : ax2 (values r) = ax2 (values t)) by (rewrite Eqr; cbn; rewrite seq_length; apply F).
  assert (r3 : ax3 (values r) = n) by (rewrite Eqr; cbn; rewrite seq_length; auto).
  assert (rk : kdims r = kdims t) by (rewrite Eqr; cbn; rewrite sel_seq_all by apply Ws; apply F).
  assert (rv : vdims r = vdims t) by (rewrite Eqr; cbn; rewrite sel_seq_all by apply Ws; apply F).
  assert (ro : odims r = odims t) by (rewrite Eqr; cbn; rewrite sel_seq_all by apply Ws; apply F).
  assert (rd : ddims r = Ages (map (fun k => a0 + Z.of_nat (h * k)) (seq 0 n))).
  { rewrite Eqr. cbn. rewrite (sf_d _ _ F). destruct G as (_ & _ & _ & _ & -> & _). cbn. f_equal. fold n.
    unfold sel. apply map_ext_in. intros k Hk. apply in_seq in Hk.
    rewrite app_nth1 by (rewrite map_length, seq_length; lia). rewrite nth_map_seq by lia. auto. }
  assert (rc : forall i c o d, in_range t i c o d -> (d < n)%nat -> cel r i c o d = cel s i c o d).
  { intros i c o d (R1 & R2 & R3 & R4) Hdn. rewrite Eqr. unfold cel. cbn. rewrite <- (sf_0 _ _ F) in R1. rewrite <- (sf_1 _ _ F) in R2. rewrite <- (sf_2 _ _ F) in R3.
    rewrite !seq_nth by auto. reflexivity. }
  assert (Gr : age_grid r o0 a0 h m).
  { pose proof G as (Hh & Hm & _ & Eo & _ & Gd & Go). unfold age_grid. rewrite r2, r3, ro, rd.
    split; [auto|]. split; [auto|]. split; [auto|]. split; [auto|]. split.
    - intros k Hk. apply (ugrid_month t o0 a0 h m 0 k W G ltac:(lia) Hk).
    - rewrite Eqr. cbn. rewrite (sf_dg _ _ F), (sf_og _ _ F). auto. }
  assert (Mr : forall o d, (o < ax2 (values t))%nat -> (d < n)%nat -> month_of r o d = month_of t o d).
  { intros o d Ho Hdn. rewrite (grid_month r o0 a0 h m) by (auto; rewrite ?r2, ?r3; auto). symmetry. apply (ugrid_month t o0 a0 h m); auto. }
  assert (NFr : no_future r).
  { intros o d Ho Hdr Hf. unfold future in Hf. rewrite r2 in Ho. rewrite r3 in Hdr.
    pose proof (cl_fut _ _ Cr o d) as X. cbn in X. rewrite !seq_length in X. rewrite (sf_2 _ _ F) in X. specialize (X Ho Hdr).
    assert (E : month_of (sel_dev s (seq 0 n)) o d = month_of r o d) by (rewrite Eqr; reflexivity).
    rewrite E in X. apply Z.ltb_lt in Hf. rewrite Hf in X. symmetry in X. apply Z.ltb_lt in X. rewrite (sf_vd _ _ F), Mr in X by auto.
    apply (NF o d); auto. lia. }
  pose proof (cl_wf _ _ Cr) as Wr.
  destruct (shift_to_val_ok r o0 a0 h m Wr Gr) as (w & Ew & (Sw & Cw) & Vw & Lw & Ed & _).
  { unfold no_gap. rewrite r2, r3. destruct Hg; auto. }
  { intros i c o d (_ & _ & R3 & R4) Hf. exfalso. apply (NFr o d); auto. }
  { destruct (beyond_amounts t s n F Sum D ltac:(lia)) as [H|(i & c & o & d & R & H1 & H2 & H3)].
    - left. rewrite r2. auto.
    - right. exists i, c, o, d. rewrite rc by auto. destruct R as (R1 & R2 & R3 & R4). unfold in_range. rewrite r0, r1, r2, r3. repeat split; auto. }
  assert (Kin : forall v, In v (known_valuations r) <-> exists o d, (o < ax2 (values t))%nat /\ (d < n)%nat /\ month_of t o d = v).
  { intros v. rewrite known_in, r2, r3 by auto. split.
    - intros (o & d & Ho & Hd' & E & _). rewrite Mr in E by auto. exists o, d; auto.
    - intros (o & d & Ho & Hd' & E). exists o, d. rewrite Mr by auto. repeat split; auto. rewrite <- E, <- Mr by auto.
      destruct (Z.le_gt_cases (month_of r o d) (vdate r)) as [|Hgt]; auto. exfalso. apply (NFr o d); rewrite ?r2, ?r3; auto. }
  assert (Klt : forall v, In v (known_valuations r) -> v < ULT_VAL).
  { intros v Hv. apply Kin in Hv. destruct Hv as (o & d & Ho & Hd' & <-). apply (ugrid_month t o0 a0 h m); auto. }
  assert (Wd1 : (1 <= ax3 (values w))%nat).
  { rewrite Lw. assert (K : In (month_of t 0 0) (known_valuations r)) by (apply Kin; exists 0%nat, 0%nat; repeat split; auto; lia).
    destruct (known_valuations r); [destruct K|cbn; lia]. }
  (* the ultimate column *)
  assert (u0 : ax0 (values ul) = ax0 (values t)) by (rewrite Equ; cbn; rewrite seq_length; apply F).
  assert (u1 : ax1 (values ul) = ax1 (values t)) by (rewrite Equ; cbn; rewrite seq_length; apply F).
  assert (u2 : ax2 (values ul) = ax2 (values t)) by (rewrite Equ; cbn; rewrite seq_length; apply F).
  assert (u3 : ax3 (values ul) = 1%nat) by (rewrite Equ; reflexivity).
  assert (uk : kdims ul = kdims t) by (rewrite Equ; cbn; rewrite sel_seq_all by apply Ws; apply F).
  assert (uv : vdims ul = vdims t) by (rewrite Equ; cbn; rewrite sel_seq_all by apply Ws; apply F).
  assert (uo : odims ul = odims t) by (rewrite Equ; cbn; rewrite sel_seq_all by apply Ws; apply F).
  assert (uc : forall i c o, in_range t i c o n -> cel ul i c o 0 = cel s i c o n).
  { intros i c o (R1 & R2 & R3 & R4). rewrite Equ. unfold cel. cbn. rewrite <- (sf_0 _ _ F) in R1. rewrite <- (sf_1 _ _ F) in R2. rewrite <- (sf_2 _ _ F) in R3.
    rewrite !seq_nth by auto. reflexivity. }
  assert (um : month_of ul 0 0 = ULT_VAL).
  { rewrite Equ. change (month_of (set_vdate ?x _) 0 0) with (month_of x 0 0). unfold sel_dev.
    rewrite month_of_sel by (rewrite ?seq_length; cbn; auto; rewrite (sf_2 _ _ F); lia). cbn [nth].
    rewrite Ms. unfold n. apply (ugrid_last t o0 a0 h m); auto. }
  pose proof (cl_wf _ _ Cul) as Wul.
  assert (uvd : vdate ul = ULT_VAL).
  { destruct (cl_ex _ _ Cul) as [E|(o & d & Ho & Hd' & E)].
    - rewrite E. cbn. rewrite (sf_vd _ _ F). auto.
    - cbn in Ho, Hd'. rewrite !seq_length in Ho. rewrite (sf_2 _ _ F) in Ho. rewrite E. unfold sel_dev.
      rewrite month_of_sel by (rewrite ?seq_length; cbn; auto; rewrite (sf_2 _ _ F); lia).
      replace d with 0%nat by lia. cbn [nth]. rewrite seq_nth by (rewrite (sf_2 _ _ F); auto). rewrite Ms. apply (ugrid_last t o0 a0 h m); auto. }
  assert (vul : valuation ul 0 0 = ULT_VAL) by (rewrite valuation_month; auto; rewrite ?u2, ?u3; lia).
  set (vs := known_valuations r ++ [ULT_VAL]).
  assert (Svs : StronglySorted Z.lt vs).
  { unfold vs. apply sorted_app_Z; [apply zunion_sorted|repeat constructor|]. intros x y Hx [ <- | [] ]. apply Klt; auto. }
  pose proof (concat_dev2 w (set_ddims ul (Vals [ULT_VAL])) (Vals vs)) as CC.
  rewrite Ed in CC. cbn [ddims set_ddims set_dims kdims vdims odims ddim_app dlist values vdate] in CC.
  rewrite uk, uv, uo, u0, u1, u2 in CC. rewrite (sr_k _ _ Sw), (sr_v _ _ Sw), (sr_o _ _ Sw), (sr_0 _ _ Sw), (sr_1 _ _ Sw), (sr_2 _ _ Sw) in CC.
  rewrite rk, rv, ro, r0, r1, r2 in CC.
  specialize (CC eq_refl eq_refl eq_refl eq_refl (sorted_NoDup _ Svs) eq_refl eq_refl eq_refl).
  set (x := set_vdate _ _) in CC.
  assert (xvd : vdate x = ULT_VAL).
  { unfold x. cbn. rewrite uvd. rewrite (sr_vd _ _ Sw). pose proof (wf_vd _ Wr). rewrite Z.max_l by auto. reflexivity. }
  assert (x3 : ax3 (values x) = (ax3 (values w) + 1)%nat) by (unfold x; cbn; rewrite u3; auto).
  assert (Sx : same_rows t (incr_to_cum x) /\ wf x /\ is_pattern x = false /\ is_cumulative x = Some false).
  { assert (Px : is_pattern x = false) by (change (is_pattern w = false); rewrite (sr_pat _ _ Sw), Eqr; exact Sp).
    assert (Cx : is_cumulative x = Some false) by (change (is_cumulative w = Some false); rewrite (sr_cum _ _ Sw), Eqr; exact Sc).
    destruct (incr_to_cum_frame x Px) as (Fx & Fc & Fp); [congruence|].
    assert (A : kdims x = kdims t /\ key_labels x = key_labels t /\ vdims x = vdims t /\ odims x = odims t /\ ograin x = ograin t /\ dgrain x = dgrain t /\
       ax0 (values x) = ax0 (values t) /\ ax1 (values x) = ax1 (values t) /\ ax2 (values x) = ax2 (values t)).
    { split; [change (kdims w = kdims t); rewrite (sr_k _ _ Sw); auto|].
      split; [change (key_labels w = key_labels t); rewrite (sr_kl _ _ Sw), Eqr; apply F|].
      split; [change (vdims w = vdims t); rewrite (sr_v _ _ Sw); auto|].
      split; [change (odims w = odims t); rewrite (sr_o _ _ Sw); auto|].
      split; [change (ograin w = ograin t); rewrite (sr_og _ _ Sw), Eqr; apply F|].
      split; [change (dgrain w = dgrain t); rewrite (sr_dg _ _ Sw), Eqr; apply F|].
      split; [change (ax0 (values w) = ax0 (values t)); rewrite (sr_0 _ _ Sw); auto|].
      split; [change (ax1 (values w) = ax1 (values t)); rewrite (sr_1 _ _ Sw); auto|].
      change (ax2 (values w) = ax2 (values t)); rewrite (sr_2 _ _ Sw); auto. }
    destruct A as (A1 & A2 & A3 & A4 & A5 & A6 & A7 & A8 & A9).
    split; [destruct Fx; constructor; congruence|]. split; [|auto].
    constructor.
    - rewrite A7, A1. apply W.
    - rewrite A8, A3. apply W.
    - rewrite A9, A4. apply W.
    - rewrite x3. change (ddims x) with (Vals vs). cbn. unfold vs. rewrite app_length, Lw. reflexivity.
    - rewrite A9. auto.
    - lia.
    - rewrite A4. apply W.
    - exact Svs.
    - lia.
    - change (ddims x) with (Vals vs). intros v Hv. unfold vs in Hv. apply in_app_iff in Hv. destruct Hv as [Hv | [ <- | [] ]]; [|lia].
      apply Klt in Hv. lia. }
  destruct Sx as (Sx & Wx & Px & Cx).
  destruct (incr_to_cum_frame x Px) as (Fx & _); [congruence|].
  exists (incr_to_cum x), vs. split.
  { unfold dev_to_val. replace (is_val_tri t) with false.
    2:{ unfold is_val_tri. destruct G as (_ & _ & _ & _ & -> & _). reflexivity. }
    replace (is_full t) with true by (symmetry; apply is_full_spec; auto).
    replace (is_ultimate t) with true.
    2:{ symmetry. unfold is_ultimate. apply existsb_exists. exists ULT_VAL. split; [|reflexivity]. apply in_valuations.
        exists 0%nat, n. rewrite <- (wf_o _ W), <- (wf_d _ W). split; [lia|]. split; [lia|].
        rewrite valuation_month by (auto; lia). apply (ugrid_last t o0 a0 h m); auto. }
    rewrite Hc. cbv zeta. rewrite Es. cbn [rbind]. rewrite Eul, Er. cbn [rbind]. rewrite Ew. cbn [rbind]. rewrite vul, CC. reflexivity. }
  split; [auto|]. split; [rewrite (sf_d _ _ Fx); reflexivity|]. split; [auto|].
  split; [rewrite (sf_3 _ _ Fx), x3; unfold vs; rewrite app_length, Lw; reflexivity|]. split.
  { intros v. unfold vs. rewrite in_app_iff, Kin. split.
    - intros [(o & d & Ho & Hd' & E) | [ <- | [] ]]; [exists o, d; repeat split; auto; lia|].
      exists 0%nat, n. repeat split; try lia. apply (ugrid_last t o0 a0 h m); auto.
    - intros (o & d & Ho & Hd' & E). destruct (Nat.eq_dec d n) as [->|].
      + right. left. rewrite <- E. symmetry. apply (ugrid_last t o0 a0 h m); auto.
      + left. exists o, d. repeat split; auto; lia. }
  intros i c o k R. apply (range_same_frame x (incr_to_cum x) i c o k Fx) in R. destruct R as (R1 & R2 & R3 & R4).
  rewrite (month_same_frame x) by auto.
  assert (R3t : (o < ax2 (values t))%nat) by (change (o < ax2 (values w))%nat in R3; rewrite (sr_2 _ _ Sw), r2 in R3; auto).
  assert (R1t : (i < ax0 (values t))%nat) by (change (i < ax0 (values w))%nat in R1; rewrite (sr_0 _ _ Sw), r0 in R1; auto).
  assert (R2t : (c < ax1 (values t))%nat) by (change (c < ax1 (values w))%nat in R2; rewrite (sr_1 _ _ Sw), r1 in R2; auto).
  rewrite x3 in R4.
  assert (Sumk : forall j, (j < ax3 (values w))%nat ->
     sumn (S j) (fun e => amount x i c o e) = if (j <? m * o)%nat then 0%Qc else amount t i c o (Nat.min (j - m * o) (n - 1))).
  { intros j Hj.
    rewrite (sumn_ext _ _ (fun e => if ((m * o <=? e) && (e - m * o <? n))%nat then amount s i c o (e - m * o) else 0%Qc)).
    2:{ intros e He. unfold amount, cel, x. cbn [values set_vdate set_values cat2 av].
        destruct (Nat.ltb_spec e (ax3 (values w))); [|lia].
        change (av (values w) i c o e) with (cel w i c o e). rewrite Cw by (auto; rewrite r2; auto). rewrite r3.
        destruct (Nat.leb_spec (m * o) e); cbn [andb]; auto. destruct (Nat.ltb_spec (e - m * o) n); auto. rewrite rc; auto. repeat split; auto. lia. }
    rewrite (sum_shift (fun d => amount s i c o d)) by lia.
    destruct (Nat.ltb_spec j (m * o)); auto. apply Sum. repeat split; auto. lia. }
  rewrite incr_to_cum_cell by (auto; try congruence; rewrite x3; auto).
  assert (Hm : month_of x o k <= vdate x).
  { rewrite xvd. change (month_of x o k) with (nth k vs 0). assert (Hin : In (nth k vs 0) vs).
    { apply nth_In. unfold vs. rewrite app_length, <- Lw. cbn. lia. }
    unfold vs in Hin at 2. apply in_app_iff in Hin. destruct Hin as [Hv | [ Hv | [] ]]; [apply Klt in Hv|]; lia. }
  replace (negb (vdate x <? month_of x o k)) with true by (symmetry; apply negb_true_iff, Z.ltb_ge; auto).
  rewrite orb_true_r.
  destruct (Nat.eq_dec k (ax3 (values w))) as [->|Hk].
  - assert (Em : month_of x o (ax3 (values w)) = ULT_VAL).
    { change (month_of x o (ax3 (values w))) with (nth (ax3 (values w)) vs 0). unfold vs. rewrite app_nth2 by lia. rewrite Lw, Nat.sub_diag. reflexivity. }
    rewrite Em. exists (amount t i c o n). split.
    + right. exists n. split; [lia|]. split; [unfold n; rewrite (ugrid_last t o0 a0 h m) by auto; lia|]. split; auto. intros e He _. lia.
    + change (sumn (S (ax3 (values w))) ?f) with (sumn (ax3 (values w)) f + f (ax3 (values w)))%Qc.
      assert (Ex : amount x i c o (ax3 (values w)) = amount s i c o n).
      { unfold amount, cel, x. cbn [values set_vdate set_values cat2 av]. rewrite Nat.ltb_irrefl, Nat.sub_diag.
        fold (cel s i c o n). rewrite <- uc; [reflexivity|]. repeat split; auto. lia. }
      cbv beta. rewrite Ex. replace (ax3 (values w)) with (S (ax3 (values w) - 1)) by lia. rewrite Sumk by lia.
      assert (Hlast : (m * o <= ax3 (values w) - 1 /\ n - 1 <= ax3 (values w) - 1 - m * o)%nat).
      { assert (K : In (month_of t o (n - 1)) (known_valuations r)) by (apply Kin; exists o, (n - 1)%nat; repeat split; auto; lia).
        destruct (In_nth _ _ 0 K) as (j & Hj & Ej). rewrite <- Lw in Hj.
        pose proof (vgrid_month w o0 a0 h m o j Vw Hj) as Q. unfold month_of in Q. rewrite Ed, Ej in Q.
        destruct (ugrid_month t o0 a0 h m o (n - 1)%nat W G R3t ltac:(lia)) as (Q2 & _). rewrite Q2 in Q.
        assert (1 <= h)%nat by apply G. assert (j = n - 1 + m * o)%nat by nia. lia. }
      destruct (Nat.ltb_spec (ax3 (values w) - 1) (m * o)); [lia|]. rewrite Nat.min_r by lia.
      replace (amount t i c o n) with (sumn (S n) (fun k => amount s i c o k)) by (apply Sum; repeat split; auto; lia).
      replace (amount t i c o (n - 1)) with (sumn (S (n - 1)) (fun k => amount s i c o k)) by (apply Sum; repeat split; auto; lia).
      replace (S (n - 1)) with n by lia. apply stores_n2n.
  - assert (Hk' : (k < ax3 (values w))%nat) by lia.
    assert (Em : month_of x o k = o0 + a0 - 1 + Z.of_nat (h * k)).
    { change (month_of x o k) with (nth k vs 0). unfold vs. rewrite app_nth1 by lia.
      rewrite <- (vgrid_month w o0 a0 h m o k Vw Hk'). unfold month_of. rewrite Ed. reflexivity. }
    eexists. rewrite Em. split; [apply (total_at_ult t o0 a0 h m); auto|].
    + rewrite <- (vgrid_month w o0 a0 h m o k Vw Hk'). unfold month_of. rewrite Ed. apply Klt. apply nth_In. lia.
    + rewrite Sumk by auto. fold n. apply stores_n2n.
Qed.
