(** Thinning the development axis of a valuation triangle. *)
From Verif Require Import Num NumFacts Arr Tri ArrFacts Spec TriFacts ConvFacts SliceFacts P_Core P_Filter UnionFacts SpecView P_View P_ViewFull SpecGrain P_Grain P_Grain2.
From Coq Require Import Lia ZArith List Arith Psatz Sorted.
Import ListNotations.
Local Open Scope Z_scope.

(** [y] has [t]'s rows (the development axis and its grain may differ). *)
Record rows_of (t y : tri) : Prop := {
  ro_k : kdims y = kdims t; ro_kl : key_labels y = key_labels t; ro_v : vdims y = vdims t; ro_o : odims y = odims t;
  ro_vd : vdate y = vdate t; ro_og : ograin y = ograin t;
  ro_pat : is_pattern y = is_pattern t; ro_cum : is_cumulative y = is_cumulative t;
  ro_0 : ax0 (values y) = ax0 (values t); ro_1 : ax1 (values y) = ax1 (values t); ro_2 : ax2 (values y) = ax2 (values t) }.

Lemma thin_ok t c0 A h m dg step m' : wf t -> val_grid t c0 A h m -> month_of t 0 (ax3 (values t) - 1) = vdate t ->
  (1 <= step)%nat -> (1 <= m')%nat -> grain_months dg = Z.of_nat (h * step) -> m = (step * m')%nat ->
  let K := ax3 (values t) in let r := ((K - 1) mod step)%nat in
  exists y, thin_dev dg t = Ok y /\ wf y /\ rows_of t y /\ dgrain y = dg /\
    val_grid y c0 (A + Z.of_nat (h * r)) (h * step) m' /\ month_of y 0 (ax3 (values y) - 1) = vdate y /\
    ax3 (values y) = S ((K - 1) / step) /\
    (forall i c p j, (i < ax0 (values t))%nat -> (c < ax1 (values t))%nat -> (p < ax2 (values t))%nat -> (j < ax3 (values y))%nat -> cel y i c p j <> None ->
       exists k, (k < K)%nat /\ (k <= r + step * j)%nat /\ cel t i c p k <> None) /\
    forall i c p v, (i < ax0 (values t))%nat -> (c < ax1 (values t))%nat -> (p < ax2 (values t))%nat -> kept_valuation t dg v ->
      window y i c p (v - 1) v = window t i c p (match is_cumulative t with Some true => v - 1 | _ => v - grain_months dg end) v.
Proof.
  intros W V EL Hs Hm' Gdg Em K r. pose proof V as (Hh & Hm & Eo & Ed & Gd & Go).
  pose proof (wf_o1 _ W) as W2. pose proof (wf_d1 _ W) as W3. fold K in W3.
  pose proof (Nat.div_mod (K - 1) step ltac:(lia)) as D. pose proof (Nat.mod_upper_bound (K - 1) step ltac:(lia)) as B.
  fold r in D, B. set (n := ((K - 1) / step)%nat) in *.
  assert (KB : forall j, (j <= n)%nat -> (r + step * j < K)%nat) by (intros; nia).
  unfold thin_dev. rewrite (dstep_grain _ _ h step Gd Gdg). cbn [rbind]. fold K. rewrite kept_ap by auto. fold r n.
  set (d := map (fun j => r + step * j)%nat (seq 0 (S n))).
  assert (Ld : List.length d = S n) by (unfold d; rewrite map_length, seq_length; auto).
  assert (Hd : incr_pos d K).
  { split; [apply ap_sorted; auto|]. intros x Hx. apply in_map_iff in Hx. destruct Hx as (j & <- & Hj). apply in_seq in Hj. nia. }
  assert (Nd : forall j, (j <= n)%nat -> nth j d 0%nat = (r + step * j)%nat) by (intros j Hj; unfold d; rewrite nth_map_seq by lia; auto).
  assert (Mt : forall o k, (k < K)%nat -> month_of t o k = c0 + A - 1 + Z.of_nat (h * k)) by (intros; apply (vgrid_month t c0 A h m); auto).
  assert (Evd : vdate t = c0 + A - 1 + Z.of_nat (h * (K - 1))) by (rewrite <- EL; apply Mt; lia).
  assert (EQ : forall j, c0 + (A + Z.of_nat (h * r)) - 1 + Z.of_nat (h * step * j) = c0 + A - 1 + Z.of_nat (h * (r + step * j))).
  { intros j. rewrite !Nat2Z.inj_mul, Nat2Z.inj_add, !Nat2Z.inj_mul. ring. }
  assert (LV : forall k, (k < K)%nat -> c0 + A - 1 + Z.of_nat (h * k) <= vdate t).
  { intros k Hk. rewrite Evd. assert (h * k <= h * (K - 1))%nat by (apply Nat.mul_le_mono_l; lia). lia. }
  (* what is needed of the array *)
  assert (FIN : forall y, rows_of t y -> dgrain y = dg -> ddims y = Vals (map (fun k => c0 + (A + Z.of_nat (h * r)) - 1 + Z.of_nat (h * step * k)) (seq 0 (S n))) ->
     ax3 (values y) = S n ->
     (forall i c p j, (i < ax0 (values t))%nat -> (c < ax1 (values t))%nat -> (p < ax2 (values t))%nat -> (j <= n)%nat ->
       amount y i c p j = window t i c p (match is_cumulative t with Some true => month_of t p (r + step * j) - 1 | _ => month_of t p (r + step * j) - grain_months dg end) (month_of t p (r + step * j))) ->
     wf y /\ val_grid y c0 (A + Z.of_nat (h * r)) (h * step) m' /\ month_of y 0 (ax3 (values y) - 1) = vdate y /\
     forall i c p v, (i < ax0 (values t))%nat -> (c < ax1 (values t))%nat -> (p < ax2 (values t))%nat -> kept_valuation t dg v ->
      window y i c p (v - 1) v = window t i c p (match is_cumulative t with Some true => v - 1 | _ => v - grain_months dg end) v).
  { intros y R Gy Dy L3 Am.
    assert (Wy : wf y).
    { constructor.
      - rewrite (ro_0 _ _ R), (ro_k _ _ R); apply W.
      - rewrite (ro_1 _ _ R), (ro_v _ _ R); apply W.
      - rewrite (ro_2 _ _ R), (ro_o _ _ R); apply W.
      - rewrite L3, Dy. cbn [dlist]. rewrite map_length, seq_length; auto.
      - rewrite (ro_2 _ _ R). auto.
      - lia.
      - rewrite (ro_o _ _ R). apply W.
      - rewrite Dy. apply sorted_ap. nia.
      - rewrite (ro_vd _ _ R). apply W.
      - rewrite Dy. intros v Hv. apply in_map_iff in Hv. destruct Hv as (j & <- & Hj). apply in_seq in Hj.
        pose proof (wf_vd _ W) as X. rewrite EQ. specialize (LV (r + step * j)%nat ltac:(apply KB; lia)). lia. }
    assert (Vy : val_grid y c0 (A + Z.of_nat (h * r)) (h * step) m').
    { unfold val_grid. rewrite Dy, L3, Gy, (ro_o _ _ R), (ro_og _ _ R), (ro_2 _ _ R).
      split; [nia|]. split; [auto|]. split; [|split; [reflexivity|split; [auto|]]].
      - rewrite Eo. apply map_ext. intros k. subst m. do 2 f_equal. lia.
      - rewrite Go. subst m. f_equal. lia. }
    assert (My : forall o j, (j <= n)%nat -> month_of y o j = month_of t o (r + step * j)).
    { intros o j Hj. rewrite (vgrid_month y _ _ _ _ o j Vy) by lia. rewrite Mt by auto. apply EQ. }
    split; auto. split; auto. split.
    { rewrite L3. replace (S n - 1)%nat with n by lia. rewrite My, (ro_vd _ _ R), Evd, Mt by auto. do 3 f_equal. lia. }
    intros i c p v Hi Hc Hp (j & Ev).
    destruct (Nat.le_gt_cases j n) as [Hj|Hj].
    - assert (Mv : month_of t p (r + step * (n - j)) = v).
      { rewrite Mt by (apply KB; lia). rewrite Ev, Gdg, Evd.
        replace (K - 1)%nat with (r + step * (n - j) + step * j)%nat by nia.
        rewrite !Nat2Z.inj_mul, !Nat2Z.inj_add, !Nat2Z.inj_mul. ring. }
      rewrite <- Mv. rewrite <- (Am i c p (n - j)%nat) by (auto; lia).
      rewrite <- My by lia. apply window_col; auto; [rewrite (ro_2 _ _ R); auto|lia].
    - assert (Hv : v < c0 + A - 1) by (rewrite Ev, Gdg, Evd, <- Nat2Z.inj_mul; assert (h * (K - 1) < h * step * j)%nat by (rewrite <- Nat.mul_assoc; apply Nat.mul_lt_mono_pos_l; nia); lia).
      unfold window. rewrite (sumn_zero (ax3 (values y))), (sumn_zero (ax3 (values t))); [reflexivity| |].
      + intros k Hk. rewrite Mt by auto. destruct (Z.leb_spec (c0 + A - 1 + Z.of_nat (h * k)) v); [lia|]. rewrite andb_false_r. auto.
      + intros k Hk. rewrite L3 in Hk. rewrite My by lia. rewrite Mt by (apply KB; lia).
        destruct (Z.leb_spec (c0 + A - 1 + Z.of_nat (h * (r + step * k))) v); [lia|]. rewrite andb_false_r. auto. }
  assert (Dd : sel (map (fun k => c0 + A - 1 + Z.of_nat (h * k)) (seq 0 K)) 0 d = map (fun k => c0 + (A + Z.of_nat (h * r)) - 1 + Z.of_nat (h * step * k)) (seq 0 (S n))).
  { unfold sel, d. rewrite map_map. apply map_ext_in. intros j Hj. apply in_seq in Hj. rewrite nth_map_seq by (apply KB; lia). symmetry. apply EQ. }
  assert (INC : match is_cumulative t with Some true => false | _ => true end = true ->
    exists y, (do obj <- (do s <- clip_vdate t; Ok (set_ddims (set_values s (Arr (ax0 (values t)) (ax1 (values t)) (ax2 (values t)) (List.length d) (fun i c o j =>
        n2n (Some (sumn (ax3 (values t)) (fun k => if (nth k (repeat (hd 0 d) (S (hd 0 d)) ++ flat_map (fun x => repeat x step) (tl d)) 0 =? nth j d 0)%nat then nz (av (values t) i c o k) else 0%Qc))))))
       (dmap (fun l => sel l 0 d) (ddims t))));
      Ok (set_grains obj (ograin obj) dg)) = Ok y /\ wf y /\ rows_of t y /\ dgrain y = dg /\
    val_grid y c0 (A + Z.of_nat (h * r)) (h * step) m' /\ month_of y 0 (ax3 (values y) - 1) = vdate y /\
    ax3 (values y) = S n /\
    (forall i c p j, (i < ax0 (values t))%nat -> (c < ax1 (values t))%nat -> (p < ax2 (values t))%nat -> (j < ax3 (values y))%nat -> cel y i c p j <> None ->
       exists k, (k < K)%nat /\ (k <= r + step * j)%nat /\ cel t i c p k <> None) /\
    forall i c p v, (i < ax0 (values t))%nat -> (c < ax1 (values t))%nat -> (p < ax2 (values t))%nat -> kept_valuation t dg v ->
      window y i c p (v - 1) v = window t i c p (match is_cumulative t with Some true => v - 1 | _ => v - grain_months dg end) v).
  { intros Ec.
    destruct (clip_vdate_ok t W) as (x & Ex & [Cw Ce Cl Cx Cm Cf]). rewrite Ex. cbn [rbind].
    assert (Vx : vdate x = vdate t).
    { destruct Cm as [Cm|Cm]; [exact Cm|]. apply Z.le_antisymm; [exact Cl|]. rewrite <- EL. apply Cm; lia. }
    set (y := set_grains _ _ dg). exists y. split; [reflexivity|].
    assert (R : rows_of t y).
    { constructor; unfold y; cbn [set_grains set_ddims set_dims set_values kdims key_labels vdims odims vdate ograin is_pattern is_cumulative values ax0 ax1 ax2]; auto;
        rewrite Ce; reflexivity. }
    assert (Cy : forall i c p j, (j <= n)%nat -> cel y i c p j = n2n (Some (sumn K (fun k => if (r + step * j <? k + step)%nat && (k <=? r + step * j)%nat then amount t i c p k else 0%Qc)))).
    { intros i c p j Hj. unfold cel, y. cbn [set_grains set_ddims set_dims set_values values av]. do 2 f_equal. apply sumn_ext. intros k Hk.
      rewrite Nd by auto. unfold d. rewrite group_label by (auto; fold K in Hk; lia). reflexivity. }
    assert (L3 : ax3 (values y) = S n) by exact Ld.
    assert (Dy : ddims y = Vals (map (fun k => c0 + (A + Z.of_nat (h * r)) - 1 + Z.of_nat (h * step * k)) (seq 0 (S n)))).
    { unfold y. cbn [set_grains set_ddims set_dims ddims]. rewrite Ed. cbn [dmap]. fold K. f_equal. exact Dd. }
    destruct (FIN y R eq_refl Dy L3) as (Wy & Vy & Ly & Wi).
    { intros i c p j Hi Hc Hp Hj. unfold amount at 1. rewrite Cy by auto. rewrite nz_n2n. cbn [nz]. unfold window. fold K. apply sumn_ext. intros k Hk.
      replace (match is_cumulative t with Some true => month_of t p (r + step * j) - 1 | _ => month_of t p (r + step * j) - grain_months dg end)
        with (month_of t p (r + step * j) - grain_months dg) by (destruct (is_cumulative t) as [[|]|]; auto; discriminate).
      rewrite !Mt by auto. rewrite Gdg.
      assert (E : ((r + step * j <? k + step)%nat && (k <=? r + step * j)%nat) =
        ((c0 + A - 1 + Z.of_nat (h * (r + step * j)) - Z.of_nat (h * step) <? c0 + A - 1 + Z.of_nat (h * k)) && (c0 + A - 1 + Z.of_nat (h * k) <=? c0 + A - 1 + Z.of_nat (h * (r + step * j))))).
      { apply eq_true_iff_eq. rewrite !andb_true_iff, Nat.ltb_lt, Nat.leb_le, Z.ltb_lt, Z.leb_le.
        generalize (r + step * j)%nat. intros a. nia. }
      rewrite E. reflexivity. }
    split; [auto|]. split; [auto|]. split; [reflexivity|]. split; [auto|]. split; [auto|]. split; [auto|]. split; [|auto].
    intros i c p j Hi Hc Hp Hj Hn. rewrite L3 in Hj. rewrite Cy in Hn by lia. apply n2n_some, sumn_nonzero in Hn. destruct Hn as (k & Hk & Hn).
    exists k. split; auto. destruct (_ && _) eqn:E; [|congruence]. apply andb_true_iff in E. destruct E as (_ & E). apply Nat.leb_le in E.
    split; auto. intros X. apply Hn. unfold amount. rewrite X. auto. }
  destruct (is_cumulative t) as [[|]|] eqn:Ec; cbv zeta.
  - destruct (contig_ap r step (S n) Hs ltac:(lia)) as (s & Es & Is). fold d in Es. rewrite Es. cbn [rbind].
    assert (Ps : positions s (ax3 (values t)) = Ok d).
    { apply contig_slice_positions; auto; [eapply incr_pos_NoDup; eauto|apply Hd]. }
    rewrite (get_idx_dev t s d Is Ps).
    destruct (clip_vdate_ok (sel_dev t d)) as (x & Ex & [Cw Ce Cl Cx Cm Cf]).
    { apply wf_sel; auto; [apply incr_pos_seq; lia|rewrite seq_length; auto|lia]. }
    rewrite Ex. cbn [rbind].
    assert (Vx : vdate x = vdate t).
    { destruct Cm as [Cm|Cm]; [exact Cm|]. apply Z.le_antisymm; [exact Cl|]. rewrite Evd.
      specialize (Cm 0%nat n). cbn [sel_dev sel_tri values sel_arr ax2 ax3] in Cm. rewrite seq_length, Ld in Cm. specialize (Cm ltac:(lia) ltac:(lia)).
      unfold month_of in Cm. cbn [sel_dev sel_tri ddims] in Cm. rewrite Ed in Cm. cbn [dmap] in Cm. fold K in Cm. rewrite Dd, nth_map_seq, EQ in Cm by lia. replace (r + step * n)%nat with (K - 1)%nat in Cm by lia. exact Cm. }
    set (y := set_grains x (ograin x) dg).
    assert (R : rows_of t y).
    { constructor; unfold y; cbn [set_grains kdims key_labels vdims odims vdate ograin is_pattern is_cumulative values]; auto;
        rewrite Ce; cbn [set_vdate sel_dev sel_tri kdims key_labels vdims odims vdate ograin is_pattern is_cumulative values sel_arr ax0 ax1 ax2]; auto;
        try apply seq_length; apply sel_seq_all; apply W. }
    assert (Cy : forall i c p j, (i < ax0 (values t))%nat -> (c < ax1 (values t))%nat -> (p < ax2 (values t))%nat -> (j <= n)%nat -> cel y i c p j = cel t i c p (r + step * j)).
    { intros i c p j Hi Hc Hp Hj. unfold y, cel. cbn [set_grains values]. rewrite Ce. cbn [set_vdate sel_dev sel_tri values sel_arr av].
      rewrite !seq_nth, Nd by auto. reflexivity. }
    destruct (FIN y R eq_refl) as (Wy & Vy & Ly & Wi); [| | |].
    { unfold y. cbn [set_grains ddims]. rewrite Ce. cbn [set_vdate sel_dev sel_tri ddims]. rewrite Ed. cbn [dmap]. fold K. f_equal. exact Dd. }
    { unfold y. cbn [set_grains values]. rewrite Ce. cbn [set_vdate sel_dev sel_tri values sel_arr ax3]. exact Ld. }
    { intros i c p j Hi Hc Hp Hj. rewrite window_col by (auto; apply KB; auto). unfold amount. rewrite Cy by auto. auto. }
    exists y. split; [reflexivity|]. split; [auto|]. split; [auto|]. split; [reflexivity|]. split; [auto|]. split; [auto|].
    assert (L3 : ax3 (values y) = S n).
    { unfold y. cbn [set_grains values]. rewrite Ce. cbn [set_vdate sel_dev sel_tri values sel_arr ax3]. exact Ld. }
    split; [auto|]. split; [|auto].
    intros i c p j Hi Hc Hp Hj Hn. exists (r + step * j)%nat. rewrite L3 in Hj. split; [apply KB; lia|]. split; [lia|].
    rewrite Cy in Hn by (auto; lia). auto.
  - destruct (INC eq_refl) as (y & Ey & H). exists y. split; [exact Ey|exact H].
  - destruct (INC eq_refl) as (y & Ey & H). exists y. split; [exact Ey|exact H].
Qed.
