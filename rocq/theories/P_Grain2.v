(** The inferred grain, added columns and the development grain. *)
From Verif Require Import Num NumFacts Arr Tri ArrFacts Spec TriFacts ConvFacts SliceFacts P_Core P_Filter UnionFacts SpecView P_View P_ViewFull SpecGrain P_Grain.
From Coq Require Import Lia ZArith List Arith Psatz Sorted.
Import ListNotations.
Local Open Scope Z_scope.

Ltac modlia := Z.div_mod_to_equations; lia.

Lemma seq_from k n : seq k n = map (fun j => k + j)%nat (seq 0 n).
Proof.
  revert k. induction n; intros k; [reflexivity|]. cbn [seq map]. rewrite Nat.add_0_r. f_equal.
  rewrite IHn, (IHn 1%nat), map_map. apply map_ext. intros. lia.
Qed.

Lemma infer_ok og c0 n : grain_shows og c0 n -> (1 <= n)%nat ->
  infer_grain (map (fun p => c0 + grain_months og * Z.of_nat p) (seq 0 n)) = og.
Proof.
  intros H Hn. unfold infer_grain. rewrite map_map.
  set (L := zunion _ []).
  assert (IN : forall v, In v L <-> exists p, (p < n)%nat /\ v = (c0 + grain_months og * Z.of_nat p) mod 12).
  { intros v. unfold L. rewrite zunion_In, in_map_iff. split.
    - intros [(p & <- & Hp) | [] ]. apply in_seq in Hp. exists p. split; auto; lia.
    - intros (p & Hp & ->). left. exists p. split; auto. apply in_seq. lia. }
  assert (SL : StronglySorted Z.lt L) by apply zunion_sorted.
  destruct og; cbn [grain_shows grain_months] in *.
  - replace L with [c0 mod 12]; [reflexivity|]. symmetry. apply sorted_Z_ext; auto; [repeat constructor|].
    intros v. rewrite IN. split.
    + intros (p & _ & ->). left. modlia.
    + intros [ <- | [] ]. exists 0%nat. split; [lia|]. f_equal; lia.
  - replace L with [c0 mod 6; c0 mod 6 + 6]; [cbn [List.length zdiffs forallb]; replace (c0 mod 6 + 6 - c0 mod 6) with 6 by lia; reflexivity|].
    symmetry. apply sorted_Z_ext; auto; [repeat constructor; lia|].
    intros v. rewrite IN. split.
    + intros (p & _ & ->). cbn [In]. modlia.
    + assert (X : (c0 + 6 * Z.of_nat 0) mod 12 = c0 mod 6 /\ (c0 + 6 * Z.of_nat 1) mod 12 = c0 mod 6 + 6 \/
                  (c0 + 6 * Z.of_nat 0) mod 12 = c0 mod 6 + 6 /\ (c0 + 6 * Z.of_nat 1) mod 12 = c0 mod 6) by modlia.
      intros [ <- | [ <- | [] ] ]; (destruct X as [(X1 & X2)|(X1 & X2)]; [|]).
      * exists 0%nat. split; [lia|auto].
      * exists 1%nat. split; [lia|auto].
      * exists 1%nat. split; [lia|auto].
      * exists 0%nat. split; [lia|auto].
  - destruct H as [H|(H & B)].
    + replace L with [c0 mod 3; c0 mod 3 + 3; c0 mod 3 + 6; c0 mod 3 + 9].
      { cbn [List.length zdiffs forallb]. replace (c0 mod 3 + 3 - c0 mod 3) with 3 by lia.
        replace (c0 mod 3 + 6 - (c0 mod 3 + 3)) with 3 by lia. replace (c0 mod 3 + 9 - (c0 mod 3 + 6)) with 3 by lia. reflexivity. }
      symmetry. apply sorted_Z_ext; auto; [repeat constructor; lia|].
      intros v. rewrite IN. split.
      * intros (p & _ & ->). cbn [In]. modlia.
      * intros Hv. assert (exists r, 0 <= r < 4 /\ v = c0 mod 3 + 3 * r) as (r & Hr & ->).
        { cbn [In] in Hv. destruct Hv as [ <- | [ <- | [ <- | [ <- | [] ] ] ] ]; [exists 0|exists 1|exists 2|exists 3]; lia. }
        exists (Z.to_nat ((r - (c0 mod 12) / 3) mod 4)). split; [modlia|]. rewrite Z2Nat.id by modlia. modlia.
    + assert (EL : L = map (fun p => c0 mod 12 + Z.of_nat (3 * p)) (seq 0 n)).
      { apply sorted_Z_ext; auto; [apply sorted_ap; lia|]. intros v. rewrite IN, in_map_iff. split.
        - intros (p & Hp & ->). exists p. split; [modlia|apply in_seq; lia].
        - intros (p & <- & Hp). apply in_seq in Hp. exists p. split; [lia|modlia]. }
      assert (ED : forall s k, zdiffs (map (fun p => c0 mod 12 + Z.of_nat (3 * p)) (seq s (S k))) = repeat 3 k).
      { intros s k. revert s. induction k; intros s; [reflexivity|].
        change (seq s (S (S k))) with (s :: seq (S s) (S k)). rewrite map_cons.
        specialize (IHk (S s)). cbn [seq map] in *. cbn [zdiffs]. cbn [repeat]. f_equal; [lia|exact IHk]. }
      rewrite EL, map_length, seq_length. destruct n as [|[|n]]; [lia|lia|].
      change (S (S n) =? 1)%nat with false. rewrite ED. cbn [repeat forallb]. change (3 =? 6) with false. cbn [andb].
      change (3 =? 3) with true. cbn [andb]. replace (forallb _ _) with true; [reflexivity|]. symmetry. apply forallb_forall.
      intros x Hx. apply repeat_spec in Hx. subst x. reflexivity.
  - destruct H.
Qed.

Lemma period_start_first close og o : og <> GM -> period_start close og (first_period close og o) = first_period close og o.
Proof. destruct og; cbn; intros; try congruence; modlia. Qed.

Lemma add_leading_none close x c0 a0 h m : wf x -> val_grid x c0 a0 h m -> dgrain x <> GS -> 1 <= a0 <= Z.of_nat h ->
  period_start close (ograin x) c0 = c0 -> (dgrain x = GM \/ dgrain x = GQ) -> (Z.of_nat h | c0 - (close + 1)) -> add_leading close x = Ok x.
Proof.
  intros W V Hd Ha Hp Hg Hal. pose proof V as (Hh & Hm & Eo & Ed & Gd & Go).
  pose proof (wf_o1 _ W) as W2. pose proof (wf_d1 _ W) as W3.
  unfold add_leading.
  assert (Ev : valuation x 0 0 = c0 + a0 - 1).
  { unfold valuation. rewrite Ed, nth_map_seq by auto. lia. }
  assert (Eh : hd 0 (odims x) = c0) by (rewrite Eo, hd_map_seq by auto; lia).
  assert (X : period_start close (dgrain x) (c0 + a0 - 1) = c0).
  { destruct Hg as [Hg|Hg]; rewrite Hg in *; cbn [period_start grain_months] in *; [lia|].
    destruct Hal as (y & Ey). assert (E : (c0 + a0 - 1 - (close + 1)) mod 3 = a0 - 1).
    { symmetry. apply (Z.mod_unique_pos _ _ y); lia. }
    lia. }
  rewrite Ev, Eh, Hp. destruct Hg as [Hg|Hg]; rewrite Hg in *; rewrite X, Z.eqb_refl; cbn [negb]; rewrite andb_false_r; reflexivity.
Qed.

Lemma positions_suffix n k : (1 <= k <= n)%nat ->
  (do s <- normalize_slice (Some (- Z.of_nat k)) None None n; positions s n) = Ok (seq (n - k) k).
Proof.
  intros H.
  assert (E : exists a, normalize_slice (Some (- Z.of_nat k)) None None n = Ok (Slice a None (match a with None => None | _ => Some 1 end)) /\
     (a = Some (Z.of_nat (n - k)) \/ (a = None /\ n = k))).
  { unfold normalize_slice, slice_triple, slice_bound.
    change (1 =? 0) with false. change (0 <? 1) with true. destruct (Z.ltb_spec (- Z.of_nat k) 0); [|lia].
    cbn [rbind]. cbv iota beta. rewrite Z.max_l by lia.
    destruct (Z.ltb_spec (-1) (Z.of_nat n)); [|lia]. rewrite Z.eqb_refl.
    destruct (Z.ltb_spec 0 (- Z.of_nat k + Z.of_nat n)).
    - exists (Some (- Z.of_nat k + Z.of_nat n)). split; auto. left. f_equal. lia.
    - exists None. split; auto. right. split; auto. lia. }
  destruct E as (a & -> & Ha). cbn [rbind]. destruct Ha as [->|(-> & ->)].
  2:{ rewrite Nat.sub_diag. apply (positions_all k). }
  unfold positions, slice_positions, slice_triple, slice_bound.
  change (1 =? 0) with false. change (0 <? 1) with true.
  cbn [rbind]. cbv iota beta. destruct (Z.ltb_spec (Z.of_nat (n - k)) 0); [lia|]. rewrite Z.min_l by lia. f_equal.
  replace (Z.of_nat n) with (Z.of_nat (n - k) + Z.of_nat k) by lia.
  apply (py_range_step1 (n - k) k).
Qed.

Lemma add_leading_months close x c0 a0 m : wf x -> val_grid x c0 a0 1 m -> 1 < a0 -> a0 - 1 <= Z.of_nat (ax3 (values x)) ->
  (2 <= ax3 (values x))%nat -> period_start close (ograin x) c0 = c0 -> no_future x -> month_of x 0 (ax3 (values x) - 1) = vdate x ->
  exists y, add_leading close x = Ok y /\ wf y /\ same_rows x y /\ val_grid y c0 1 1 m /\
    ax3 (values y) = (Z.to_nat (a0 - 1) + ax3 (values x))%nat /\
    (forall i c p d, cel y i c p d <> None -> (Z.to_nat (a0 - 1) <= d)%nat /\ cel x i c p (d - Z.to_nat (a0 - 1)) <> None) /\
    forall i c p lo hi, (p < ax2 (values x))%nat -> window y i c p lo hi = window x i c p lo hi.
Proof.
  intros W V Ha Hn H2 Hp NF EL. pose proof V as (Hh & Hm & Eo & Ed & Gd & Go).
  pose proof (wf_o1 _ W) as W2. pose proof (wf_d1 _ W) as W3.
  assert (Eg : dgrain x = GM) by (destruct (dgrain x); cbn in Gd; try lia; reflexivity).
  unfold add_leading. rewrite Eg.
  assert (Ev : valuation x 0 0 = c0 + a0 - 1).
  { unfold valuation. rewrite Ed, nth_map_seq by auto. lia. }
  assert (Eh : hd 0 (odims x) = c0) by (rewrite Eo, hd_map_seq by auto; lia).
  rewrite Ev, Eh, Hp. cbn [period_start]. rewrite <- (wf_d _ W).
  destruct (Nat.ltb_spec 1 (ax3 (values x))); [|lia]. destruct (Z.eqb_spec c0 (c0 + a0 - 1)); [lia|]. cbn [andb negb].
  set (k := Z.to_nat (a0 - 1)). assert (Hk : (1 <= k <= ax3 (values x))%nat) by (unfold k; lia).
  assert (Ea : addl_labels GM c0 (c0 + a0 - 1) = map (fun j => c0 + Z.of_nat (1 * j)) (seq 0 k)).
  { unfold addl_labels. cbn [period_start]. rewrite Z.div_1_r. replace (c0 + a0 - 1 - c0) with (a0 - 1) by lia. fold k.
    apply map_ext. intros j. lia. }
  rewrite Ea. rewrite map_length, seq_length.
  destruct (Nat.eqb_spec k 0); [lia|]. destruct (Nat.ltb_spec (ax3 (values x)) k); [lia|]. cbn [orb].
  destruct (iloc_dev_ok x (Some (- Z.of_nat k)) None (seq (ax3 (values x) - k) k) W) as (s & Es & Cs).
  { apply positions_suffix. lia. }
  { apply incr_pos_seq. lia. }
  { rewrite seq_length. lia. }
  rewrite Es. cbn [rbind].
  destruct Cs as [Cw Ce Cl Cx Cm Cf].
  assert (A0 : ax0 (values s) = ax0 (values x)) by (rewrite Ce; cbn; apply seq_length).
  assert (A1 : ax1 (values s) = ax1 (values x)) by (rewrite Ce; cbn; apply seq_length).
  assert (A2 : ax2 (values s) = ax2 (values x)) by (rewrite Ce; cbn; apply seq_length).
  assert (A3 : ax3 (values s) = k) by (rewrite Ce; cbn; apply seq_length).
  assert (Bd : forall n, bdim n 1 = Ok n).
  { intros nn. unfold bdim. destruct (Nat.eqb_spec nn 1); [subst; auto|]. cbn. auto. }
  unfold mul_arr, bmap2. change (ax0 (scalar_arr 0)) with 1%nat. change (ax1 (scalar_arr 0)) with 1%nat. change (ax2 (scalar_arr 0)) with 1%nat. change (ax3 (scalar_arr 0)) with 1%nat.
  rewrite !Bd. cbn [rbind].
  set (z := set_values s _).
  assert (Kx : kdims x = kdims s).
  { rewrite Ce. cbn [set_vdate kdims sel_dev sel_tri]. symmetry. apply sel_seq_all. apply W. }
  assert (Vx : vdims x = vdims s).
  { rewrite Ce. cbn [set_vdate vdims sel_dev sel_tri]. symmetry. apply sel_seq_all. apply W. }
  assert (Ox : odims x = odims s).
  { rewrite Ce. cbn [set_vdate odims sel_dev sel_tri]. symmetry. apply sel_seq_all. apply W. }
  rewrite (concat_dev2 (set_ddims z (Vals (map (fun j => c0 + Z.of_nat (1 * j)) (seq 0 k)))) x
             (Vals (map (fun j => c0 + Z.of_nat (1 * j)) (seq 0 (k + ax3 (values x)))))).
  - cbn [rbind]. set (r := set_values _ _). exists r. split; [reflexivity|].
    assert (Vd : vdate s <= vdate x) by exact Cl.
    assert (R3 : ax3 (values r) = (k + ax3 (values x))%nat) by (cbn; rewrite A3; reflexivity).
    assert (Evr : vdate r = vdate x) by (cbn; lia).
    assert (SR : same_rows x r).
    { constructor; [symmetry; exact Kx| |symmetry; exact Vx|symmetry; exact Ox|exact Evr| | | | |exact A0|exact A1|exact A2].
      - change (key_labels s = key_labels x). rewrite Ce; reflexivity.
      - change (ograin s = ograin x). rewrite Ce; reflexivity.
      - change (dgrain s = dgrain x). rewrite Ce; reflexivity.
      - change (is_pattern s = is_pattern x). rewrite Ce; reflexivity.
      - change (is_cumulative s = is_cumulative x). rewrite Ce; reflexivity. }
    assert (Vr : val_grid r c0 1 1 m).
    { unfold val_grid. rewrite (sr_o _ _ SR), (sr_2 _ _ SR), (sr_dg _ _ SR), (sr_og _ _ SR), R3. repeat split; auto.
      cbn [r set_values set_vdate set_ddims set_dims ddims]. f_equal. apply map_ext. intros j. lia. }
    assert (Wr : wf r).
    { constructor.
      - rewrite (sr_0 _ _ SR), (sr_k _ _ SR); apply W.
      - rewrite (sr_1 _ _ SR), (sr_v _ _ SR); apply W.
      - rewrite (sr_2 _ _ SR), (sr_o _ _ SR); apply W.
      - rewrite R3. cbn [r set_values set_vdate set_ddims set_dims ddims dlist]. rewrite map_length, seq_length. auto.
      - rewrite (sr_2 _ _ SR). auto.
      - rewrite R3. lia.
      - rewrite (sr_o _ _ SR). apply W.
      - cbn [r set_values set_vdate set_ddims set_dims ddims dlist]. apply sorted_ap. lia.
      - rewrite Evr. apply W.
      - cbn [r set_values set_vdate set_ddims set_dims ddims]. intros v Hv. apply in_map_iff in Hv. destruct Hv as (j & <- & Hj). apply in_seq in Hj.
        pose proof (wf_vd _ W). rewrite <- EL, (vgrid_month x c0 a0 1 m) in H1 by (auto; lia). lia. }
    assert (Cr : forall i c p d, cel r i c p d = if (d <? k)%nat then None else n2n (cel x i c p (d - k))).
    { intros i c p d. unfold cel. cbn [r set_values set_vdate set_ddims set_dims values map_arr av cat2 z]. cbn [ax3]. rewrite A3.
      destruct (d <? k)%nat; auto. cbn. destruct (av (values s) _ _ _ _); cbn; auto. rewrite Qcmult_0_r. reflexivity. }
    split; [auto|]. split; [auto|]. split; [auto|]. split; [auto|]. split.
    { intros i c p d. rewrite Cr. destruct (Nat.ltb_spec d k); [congruence|]. intros X. split; auto. intros Y. apply X. rewrite Y. reflexivity. }
    intros i c p lo hi Hpp. unfold window. rewrite R3, sumn_app.
    rewrite (sumn_zero k).
    2:{ intros d Hd. unfold amount. rewrite Cr. destruct (Nat.ltb_spec d k); [|lia]. cbn. destruct (_ && _); auto. }
    rewrite Qcplus_0_l. apply sumn_ext. intros d Hd.
    rewrite (vgrid_month r c0 1 1 m) by (auto; lia). rewrite (vgrid_month x c0 a0 1 m) by auto.
    replace (c0 + 1 - 1 + Z.of_nat (1 * (k + d))) with (c0 + a0 - 1 + Z.of_nat (1 * d)) by (unfold k; lia).
    destruct (_ && _); auto. unfold amount. rewrite Cr. destruct (Nat.ltb_spec (k + d) k); [lia|].
    replace (k + d - k)%nat with d by lia. apply nz_n2n.
  - exact Kx.
  - exact Vx.
  - exact Ox.
  - cbn [set_ddims set_dims ddims ddim_app]. rewrite Ed. cbn [ddim_app]. do 2 f_equal. rewrite seq_app, map_app. f_equal.
    rewrite (seq_from (0 + k)), map_map. apply map_ext. intros j. unfold k. lia.
  - cbn [dlist]. apply sorted_NoDup. apply sorted_ap. lia.
  - symmetry; exact A0.
  - symmetry; exact A1.
  - symmetry; exact A2.
Qed.

(** ** Thinning the development axis *)
Lemma rev_map_seq {A} (f : nat -> A) n : rev (map f (seq 0 n)) = map (fun j => f (n - 1 - j)%nat) (seq 0 n).
Proof.
  induction n; [reflexivity|]. rewrite seq_S at 1. rewrite map_app, rev_app_distr, IHn. cbn [rev map app seq].
  rewrite <- seq_shift, map_map. f_equal; try (f_equal; lia). apply map_ext_in. intros j Hj. apply in_seq in Hj. f_equal. lia.
Qed.
Lemma kept_ap K step : (1 <= K)%nat -> (1 <= step)%nat ->
  kept_positions K step = map (fun j => (K - 1) mod step + step * j)%nat (seq 0 (S ((K - 1) / step))).
Proof.
  intros HK Hs. unfold kept_positions, py_range. destruct (Z.ltb_spec 0 (Z.of_nat step)); [|lia].
  replace ((Z.of_nat K - 0 + Z.of_nat step - 1) / Z.of_nat step) with (Z.of_nat (S ((K - 1) / step))).
  2:{ replace (Z.of_nat K - 0 + Z.of_nat step - 1) with (Z.of_nat (K - 1) + 1 * Z.of_nat step) by lia.
      rewrite Z.div_add by lia. rewrite <- Nat2Z.inj_div. lia. }
  rewrite Nat2Z.id, map_map, rev_map_seq. apply map_ext_in. intros j Hj. apply in_seq in Hj.
  pose proof (Nat.div_mod (K - 1) step ltac:(lia)) as D. pose proof (Nat.mod_upper_bound (K - 1) step ltac:(lia)) as B.
  set (p := ((K - 1) / step)%nat) in *. set (r := ((K - 1) mod step)%nat) in *. clearbody p r. nia.
Qed.
Lemma nth_repeat_in (a : nat) n k d : (k < n)%nat -> nth k (repeat a n) d = a.
Proof. revert k. induction n; intros k H; [lia|]. destruct k; cbn; auto. apply IHn. lia. Qed.
Lemma nth_flat_repeat (f : nat -> nat) step n i : (1 <= step)%nat -> (i < step * n)%nat -> forall s,
  nth i (flat_map (fun x => repeat x step) (map f (seq s n))) 0%nat = f (s + i / step)%nat.
Proof.
  intros Hs. revert i. induction n; intros i Hi s; [lia|]. cbn [seq map flat_map].
  destruct (Nat.lt_ge_cases i step) as [L|L].
  - rewrite app_nth1 by (rewrite repeat_length; auto). rewrite Nat.div_small, Nat.add_0_r by auto.
    apply nth_repeat_in. auto.
  - rewrite app_nth2 by (rewrite repeat_length; auto). rewrite repeat_length, IHn by lia. f_equal.
    replace i with ((i - step) + 1 * step)%nat at 2 by lia. rewrite Nat.div_add by lia. lia.
Qed.
Lemma group_label r step n k : (1 <= step)%nat -> (r < step)%nat -> (k <= r + step * n)%nat ->
  let d := map (fun j => r + step * j)%nat (seq 0 (S n)) in
  forall j, (j <= n)%nat ->
  (nth k (repeat (hd 0 d) (S (hd 0 d)) ++ flat_map (fun x => repeat x step) (tl d))%nat 0 =? r + step * j)%nat =
  ((r + step * j <? k + step) && (k <=? r + step * j))%nat.
Proof.
  intros Hs Hr Hk d j Hj. unfold d. cbn [seq map hd tl]. rewrite Nat.mul_0_r, Nat.add_0_r.
  destruct (Nat.le_gt_cases k r) as [L|L].
  - rewrite app_nth1 by (rewrite repeat_length; lia). rewrite (nth_repeat_in r) by lia.
    apply eq_true_iff_eq. rewrite andb_true_iff, Nat.eqb_eq, Nat.ltb_lt, Nat.leb_le. destruct j; nia.
  - rewrite app_nth2 by (rewrite repeat_length; lia). rewrite repeat_length, nth_flat_repeat by nia.
    pose proof (Nat.div_mod (k - S r) step ltac:(lia)) as D. pose proof (Nat.mod_upper_bound (k - S r) step ltac:(lia)) as B.
    set (p := ((k - S r) / step)%nat) in *. set (q := ((k - S r) mod step)%nat) in *. clearbody p q.
    apply eq_true_iff_eq. rewrite andb_true_iff, Nat.eqb_eq, Nat.ltb_lt, Nat.leb_le.
    destruct (Nat.lt_trichotomy j (1 + p)) as [X|[X|X]]; [|subst j|]; nia.
Qed.
