(** Consequences of a change of grain: totals, increments, accumulation. *)
From Verif Require Import Num NumFacts Arr Tri ArrFacts Spec TriFacts ConvFacts SliceFacts P_Core P_Filter UnionFacts SpecView P_View P_ViewFull SpecGrain P_Grain P_Grain2 P_Grain3 P_Grain4.
From Coq Require Import Lia ZArith List Arith Psatz Sorted.
Import ListNotations.
Local Open Scope Z_scope.

Lemma months_pos g : 1 <= grain_months g.
Proof. destruct g; cbn; lia. Qed.

Lemma window_split t i c o lo mid hi : lo <= mid -> mid <= hi -> window t i c o lo hi = (window t i c o lo mid + window t i c o mid hi)%Qc.
Proof.
  intros A B. unfold window. rewrite <- sumn_plus. apply sumn_ext. intros d Hd.
  destruct (Z.ltb_spec lo (month_of t o d)), (Z.leb_spec (month_of t o d) hi), (Z.leb_spec (month_of t o d) mid), (Z.ltb_spec mid (month_of t o d));
    cbn [andb]; try lia; ring.
Qed.
Lemma block_split t i c s g lo mid hi : lo <= mid -> mid <= hi -> block t i c s g lo hi = (block t i c s g lo mid + block t i c s g mid hi)%Qc.
Proof.
  intros A B. unfold block. rewrite <- sumn_plus. apply sumn_ext. intros o Ho. destruct (_ && _)%bool; [|ring]. apply window_split; auto.
Qed.
Lemma block_empty t i c s g lo : block t i c s g lo lo = 0%Qc.
Proof.
  unfold block. apply sumn_zero. intros o Ho. destruct (_ && _)%bool; auto. unfold window. apply sumn_zero. intros d Hd.
  destruct (Z.ltb_spec lo (month_of t o d)), (Z.leb_spec (month_of t o d) lo); cbn [andb]; auto. lia.
Qed.
Lemma window_empty t i c o lo : window t i c o lo lo = 0%Qc.
Proof.
  unfold window. apply sumn_zero. intros d Hd.
  destruct (Z.ltb_spec lo (month_of t o d)), (Z.leb_spec (month_of t o d) lo); cbn [andb]; auto. lia.
Qed.

Lemma between (G a b : Z) : 1 <= G -> G * a - G < G * b -> G * b < G * a -> False.
Proof. intros. assert (a - 1 < b) by nia. assert (b < a) by nia. lia. Qed.

Lemma increments_in t u og dg c0 i c p v (J : nat) : regrained t u og dg c0 -> is_cumulative t <> Some true ->
  (i < ax0 (values t))%nat -> (c < ax1 (values t))%nat -> (p < ax2 (values u))%nat -> kept_valuation t dg v ->
  window u i c p (v - grain_months dg * Z.of_nat J) v =
  block t i c (nth p (odims u) 0) (grain_months og) (v - grain_months dg * Z.of_nat J) v.
Proof.
  intros R Hc Hi Hcc Hp (j & Hv). pose proof (months_pos dg) as HG. induction J as [|J IH].
  - rewrite Z.mul_0_r, Z.sub_0_r, window_empty, block_empty. reflexivity.
  - set (v' := v - grain_months dg * Z.of_nat J) in *.
    assert (Ev : v - grain_months dg * Z.of_nat (S J) = v' - grain_months dg) by (unfold v'; rewrite Nat2Z.inj_succ; ring).
    rewrite Ev. assert (v' <= v) by (unfold v'; nia).
    rewrite (window_split u i c p _ v' v), (block_split t _ _ _ _ _ v' v) by lia. rewrite IH. f_equal.
    assert (Kv : kept_valuation t dg v') by (exists (j + J)%nat; unfold v'; rewrite Hv, Nat2Z.inj_add; ring).
    pose proof (rg_amount _ _ _ _ _ R i c p v' Hi Hcc Hp Kv) as A.
    replace (match is_cumulative t with Some true => v' - 1 | _ => v' - grain_months dg end) with (v' - grain_months dg) in A
      by (destruct (is_cumulative t) as [[|]|]; congruence).
    rewrite <- A. unfold window. apply sumn_ext. intros d Hd.
    assert (X : month_of u p d <= v' -> v' - grain_months dg < month_of u p d -> v' - 1 < month_of u p d).
    { intros A1 A2. destruct (rg_kept _ _ _ _ _ R p d Hp Hd) as [(j' & E)|F].
      - destruct (Z.eq_dec (month_of u p d) v') as [->|N']; [lia|]. exfalso.
        apply (between (grain_months dg) (- Z.of_nat (j + J)) (- Z.of_nat j')); auto; unfold v' in *; rewrite E, Hv in *; nia.
      - unfold future in F. rewrite (rg_vd _ _ _ _ _ R) in F. destruct Kv as (? & ->). nia. }
    destruct (Z.ltb_spec (v' - grain_months dg) (month_of u p d)), (Z.ltb_spec (v' - 1) (month_of u p d)), (Z.leb_spec (month_of u p d) v');
      cbn [andb]; auto; lia.
Qed.

Lemma totals_kept t u og dg c0 i c v : regrained t u og dg c0 ->
  (i < ax0 (values t))%nat -> (c < ax1 (values t))%nat -> kept_valuation t dg v ->
  sumn (ax2 (values u)) (fun p => window u i c p (v - 1) v) =
  sumn (ax2 (values t)) (fun o => window t i c o (match is_cumulative t with Some true => v - 1 | _ => v - grain_months dg end) v).
Proof.
  intros R Hi Hc Hv. pose proof (months_pos og) as HG.
  set (lo := match is_cumulative t with Some true => v - 1 | _ => v - grain_months dg end).
  rewrite (sumn_ext (ax2 (values u)) _ (fun p => sumn (ax2 (values t)) (fun o =>
    if (nth p (odims u) 0 <=? nth o (odims t) 0) && (nth o (odims t) 0 <? nth p (odims u) 0 + grain_months og) then window t i c o lo v else 0%Qc))).
  2:{ intros p Hp. apply (rg_amount _ _ _ _ _ R); auto. }
  rewrite sumn_swap. apply sumn_ext. intros o Ho. destruct (rg_cover _ _ _ _ _ R o Ho) as (p & Hp & In).
  rewrite (sumn_single _ p); auto.
  - destruct (Z.leb_spec (nth p (odims u) 0) (nth o (odims t) 0)), (Z.ltb_spec (nth o (odims t) 0) (nth p (odims u) 0 + grain_months og)); cbn [andb]; auto; lia.
  - intros q Hq Hne.
    destruct (Z.leb_spec (nth q (odims u) 0) (nth o (odims t) 0)), (Z.ltb_spec (nth o (odims t) 0) (nth q (odims u) 0 + grain_months og)); cbn [andb]; auto.
    exfalso. rewrite (rg_odims _ _ _ _ _ R), !nth_map_seq in * by auto. apply Hne.
    assert (Z.of_nat q < Z.of_nat p + 1) by nia. assert (Z.of_nat p < Z.of_nat q + 1) by nia. lia.
Qed.

Lemma regular_grid_month t o0 a0 h m dl o d : regular t o0 a0 h m dl -> (o < ax2 (values t))%nat -> (d < ax3 (values t))%nat ->
  month_of t o d = o0 + a0 - 1 + Z.of_nat (h * (d + m * o)).
Proof.
  intros (_ & _ & Eo & Ed & H9 & _) Ho Hd. unfold month_of. rewrite Eo, Ed, !nth_map_seq by auto. unfold age_month.
  destruct (Z.eqb_spec (a0 + Z.of_nat (h * d)) 9999) as [E|E]; [exfalso; apply (H9 d); auto|].
  rewrite Nat.mul_add_distr_l, Nat.mul_assoc. lia.
Qed.

(** Coarsening the increments and adding them up is coarsening the running totals. *)
Lemma accumulate_commutes s x u o0 a0 h m dl og dg c0 i c p v (J : nat) : wf s -> regular s o0 a0 h m dl ->
  is_pattern s = false -> is_cumulative s <> Some true -> (Z.of_nat h | grain_months dg) ->
  regrained s x og dg c0 -> regrained (incr_to_cum s) u og dg c0 ->
  (i < ax0 (values s))%nat -> (c < ax1 (values s))%nat -> (p < ax2 (values u))%nat -> (p < ax2 (values x))%nat -> kept_valuation s dg v ->
  v - grain_months dg * Z.of_nat J < month_of s 0 0 ->
  window u i c p (v - 1) v = window x i c p (v - grain_months dg * Z.of_nat J) v.
Proof.
  intros W Rg Hp Hcu (q & Hq) Rx Ru Hi Hc Hpu Hpx Kv HJ.
  destruct (incr_to_cum_frame s Hp Hcu) as (Sf & Cu & Pu). set (t := incr_to_cum s) in *.
  pose proof (wf_o1 _ W) as W2. pose proof (wf_d1 _ W) as W3.
  rewrite (increments_in s x og dg c0) by auto.
  rewrite (rg_amount _ _ _ _ _ Ru); [|rewrite (sf_0 _ _ Sf); auto|rewrite (sf_1 _ _ Sf); auto|auto|].
  2:{ destruct Kv as (j & Kv). exists j. rewrite (sf_vd _ _ Sf). auto. }
  rewrite Cu, (rg_odims _ _ _ _ _ Ru), (rg_odims _ _ _ _ _ Rx), !nth_map_seq by auto.
  unfold block. rewrite (sf_2 _ _ Sf), (sf_o _ _ Sf). apply sumn_ext. intros o Ho. destruct (_ && _)%bool; auto.
  assert (Mt : forall d, month_of t o d = month_of s o d) by (intros d; unfold month_of; rewrite (sf_o _ _ Sf), (sf_d _ _ Sf); reflexivity).
  pose proof (regular_grid_month s o0 a0 h m dl) as Gm.
  rewrite (Gm 0%nat 0%nat Rg) in HJ by lia.
  pose proof Rg as (Hh & Hm & Eo & Ed & H9 & Evd & Hdl). destruct Kv as (j & Kv).
  set (lo := v - grain_months dg * Z.of_nat J) in *.
  unfold window at 1. rewrite (sf_3 _ _ Sf).
  rewrite (sumn_ext _ _ (fun d => if (v - 1 <? month_of s o d) && (month_of s o d <=? v) then amount t i c o d else 0%Qc)) by (intros d Hd; rewrite Mt; reflexivity).
  destruct (Z.lt_ge_cases v (month_of s o 0)) as [Hv|Hv].
  - unfold window. rewrite !sumn_zero; auto; intros d Hd; pose proof (month_mono s o 0 d W Ho ltac:(lia)); rewrite andb_comm; destruct (Z.leb_spec (month_of s o d) v); cbn [andb]; auto; lia.
  - rewrite Gm in Hv by (auto; lia).
    assert (Ex : exists d, (d < ax3 (values s))%nat /\ month_of s o d = v).
    { assert (K : (o <= ax2 (values s) - 1)%nat) by lia.
      assert (HN : (m * o <= m * (ax2 (values s) - 1))%nat) by (apply Nat.mul_le_mono_l; lia).
      set (T := (dl + m * (ax2 (values s) - 1))%nat) in *.
      assert (Evd' : vdate s = o0 + a0 - 1 + Z.of_nat (h * T)) by (rewrite Evd; unfold T; rewrite Nat.mul_add_distr_l, Nat.mul_assoc; lia).
      assert (Hv2 : v = o0 + a0 - 1 + Z.of_nat h * (Z.of_nat T - q * Z.of_nat j)) by (rewrite Kv, Evd', Hq, Nat2Z.inj_mul; ring).
      rewrite Hv2, !Nat2Z.inj_mul, Nat.add_0_l, Nat2Z.inj_mul in Hv.
      assert (B1 : Z.of_nat (m * o) <= Z.of_nat T - q * Z.of_nat j) by (rewrite Nat2Z.inj_mul; nia).
      assert (B2 : 0 <= q * Z.of_nat j) by (pose proof (months_pos dg); nia).
      exists (Z.to_nat (Z.of_nat T - q * Z.of_nat j) - m * o)%nat. split; [lia|].
      rewrite Gm by (auto; lia). rewrite Hv2, Nat2Z.inj_mul. f_equal. f_equal. lia. }
    destruct Ex as (d & Hd & Em).
    rewrite (sumn_single _ d); auto.
    + rewrite Em. replace (v - 1 <? v) with true by (symmetry; apply Z.ltb_lt; lia). rewrite Z.leb_refl. cbn [andb].
      unfold amount at 1. subst t. rewrite incr_to_cum_cell by auto. rewrite Em.
      assert (Vd : v <= vdate s) by (pose proof (months_pos dg); rewrite Kv; nia).
      replace (vdate s <? v) with false by (symmetry; apply Z.ltb_ge; lia). cbn [negb]. rewrite orb_true_r, nz_n2n. cbn [nz].
      unfold window. replace (ax3 (values s)) with (S d + (ax3 (values s) - S d))%nat at 1 by lia. rewrite sumn_app.
      rewrite (sumn_zero (ax3 (values s) - S d)).
      2:{ intros k Hk. pose proof (month_strict s o d (S d + k) W Ho ltac:(lia)). rewrite andb_comm.
          destruct (Z.leb_spec (month_of s o (S d + k)) v); cbn [andb]; auto. lia. }
      rewrite <- (Qcplus_0_r (sumn (S d) _)) at 1. f_equal. apply sumn_ext. intros k Hk.
      assert (month_of s o k <= v) by (rewrite <- Em; apply (month_mono s); auto; lia).
      assert (lo < month_of s o k) by (rewrite Gm by (auto; lia); lia).
      destruct (Z.ltb_spec lo (month_of s o k)), (Z.leb_spec (month_of s o k) v); cbn [andb]; auto; lia.
    + intros e He Hne. destruct (Z.ltb_spec (v - 1) (month_of s o e)), (Z.leb_spec (month_of s o e) v); cbn [andb]; auto.
      exfalso. apply Hne. apply (wf_distinct s W o e d); auto. lia.
Qed.
