(** Proofs about the incremental additive method: increments and development factors. *)
From Coq Require Import Lia.
From Verif Require Import Spec TriFacts ArrFacts ConvFacts SliceFacts BcastFacts DevFacts P_Core P_Filter P_Arith P_Corr5 P_Additive P_Additive2 NumFacts SpecAdditive.
Local Open Scope nat_scope.

Lemma cum_frame obj n : wf obj -> (forall o d, o < n -> d < n -> (month_of obj o d <= vdate obj)%Z) -> is_pattern obj = false -> is_cumulative obj = Some false -> ax2 (values obj) = n -> ax3 (values obj) = n -> 2 <= n ->
  exists l, link_ratio (incr_to_cum obj) = Ok l /\ ax0 (values l) = ax0 (values obj) /\ ax1 (values l) = ax1 (values obj) /\ ax2 (values l) = n /\ ax3 (values l) = n - 1 /\
    kdims l = kdims obj /\ vdims l = vdims obj /\ odims l = odims obj /\
    forall i c o d, i < ax0 (values obj) -> c < ax1 (values obj) -> o < n -> d < n - 1 ->
      age_to_age (Some (sumn (S d) (fun k => amount obj i c o k))) (Some (sumn (S (S d)) (fun k => amount obj i c o k))) (cel l i c o d).
Proof.
  intros W Fu Hp Hc E2 E3 Hn. assert (Hc' : is_cumulative obj <> Some true) by congruence.
  destruct (incr_to_cum_frame obj Hp Hc') as (F & Cu & Pa). set (u := incr_to_cum obj) in *.
  assert (Wu : wf u) by exact (wf_same_frame _ _ W F).
  assert (Mu : forall o d, month_of u o d = month_of obj o d) by (intros; unfold month_of; rewrite (sf_o _ _ F), (sf_d _ _ F); reflexivity).
  assert (Nf : forall o d, o < n -> d < n -> ~ future u o d).
  { intros o d Ho Hd X. unfold future in X. rewrite Mu, (sf_vd _ _ F) in X. specialize (Fu o d Ho Hd). lia. }
  assert (B : blank_future u). { intros i c o d (Ri & Rc & Ro & Rd) X. exfalso. rewrite (sf_2 _ _ F) in Ro. rewrite (sf_3 _ _ F) in Rd. apply (Nf o d); auto; lia. }
  assert (Ex : exists o d, o < ax2 (values u) /\ S d < ax3 (values u) /\ (month_of u o (S d) <= vdate u)%Z).
  { exists 0, 0. rewrite (sf_2 _ _ F), (sf_3 _ _ F). split; [lia|]. split; [lia|]. specialize (Nf 0 1 ltac:(lia) ltac:(lia)). unfold future in Nf. lia. }
  destruct (link_ratio_ok u Wu B Pa Ex) as (l & no & nd & El & K & V & Eo & Ed & Hno & Hnd & D0 & D1 & D2 & D3 & Pt & Cells & Out).
  rewrite (sf_2 _ _ F), E2 in *. rewrite (sf_3 _ _ F), E3 in *.
  assert (N1 : nd = n - 1). { destruct (Nat.ltb_spec (n - 2) nd); [lia|]. exfalso. apply (Nf 0 (S (n - 2))); try lia. apply Out; lia. }
  assert (N2 : no = n). { destruct (Nat.ltb_spec (n - 1) no); [lia|]. exfalso. apply (Nf (n - 1) 1); try lia. apply Out; lia. }
  exists l. split; [exact El|]. rewrite D0, D1, (sf_0 _ _ F), (sf_1 _ _ F). split; [auto|]. split; [auto|]. split; [lia|]. split; [lia|].
  split; [rewrite K; apply F|]. split; [rewrite V; apply F|]. split; [rewrite Eo, N2, (sf_o _ _ F); apply firstn_all2; rewrite <- (wf_o _ W); lia|].
  intros i c o d Hi Hc2 Ho Hd. specialize (Cells i c o d). assert (Rg : in_range l i c o d) by (unfold in_range; rewrite D0, D1, D2, D3, (sf_0 _ _ F), (sf_1 _ _ F); repeat split; auto; lia).
  specialize (Cells Rg). unfold u in Cells. rewrite !incr_to_cum_cell in Cells by (auto; lia).
  assert (Fs : forall d, d < n -> ((Nat.min (ax2 (values obj)) (ax3 (values obj)) =? 1) || negb (vdate obj <? month_of obj o d)%Z) = true).
  { intros k Hk. specialize (Fu o k Ho Hk). destruct (Z.ltb_spec (vdate obj) (month_of obj o k)); [lia|]. apply orb_true_r. }
  rewrite !Fs in Cells by lia. destruct Cells as (C1 & C2). rewrite !nz_n2n in C1, C2. split; auto.
Qed.

(** The accumulated loss rates are the projected amounts over the exposure. *)
Lemma accumulated t n (z : nat -> Qc) E i c o (f : nat -> Qc) : E i c o <> 0%Qc -> o < n -> (forall k, k < n -> f k = if (o + k <? n)%nat then (increment t i c o k / E i c o)%Qc else z k) ->
  forall d, d < n -> sumn (S d) f = (projected z t n E i c o d / E i c o)%Qc.
Proof.
  intros Ne Ho Hf. induction d as [|d IH]; intros Hd.
  - cbn [sumn]. rewrite Hf by auto. unfold projected. rewrite Nat.min_0_l. cbn [sumn]. rewrite Nat.add_0_r. destruct (Nat.ltb_spec o n); [|lia]. destruct (Nat.leb_spec n o); [lia|].
    cbn [increment]. unfold Qcdiv. ring.
  - change (sumn (S (S d)) f) with (sumn (S d) f + f (S d))%Qc. rewrite IH by lia. rewrite Hf by auto. unfold projected.
    change (sumn (S (S d)) ?g) with (sumn (S d) g + g (S d))%Qc. set (s := sumn (S d) _). cbv beta. destruct (Nat.ltb_spec (o + S d) n) as [L|L]; destruct (Nat.leb_spec n (o + S d)) as [L'|L']; try lia.
    + rewrite !Nat.min_l by lia. cbn [increment]. field. auto.
    + destruct (Nat.eq_dec d (n - 1 - o)) as [->|].
      * rewrite Nat.min_id, Nat.min_r by lia. field. auto.
      * rewrite !Nat.min_r by lia. field. auto.
Qed.

Lemma zeta_param t avg pw rate n E i c (H : forall d, d < n -> param_at t avg d <> None) :
  exists z, forall d a, d < n -> param_at t avg d = Some a -> z d = loss_rate pw rate a t n E i c d.
Proof.
  exists (fun d => match param_at t avg d with Some a => loss_rate pw rate a t n E i c d | None => 0%Qc end). intros d a _ ->. reflexivity.
Qed.

(** ** The results *)
Record additive_result (pw : Qc -> Z -> Qc) (rate : Qc) (future : option Qc) (t : tri) (n : nat) (E : nat -> nat -> nat -> Qc) (avg : per_age average) (r : additive) : Prop := {
  ar_zeta : dims (ad_zeta r) (ax0 (values t)) (ax1 (values t)) 1 n;
  ar_z : forall i c d a, i < ax0 (values t) -> c < ax1 (values t) -> d < n -> param_at t avg d = Some a ->
    stores (av (ad_zeta r) i c 0 d) (loss_rate pw rate a t n E i c d);
  ar_frame : kdims (ad_incremental r) = kdims t /\ vdims (ad_incremental r) = vdims t /\ odims (ad_incremental r) = odims t /\ ddims (ad_incremental r) = ddims t /\
    dims (values (ad_incremental r)) (ax0 (values t)) (ax1 (values t)) n n;
  ar_vdate : vdate (ad_incremental r) = month_of t (n - 1) (n - 1);
  ar_known : forall i c o d a, i < ax0 (values t) -> c < ax1 (values t) -> o < n -> d < n -> param_at t avg d = Some a -> loss_rate pw rate a t n E i c d <> 0%Qc -> o + d < n ->
    cel (ad_incremental r) i c o d = Some (increment t i c o d);
  ar_future : forall i c o d a, i < ax0 (values t) -> c < ax1 (values t) -> o < n -> d < n -> param_at t avg d = Some a -> loss_rate pw rate a t n E i c d <> 0%Qc -> n <= o + d -> (0 < 1 + future_rate rate future)%Qc ->
    cel (ad_incremental r) i c o d = Some (E i c o * loss_rate pw rate a t n E i c d * pw (1 + future_rate rate future) (month_of t o d - vdate t)%Z)%Qc;
  ar_missing : forall i c o d a, i < ax0 (values t) -> c < ax1 (values t) -> o < n -> d < n -> param_at t avg d = Some a -> loss_rate pw rate a t n E i c d = 0%Qc ->
    cel (ad_incremental r) i c o d = None;
  ar_ldf_frame : dims (values (ad_ldf r)) (ax0 (values t)) (ax1 (values t)) n (n - 1);
  ar_ldf : forall i c o d z, i < ax0 (values t) -> c < ax1 (values t) -> o < n -> d < n - 1 ->
    (forall d a, d < n -> param_at t avg d = Some a -> z d = loss_rate pw rate a t n E i c d) -> (forall d, d < n -> z d <> 0%Qc) ->
    age_to_age (Some (projected z t n E i c o d)) (Some (projected z t n E i c o (S d))) (cel (ad_ldf r) i c o d) }.

Lemma additive_result_ok pw rate fut t n e E avg : additive_input t n e E avg -> power_like pw ->
  exists r, additive_fit pw rate fut avg t (Some e) = Ok r /\ additive_result pw rate fut t n E avg r.
Proof.
  intros A P. pose proof A as [W B Hp Hc (o0 & a0 & h & Q) Hn P0 P1 Inc (X0 & X1 & X2 & X3 & Xv) Ha Hf]. pose proof Q as (R & E2 & E3).
  destruct (additive_ok pw rate fut t n e E avg A) as (r & obj & Er & Fa).
  { intros obj H1 H2 H3 H4 H5 H6. destruct (cum_frame obj n H1 H2 H3 H4 H5 H6 ltac:(lia)) as (l & El & _). eauto. }
  exists r. split; [exact Er|]. destruct Fa as [Fz Fzv Fw Ff Fm Fp Fc Fd Fo Fmi Ffr Fv Fi Fl].
  destruct Fd as (O0 & O1 & O2 & O3). destruct (cum_frame obj n Fw Ff Fp Fc O2 O3 ltac:(lia)) as (l & El & L0 & L1 & L2 & L3 & Lk & Lv & Lo & Lc).
  assert (l = ad_ldf r) by congruence. subst l.
  assert (Ex : forall i c o, i < ax0 (values t) -> c < ax1 (values t) -> o < n -> (E i c o <> 0)%Qc) by (intros i c o Hi Hc' Ho; apply qpos_nz, Xv; auto; lia).
  assert (Mle : forall o d, o < n -> d < n -> o + d < n -> Z.max 0 (month_of t o d - vdate t) = 0%Z).
  { intros o d Ho Hd L. rewrite (square_month _ _ _ _ _ _ _ Q Ho Hd), (square_vdate _ _ _ _ _ Q). nia. }
  assert (Mge : forall o d, o < n -> d < n -> n <= o + d -> Z.max 0 (month_of t o d - vdate t) = (month_of t o d - vdate t)%Z).
  { intros o d Ho Hd L. rewrite (square_month _ _ _ _ _ _ _ Q Ho Hd), (square_vdate _ _ _ _ _ Q). nia. }
  constructor; auto.
  - intros i c o d a Hi Hc' Ho Hd Pa Nz L. rewrite Fi, (Fo i c o d a) by auto. destruct (Nat.ltb_spec (o + d) n); [|lia]. rewrite Mle by auto. change (- 0)%Z with 0%Z. rewrite (pw_zero _ P). cbn [cmul]. f_equal. field. auto.
  - intros i c o d a Hi Hc' Ho Hd Pa Nz L Pf. rewrite Fi, (Fo i c o d a) by auto. destruct (Nat.ltb_spec (o + d) n); [lia|]. rewrite Mge by auto. rewrite (pw_inv _ P) by auto. cbn [cmul]. f_equal. ring.
  - intros i c o d a Hi Hc' Ho Hd Pa Z. rewrite Fi, (Fmi i c o d a) by auto. reflexivity.
  - unfold dims. rewrite L0, L1, L2, L3. auto.
  - intros i c o d z Hi Hc' Ho Hd Hz Nz. specialize (Lc i c o d). rewrite O0, O1 in Lc. specialize (Lc Hi Hc' Ho Hd).
    assert (Acc : forall k, k < n -> sumn (S k) (fun k => amount obj i c o k) = (projected z t n E i c o k / E i c o)%Qc).
    { apply accumulated; auto. intros k Hk. destruct (param_at t avg k) as [a|] eqn:Pa; [|exfalso; apply (Ha k); auto]. unfold amount. rewrite (Fo i c o k a) by (auto; rewrite <- (Hz k a); auto). cbn [nz].
      rewrite (Hz k a) by auto. reflexivity. }
    rewrite (Acc d ltac:(lia)), (Acc (S d) ltac:(lia)) in Lc. specialize (Ex i c o Hi Hc' Ho). set (p := projected z t n E i c o d) in *. set (q := projected z t n E i c o (S d)) in *.
    assert (Iff : forall x : Qc, (x / E i c o = 0 <-> x = 0)%Qc).
    { intros x. split; [|intros ->; unfold Qcdiv; ring]. intros H. replace x with (x / E i c o * E i c o)%Qc by (field; auto). rewrite H. ring. }
    destruct Lc as (C1 & C2). cbn [nz] in *. split; cbn [nz].
    + intros Np Nq. rewrite C1 by (rewrite Iff; auto). f_equal. field. auto.
    + intros H. apply C2. rewrite !Iff. auto.
Qed.

(** The latest amount times the remaining factors is the projected ultimate. *)
Lemma ultimate_of_factors t n (z : nat -> Qc) E i c o (l : nat -> cell) : o < n ->
  (forall d, d < n - 1 -> age_to_age (Some (projected z t n E i c o d)) (Some (projected z t n E i c o (S d))) (l d)) ->
  (forall d, n - 1 - o <= d < n -> projected z t n E i c o d <> 0%Qc) ->
  (amount t i c o (n - 1 - o) * prodn o (fun k => nz (l (n - 1 - o + k)%nat)) = amount t i c o (n - 1 - o) + E i c o * sumn o (fun k => z (n - o + k)%nat))%Qc.
Proof.
  intros Ho Hl Nz.
  assert (P0 : forall m, m <= o -> projected z t n E i c o (n - 1 - o + m) = (amount t i c o (n - 1 - o) + E i c o * sumn m (fun k => z (n - o + k)%nat))%Qc).
  { intros m Hm. unfold projected. rewrite Nat.min_r by lia. f_equal. f_equal. replace (S (n - 1 - o + m)) with ((n - o) + m) by lia. rewrite sumn_app. rewrite (sumn_zero (n - o)).
    - rewrite Qcplus_0_l. apply sumn_ext. intros k Hk. destruct (Nat.leb_spec n (o + (n - o + k))); [reflexivity|lia].
    - intros k Hk. destruct (Nat.leb_spec n (o + k)); [lia|reflexivity]. }
  assert (G : forall m, m <= o -> (amount t i c o (n - 1 - o) * prodn m (fun k => nz (l (n - 1 - o + k)%nat)) = projected z t n E i c o (n - 1 - o + m))%Qc).
  { induction m as [|m IH]; intros Hm.
    - rewrite P0 by lia. cbn [prodn sumn]. ring.
    - cbn [prodn]. rewrite Qcmult_assoc, IH by lia. destruct (Hl (n - 1 - o + m) ltac:(lia)) as (C1 & _). cbn [nz] in C1. rewrite C1 by (apply Nz; lia). cbn [nz].
      replace (n - 1 - o + S m) with (S (n - 1 - o + m)) by lia. field. apply Nz. lia. }
  rewrite G by lia. apply P0. lia.
Qed.
