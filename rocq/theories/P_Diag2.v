(** Proofs about the summary of a fitted method: sums over development and the amounts since a date. *)
From Coq Require Import Lia.
From Verif Require Import P_Core P_Corr5 P_Dropna LabelFacts UnionFacts P_Align P_Diag1.
From Verif Require Import P_Agg P_Select2 P_Select3 P_FullTri P_Filter SliceFacts TriFacts CatFacts SpecSelect SpecDiag.
Local Open Scope nat_scope.

Lemma sum_side t u : wf u -> vdims u = vdims t -> ax0 (values u) = ax0 (values t) -> ax1 (values u) = ax1 (values t) -> ax2 (values u) = ax2 (values t) ->
  2 <= ax2 (values u) -> 2 <= ax3 (values u) ->
  diag_sum u = Ok (agg_axis ASum u AxDev) /\ alike t (agg_axis ASum u AxDev) /\ ddims (agg_axis ASum u AxDev) = Vals [vdate u] /\
  forall i c o, nz (cel (agg_axis ASum u AxDev) i c o 0) = sumn (ax3 (values u)) (fun d => amount u i c o d).
Proof.
  intros W Ev E0 E1 E2 H2 H3. pose proof (agg_frame_ok ASum u AxDev) as F. destruct F. pose proof (wf_d _ W) as Wd.
  destruct (Nat.ltb_spec 1 (List.length (dlist (ddims u)))); [|lia].
  split; [|split; [|split]].
  - unfold diag_sum. rewrite aggregate_no_number; [reflexivity|split; discriminate|lia].
  - constructor; try congruence. destruct W. constructor; rewrite ?af_0, ?af_1, ?af_2, ?af_3, ?af_k, ?af_v, ?af_o, ?af_d, ?af_vd; auto; cbn [dlist List.length].
    + repeat constructor.
    + intros v [<-|[]]. auto.
  - auto.
  - intros i c o. change (nz (cel ?x ?i ?c ?o 0)) with (amount x i c o 0). rewrite agg_sum_amount. reflexivity.
Qed.

Lemma sumn_one_at n k f : k < n -> (forall d, d < n -> d <> k -> f d = 0%Qc) -> sumn n f = f k.
Proof.
  induction n as [|n IH]; intros Hk H; [lia|]. cbn [sumn]. destruct (Nat.eq_dec k n) as [->|].
  - replace (sumn n f) with 0%Qc; [ring|]. clear IH Hk. symmetry.
    assert (X : forall m, m <= n -> sumn m f = 0%Qc) by (induction m; intros Hm; cbn [sumn]; [reflexivity|]; rewrite IHm, (H m) by lia; ring). apply X; auto.
  - rewrite IH; [|lia|intros; apply H; lia]. rewrite (H n) by lia. ring.
Qed.

Section Since.
Variables (t : tri) (n : nat) (o0 a0 : Z).
Hypothesis W : wf t.
Hypothesis Bt : blank_future t.
Hypothesis U : uniq_labels t.
Hypothesis A0 : 1 <= ax0 (values t).
Hypothesis A1 : 1 <= ax1 (values t).
Hypothesis Q : square t n o0 a0 12.
Hypothesis N3 : 3 <= n.
Variable cut : Z.
Hypothesis C1 : (vdate t - 12 < cut <= vdate t)%Z.
Local Notation key := (fun o d => (valuation t o d <? cut)%Z).

Lemma key_spec o d : o < n -> d < n -> key o d = (o + d <? n - 1).
Proof.
  intros Ho Hd. pose proof Q as (_ & E2 & E3). cbv beta. rewrite valuation_month by (auto; lia). rewrite (square_month _ _ _ _ _ _ _ Q) by auto.
  pose proof (square_vdate _ _ _ _ _ Q) as V. destruct (Nat.ltb_spec (o + d) (n - 1)), (Z.ltb_spec (o0 + a0 - 1 + Z.of_nat 12 * Z.of_nat (o + d)) cut); auto; exfalso; lia.
Qed.
Lemma kept_rows_spec : kept_rows t key = seq 0 (n - 1).
Proof.
  pose proof Q as (_ & E2 & E3). unfold kept_rows. rewrite E2, E3. apply filter_block; [lia|]. intros k Hk.
  destruct (existsb (fun d => key k d) (seq 0 n)) eqn:E; symmetry.
  - apply existsb_exists in E. destruct E as (d & Hd & K). apply in_seq in Hd. rewrite key_spec in K by lia. apply Nat.ltb_lt in K. apply andb_true_intro. split; [apply Nat.leb_le|apply Nat.ltb_lt]; lia.
  - destruct (Nat.ltb_spec k (0 + (n - 1))); [|apply Bool.andb_false_r]. exfalso. assert (existsb (fun d => key k d) (seq 0 n) = true); [|cbv beta in *; congruence].
    apply existsb_exists. exists 0. split; [apply in_seq; lia|]. rewrite key_spec by lia. apply Nat.ltb_lt. lia.
Qed.
Lemma kept_cols_spec : kept_cols t key = seq 0 (n - 1).
Proof.
  pose proof Q as (_ & E2 & E3). unfold kept_cols. rewrite E2, E3. apply filter_block; [lia|]. intros k Hk.
  destruct (existsb (fun o => key o k) (seq 0 n)) eqn:E; symmetry.
  - apply existsb_exists in E. destruct E as (d & Hd & K). apply in_seq in Hd. rewrite key_spec in K by lia. apply Nat.ltb_lt in K. apply andb_true_intro. split; [apply Nat.leb_le|apply Nat.ltb_lt]; lia.
  - destruct (Nat.ltb_spec k (0 + (n - 1))); [|apply Bool.andb_false_r]. exfalso. assert (existsb (fun o => key o k) (seq 0 n) = true); [|cbv beta in *; congruence].
    apply existsb_exists. exists 0. split; [apply in_seq; lia|]. rewrite key_spec by lia. apply Nat.ltb_lt. lia.
Qed.

Lemma since_diff : exists s x, getitem_valuation t key = Ok s /\ tri_op OSub t s = Ok x /\ wf x /\ vdims x = vdims t /\ vdate x = vdate t /\
  ax0 (values x) = ax0 (values t) /\ ax1 (values x) = ax1 (values t) /\ ax2 (values x) = n /\ ax3 (values x) = n /\
  forall i c o d, i < ax0 (values t) -> c < ax1 (values t) -> o < n -> d < n -> amount x i c o d = (if o + d =? n - 1 then amount t i c o d else 0)%Qc.
Proof.
  pose proof Q as (R & E2 & E3). pose proof R as (_ & _ & Eo & Ed & N9 & _).
  destruct (getitem_valuation_ok t key W) as (s & Es & S); [lia| | | |].
  { exists 0, 0. split; [lia|]. split; [lia|]. rewrite key_spec by lia. apply Nat.ltb_lt. lia. }
  { apply (evenly_interval _ _ 0 (n - 1)). intros x Hx. split.
    - intros (d & Hd & K). rewrite key_spec in K by lia. apply Nat.ltb_lt in K. lia.
    - intros L. exists 0. split; [lia|]. rewrite key_spec by lia. apply Nat.ltb_lt. lia. }
  { apply (evenly_interval _ _ 0 (n - 1)). intros x Hx. split.
    - intros (d & Hd & K). rewrite key_spec in K by lia. apply Nat.ltb_lt in K. lia.
    - intros L. exists 0. split; [lia|]. rewrite key_spec by lia. apply Nat.ltb_lt. lia. }
  destruct S as [Ws Sk Skl Sv So Sd S0 S1 S2 S3 Scum Spat Sog Sdg Sc Svle Svge Svex Svub].
  rewrite kept_rows_spec in So, S2, Sc. rewrite kept_cols_spec in Sd, S3, Sc. rewrite seq_length in S2, S3, Sc.
  assert (Sc' : forall i c o d, i < ax0 (values t) -> c < ax1 (values t) -> o < n - 1 -> d < n - 1 ->
     cel s i c o d = if o + d <? n - 1 then n2n (cel t i c o d) else None).
  { intros i c o d Hi Hc Ho Hd. rewrite Sc by auto. rewrite !seq_nth by auto. cbn [Nat.add]. rewrite key_spec by lia. reflexivity. }
  set (D := dlist (ddims t)) in *.
  assert (Lo : List.length (odims t) = n) by (rewrite <- (wf_o _ W); auto).
  assert (Ld : List.length D = n) by (unfold D; rewrite <- (wf_d _ W); auto).
  assert (Ms : forall o d, o < n - 1 -> d < n - 1 -> month_of s o d = month_of t o d).
  { intros o d Ho Hd. unfold month_of. rewrite Sd, Ed. cbn [dmap]. rewrite So.
    change (sel (odims t) 0%Z (seq 0 (n - 1))) with (rng (odims t) 0 (n - 1)). rewrite rng_nth by auto.
    change (sel ?l 0%Z (seq 0 (n - 1))) with (rng l 0 (n - 1)). rewrite rng_nth by auto. reflexivity. }
  assert (Bs : blank_future s).
  { intros i c o d (Hi & Hc & Ho & Hd) Hf. rewrite S2 in Ho. rewrite S3 in Hd. rewrite S0 in Hi. rewrite S1 in Hc. rewrite Sc' by auto.
    destruct (Nat.ltb_spec (o + d) (n - 1)); auto. exfalso. unfold future in Hf. rewrite Ms in Hf by auto.
    assert (K : key o d = true) by (rewrite key_spec by lia; apply Nat.ltb_lt; lia). pose proof (Svge o d ltac:(lia) ltac:(lia) K) as G.
    apply Z.ltb_lt in K. rewrite valuation_month in K by (auto; lia). lia. }
  assert (Dd : dlist (ddims s) = rng D 0 (n - 1)) by (unfold D; rewrite Sd, Ed; reflexivity).
  assert (Oo : odims s = rng (odims t) 0 (n - 1)) by auto.
  assert (Ko : rng (odims t) 0 n = odims t) by (rewrite <- Lo; apply rng_all).
  assert (Kd : rng D 0 n = D) by (rewrite <- Ld; apply rng_all).
  assert (SO : StronglySorted Z.lt (odims t)) by apply W. assert (SD : StronglySorted Z.lt D) by apply W.
  destruct (addsub_cells OSub t s) as (x & Ex & Wx & Bx & _ & Xk & _ & Xv & Xo & _ & Xd & Xvd & Xc); auto.
  { right; reflexivity. }
  { rewrite Sd, Ed. exact I. }
  { rewrite Oo. rewrite <- Ko at 1. apply rng_ablocks; auto; try lia. }
  { fold D. rewrite Dd. rewrite <- Kd at 1. apply rng_ablocks; auto; try lia. }
  { unfold frame_fits. rewrite Ed. intros o a Hoo Haa H9. pose proof (wf_dev _ W) as Wd. rewrite Ed in Wd. destruct Wd as (_ & _ & Wd). apply Wd; auto.
    - destruct Hoo as [H|H]; auto. rewrite Oo in H. apply rng_In in H. destruct H as (k & Hk & <-). apply nth_In. lia.
    - rewrite <- Ed in Haa. assert (In a D); [|unfold D in *; rewrite Ed in *; auto]. destruct Haa as [H|H]; [unfold D; rewrite Ed in *; auto|]. rewrite Dd in H. apply rng_In in H. destruct H as (k & Hk & <-). apply nth_In. lia. }
  { intros (H & _). apply (f_equal (@List.length Z)) in H. rewrite Oo, rng_length in H. lia. }
  assert (Zo : zunion (odims t) (odims s) = odims t).
  { rewrite Oo. rewrite <- Ko at 1. apply rng_union; auto; lia. }
  assert (Zd : zunion D (dlist (ddims s)) = D).
  { rewrite Dd. rewrite <- Kd at 1. apply rng_union; auto; lia. }
  fold D in Xd, Xc. rewrite Zd in Xd. rewrite Zo in Xo. rewrite Xo, Xd in Xc.
  assert (X0 : ax0 (values x) = ax0 (values t)) by (rewrite (wf_k _ Wx), (wf_k _ W), Xk; reflexivity).
  assert (X1 : ax1 (values x) = ax1 (values t)) by (rewrite (wf_v _ Wx), (wf_v _ W), Xv; reflexivity).
  assert (X2 : ax2 (values x) = n) by (rewrite (wf_o _ Wx), Xo; auto).
  assert (X3 : ax3 (values x) = n) by (rewrite (wf_d _ Wx), Xd; auto).
  exists s, x. do 8 (split; [auto; try lia|]).
  split; [auto; try lia|]. intros i c o d Hi Hc Ho Hd.
  assert (Rx : in_range x i c o d) by (unfold in_range; lia). pose proof (Xc i c o d Rx) as St. apply stores_nz in St. unfold amount at 1. rewrite St. clear St.
  rewrite Oo, Dd.
  assert (P1 : forall f, pick Z.eq_dec (odims t) (nth o (odims t) 0%Z) 0%Z f = f o).
  { intros f. rewrite <- Ko at 1. rewrite rng_pick by (auto; lia). destruct (Nat.leb_spec 0 o), (Nat.ltb_spec o (0 + n)); try lia. cbn [andb]. f_equal. lia. }
  assert (P2 : forall f, pick Z.eq_dec D (nth d D 0%Z) 0%Z f = f d).
  { intros f. rewrite <- Kd at 1. rewrite rng_pick by (auto; lia). destruct (Nat.leb_spec 0 d), (Nat.ltb_spec d (0 + n)); try lia. cbn [andb]. f_equal. lia. }
  rewrite P1, P2. rewrite !rng_pick by (auto; lia). cbn [qop].
  assert (Ff : n - 1 < o + d -> amount t i c o d = 0%Qc).
  { intros L. unfold amount. rewrite Bt; [reflexivity|unfold in_range; lia|apply (square_future t n o0 a0 12); auto]. }
  cbn [Nat.add]. destruct (Nat.eqb_spec (o + d) (n - 1)) as [E|E].
  - destruct (Nat.leb_spec 0 o), (Nat.ltb_spec o (n - 1)); cbn [andb]; try ring; try lia.
    destruct (Nat.leb_spec 0 d), (Nat.ltb_spec d (n - 1)); cbn [andb]; try ring; try lia.
    unfold amount at 2. rewrite !Nat.sub_0_r, Sc' by auto. destruct (Nat.ltb_spec (o + d) (n - 1)); [lia|]. cbn [nz]. ring.
  - destruct (Nat.lt_ge_cases (n - 1) (o + d)) as [L|L].
    + rewrite Ff by auto. destruct (Nat.leb_spec 0 o), (Nat.ltb_spec o (n - 1)); cbn [andb]; try ring; try lia.
      destruct (Nat.leb_spec 0 d), (Nat.ltb_spec d (n - 1)); cbn [andb]; try ring; try lia.
      unfold amount. rewrite !Nat.sub_0_r, Sc' by auto. destruct (Nat.ltb_spec (o + d) (n - 1)); [lia|]. cbn [nz]. ring.
    + destruct (Nat.leb_spec 0 o), (Nat.ltb_spec o (n - 1)); cbn [andb]; try lia.
      destruct (Nat.leb_spec 0 d), (Nat.ltb_spec d (n - 1)); cbn [andb]; try lia.
      unfold amount. rewrite !Nat.sub_0_r, Sc' by auto. destruct (Nat.ltb_spec (o + d) (n - 1)); [|lia]. rewrite nz_n2n. ring.
Qed.

Lemma since_ok c : c < ax1 (values t) -> exists w f, diag_since t cut (nth c (vdims t) EmptyString) = Ok w /\ one_col t w f /\
  forall i o, i < ax0 (values t) -> o < ax2 (values t) -> nz (f i o) = amount t i c o (n - 1 - o).
Proof.
  intros Hc. pose proof Q as (_ & E2 & E3). destruct since_diff as (s & x & Es & Ex & Wx & Xv & Xvd & X0 & X1 & X2 & X3 & Xc).
  unfold diag_since. rewrite Es. cbn [rbind]. rewrite Ex. cbn [rbind].
  destruct (sum_side t x) as (Ey & Sy & _ & Cy); auto; try lia. rewrite Ey. cbn [rbind].
  destruct (side_col t W A0 A1 (proj2 U) _ c Sy Hc) as (w & Ew & _ & O). rewrite Ew. eexists. eexists. split; [reflexivity|]. split; [exact O|].
  intros i o Hi Ho. cbv beta. rewrite Cy, X3. rewrite (sumn_one_at n (n - 1 - o)).
  - rewrite Xc by lia. destruct (Nat.eqb_spec (o + (n - 1 - o)) (n - 1)); [reflexivity|lia].
  - lia.
  - intros d Hd Hne. rewrite Xc by lia. destruct (Nat.eqb_spec (o + d) (n - 1)); [lia|reflexivity].
Qed.
End Since.
