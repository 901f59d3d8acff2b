(** Lemmas about grouping origins. *)
From Verif Require Import Num NumFacts Arr Tri ArrFacts Spec TriFacts ConvFacts SliceFacts P_Core P_Filter UnionFacts SpecView P_View P_ViewFull SpecGrain.
From Coq Require Import Lia ZArith List Arith Psatz Sorted.
Import ListNotations.
Local Open Scope Z_scope.

Lemma sum_match n k (f g : nat -> Qc) (R : nat -> nat -> bool) :
  (forall d, (d < n)%nat -> f d <> 0%Qc -> exists e, (e < k)%nat /\ R d e = true /\ g e = f d) ->
  (forall e, (e < k)%nat -> g e <> 0%Qc -> exists d, (d < n)%nat /\ R d e = true /\ f d = g e) ->
  (forall d e e', (d < n)%nat -> (e < k)%nat -> (e' < k)%nat -> R d e = true -> R d e' = true -> e = e') ->
  (forall d d' e, (d < n)%nat -> (d' < n)%nat -> (e < k)%nat -> R d e = true -> R d' e = true -> d = d') ->
  sumn n f = sumn k g.
Proof.
  intros H1 H2 U1 U2.
  transitivity (sumn n (fun d => sumn k (fun e => if R d e then f d else 0%Qc))).
  { apply sumn_ext. intros d Hd. destruct (Qc_eq_dec (f d) 0) as [E|E].
    - rewrite E. symmetry. apply sumn_zero. intros e He. destruct (R d e); auto.
    - destruct (H1 d Hd E) as (e & He & Re & _). rewrite (sumn_single k e); auto; [rewrite Re; auto|].
      intros e' He' Ne. destruct (R d e') eqn:E'; auto. exfalso. apply Ne. apply (U1 d); auto. }
  rewrite sumn_swap. apply sumn_ext. intros e He. symmetry.
  transitivity (sumn n (fun d => if R d e then g e else 0%Qc)).
  - destruct (Qc_eq_dec (g e) 0) as [E|E].
    + rewrite E. symmetry. apply sumn_zero. intros d Hd. destruct (R d e); auto.
    + destruct (H2 e He E) as (d & Hd & Re & _). rewrite (sumn_single n d); auto; [rewrite Re; auto|].
      intros d' Hd' Ne. destruct (R d' e) eqn:E'; auto. exfalso. apply Ne. apply (U2 d' d e); auto.
  - apply sumn_ext. intros d Hd. destruct (R d e) eqn:E; auto.
    destruct (Qc_eq_dec (f d) 0) as [Ef|Ef].
    + destruct (Qc_eq_dec (g e) 0) as [Eg|Eg]; [congruence|]. destruct (H2 e He Eg) as (d' & Hd' & Re & Eq).
      replace d with d' by (apply (U2 d' d e); auto). auto.
    + destruct (H1 d Hd Ef) as (e' & He' & Re & Eq). replace e with e' by (apply (U1 d e' e); auto). auto.
Qed.

(** Months of different columns differ. *)
Lemma month_inj t o d e : wf t -> (o < ax2 (values t))%nat -> (d < ax3 (values t))%nat -> (e < ax3 (values t))%nat ->
  month_of t o d = month_of t o e -> d = e.
Proof.
  intros W Ho Hd He E. destruct (Nat.lt_trichotomy d e) as [L|[L|L]]; auto; exfalso.
  - pose proof (month_strict t o d e W Ho (conj L He)). lia.
  - pose proof (month_strict t o e d W Ho (conj L Hd)). lia.
Qed.

Lemma amount_some t i c o d : amount t i c o d <> 0%Qc -> cel t i c o d = Some (amount t i c o d).
Proof. unfold amount. destruct (cel t i c o d); cbn; auto. congruence. Qed.

Definition distinct_months (t : tri) : Prop := forall o d e, (o < ax2 (values t))%nat -> (d < ax3 (values t))%nat -> (e < ax3 (values t))%nat ->
  month_of t o d = month_of t o e -> d = e.
Lemma wf_distinct t : wf t -> distinct_months t.
Proof. intros W o d e. apply month_inj; auto. Qed.
Lemma window_same t u i c o lo hi : distinct_months t -> distinct_months u -> same_data_by_date t u ->
  (i < ax0 (values t))%nat -> (c < ax1 (values t))%nat -> (o < ax2 (values t))%nat ->
  window u i c o lo hi = window t i c o lo hi.
Proof.
  intros W U (S & F & B) Hi Hc Ho. unfold window. symmetry.
  assert (Hi' : (i < ax0 (values u))%nat) by (rewrite (sr_0 _ _ S); auto).
  assert (Hc' : (c < ax1 (values u))%nat) by (rewrite (sr_1 _ _ S); auto).
  assert (Ho' : (o < ax2 (values u))%nat) by (rewrite (sr_2 _ _ S); auto).
  apply (sum_match _ _ _ _ (fun d e => month_of t o d =? month_of u o e)).
  - intros d Hd. destruct (_ && _)%bool eqn:E; [|congruence]. intros Hn.
    destruct (F i c o d _ ltac:(repeat split; auto) (amount_some _ _ _ _ _ Hn)) as (e & He & Me & Ce).
    exists e. rewrite Me, Z.eqb_refl, E. unfold amount at 1. rewrite Ce. auto.
  - intros e He. destruct (_ && _)%bool eqn:E; [|congruence]. intros Hn.
    destruct (B i c o e _ ltac:(repeat split; auto) (amount_some _ _ _ _ _ Hn)) as (d & Hd & Md & Cd).
    exists d. rewrite Md, Z.eqb_refl, E. unfold amount at 1. rewrite Cd. auto.
  - intros d e e' Hd He He' E1 E2. apply Z.eqb_eq in E1, E2. apply (U o); auto; congruence.
  - intros d d' e Hd He He' E1 E2. apply Z.eqb_eq in E1, E2. apply (W o); auto; congruence.
Qed.
Lemma block_same t u i c S G lo hi : distinct_months t -> distinct_months u -> same_data_by_date t u ->
  (i < ax0 (values t))%nat -> (c < ax1 (values t))%nat -> block u i c S G lo hi = block t i c S G lo hi.
Proof.
  intros W U D Hi Hc. unfold block. pose proof D as (R & _). rewrite (sr_2 _ _ R), (sr_o _ _ R). apply sumn_ext. intros o Ho.
  destruct (_ && _)%bool; auto. apply window_same; auto.
Qed.

(** ** The bins *)
Lemma div_bound a b q : 0 < b -> q * b <= a < q * b + b -> a / b = q.
Proof. intros Hb H. symmetry. apply (Z.div_unique a b q (a - q * b)); lia. Qed.

(** The coarse period index of the [k]-th old origin is [(j0 + k) / q]. *)
Lemma bins_ok close og g (q : nat) o0 : og <> GM -> (1 <= q)%nat -> grain_months og = Z.of_nat q * g -> 1 <= g ->
  (g | (o0 - (close + 1))) -> (g = 1 \/ g = 3 \/ og = GY) ->
  exists j0, (j0 < q)%nat /\ o0 = first_period close og o0 + g * Z.of_nat j0 /\
    forall k, resample_start close og o0 (o0 + g * Z.of_nat k) = first_period close og o0 + grain_months og * Z.of_nat ((j0 + k) / q).
Proof.
  intros Hog Hq EG Hg Hal Hs. set (G := grain_months og) in *. set (c0 := first_period close og o0).
  assert (X : exists x, 0 <= x < Z.of_nat q /\ o0 = c0 + g * x).
  { assert (D : (g | o0 - c0)).
    { unfold c0, first_period. destruct og; try congruence.
      - replace (o0 - (o0 - (o0 - close - 1) mod 12)) with ((o0 - close - 1) mod 12) by lia.
        replace (o0 - close - 1) with (o0 - (close + 1)) by lia.
        rewrite Zmod_eq by lia. apply Z.divide_sub_r; auto. apply Z.divide_mul_r. exists (Z.of_nat q). auto.
      - replace (o0 - (o0 - (o0 - close - 1) mod 3)) with ((o0 - close - 1) mod 3) by lia.
        replace (o0 - close - 1) with (o0 - (close + 1)) by lia.
        rewrite Zmod_eq by lia. apply Z.divide_sub_r; auto. apply Z.divide_mul_r. destruct Hs as [ -> | [ -> | Hs]]; [apply Z.divide_1_l|apply Z.divide_refl|congruence].
      - replace (o0 - (o0 - (o0 - close - 1) mod 3)) with ((o0 - close - 1) mod 3) by lia.
        replace (o0 - close - 1) with (o0 - (close + 1)) by lia.
        rewrite Zmod_eq by lia. apply Z.divide_sub_r; auto. apply Z.divide_mul_r. exists (Z.of_nat q). auto. }
    assert (B : 0 <= o0 - c0 < G).
    { unfold c0, first_period, G, grain_months. destruct og; try congruence.
      - pose proof (Z.mod_pos_bound (o0 - close - 1) 12). lia.
      - pose proof (Z.mod_pos_bound (o0 - close - 1) 3). lia.
      - pose proof (Z.mod_pos_bound (o0 - close - 1) 3). lia. }
    destruct D as (x & Ex). exists x. nia. }
  destruct X as (x & Hx & Ex). exists (Z.to_nat x).
  split; [lia|]. rewrite Z2Nat.id by lia. split; [lia|]. intros k.
  rewrite Nat2Z.inj_div, Nat2Z.inj_add, Z2Nat.id by lia.
  set (p := (x + Z.of_nat k) / Z.of_nat q).
  assert (P : Z.of_nat q * p <= x + Z.of_nat k < Z.of_nat q * p + Z.of_nat q).
  { unfold p. pose proof (Z.div_mod (x + Z.of_nat k) (Z.of_nat q)). pose proof (Z.mod_pos_bound (x + Z.of_nat k) (Z.of_nat q)). lia. }
  set (o := o0 + g * Z.of_nat k).
  assert (Ho : 0 <= o - (c0 + G * p) < G) by (unfold o; rewrite Ex, EG; nia).
  assert (MS : forall b, (b | c0 + G * p - (close + 1)) -> 0 < b -> G = b -> (o - (close + 1)) mod b = o - (c0 + G * p)).
  { intros b (y & Ey) Hb E. symmetry. apply (Z.mod_unique_pos _ _ y); lia. }
  assert (CD : forall b, 0 < b -> c0 = o0 - (o0 - close - 1) mod b -> (b | c0 - (close + 1))).
  { intros b Hb E. exists ((o0 - close - 1) / b). pose proof (Z.div_mod (o0 - close - 1) b). lia. }
  destruct og; try congruence; unfold resample_start, period_start.
  - rewrite (MS 12); [lia| |lia|reflexivity]. specialize (CD 12 ltac:(lia) eq_refl).
    replace (c0 + G * p - (close + 1)) with ((c0 - (close + 1)) + 12 * p) by (unfold G; cbn [grain_months]; lia).
    apply Z.divide_add_r; auto. exists p; lia.
  - replace (o0 - (o0 - (close + 1)) mod 3) with c0 by (unfold c0, first_period; do 2 f_equal; lia).
    unfold G in *. cbn [grain_months] in *. rewrite (div_bound (o - c0) 6 p) by lia. lia.
  - rewrite (MS 3); [lia| |lia|reflexivity]. specialize (CD 3 ltac:(lia) eq_refl).
    replace (c0 + G * p - (close + 1)) with ((c0 - (close + 1)) + 3 * p) by (unfold G; cbn [grain_months]; lia).
    apply Z.divide_add_r; auto. exists p; lia.
Qed.

Lemma starts_ok c0 G (j0 q no : nat) bins : 0 < G -> (1 <= q)%nat -> (j0 < q)%nat -> (1 <= no)%nat ->
  bins = map (fun k => c0 + G * Z.of_nat ((j0 + k) / q)) (seq 0 no) ->
  zunion bins [] = map (fun p => c0 + G * Z.of_nat p) (seq 0 (S ((j0 + no - 1) / q))).
Proof.
  intros HG Hq Hj Hn ->. apply sorted_Z_ext; [apply zunion_sorted| |].
  - assert (E : map (fun p => c0 + G * Z.of_nat p) (seq 0 (S ((j0 + no - 1) / q))) =
                map (fun p => c0 + Z.of_nat (Z.to_nat G * p)) (seq 0 (S ((j0 + no - 1) / q)))).
    { apply map_ext. intros p. nia. }
    rewrite E. apply sorted_ap. lia.
  - intros v. rewrite zunion_In, !in_map_iff. split.
    + intros [(k & <- & Hk) | [] ]. apply in_seq in Hk. exists ((j0 + k) / q)%nat. split; auto. apply in_seq.
      assert ((j0 + k) / q <= (j0 + no - 1) / q)%nat by (apply Nat.div_le_mono; lia). lia.
    + intros (p & <- & Hp). apply in_seq in Hp. left.
      assert (Hp' : (p <= (j0 + no - 1) / q)%nat) by lia. clear Hp.
      assert (Hpq : (q * p <= j0 + no - 1)%nat).
      { pose proof (Nat.mul_div_le (j0 + no - 1) q ltac:(lia)). nia. }
      exists (q * p - j0)%nat. split; [|apply in_seq; lia]. do 3 f_equal.
      destruct (Nat.le_gt_cases j0 (q * p)).
      * replace (j0 + (q * p - j0))%nat with (p * q)%nat by lia. apply Nat.div_mul. lia.
      * replace (j0 + (q * p - j0))%nat with j0 by lia. assert (p = 0)%nat by nia. subst p. apply Nat.div_small. auto.
Qed.

Lemma window_col t i c o k : wf t -> (o < ax2 (values t))%nat -> (k < ax3 (values t))%nat ->
  window t i c o (month_of t o k - 1) (month_of t o k) = amount t i c o k.
Proof.
  intros W Ho Hk. unfold window. rewrite (sumn_single _ k); auto.
  - destruct (Z.ltb_spec (month_of t o k - 1) (month_of t o k)), (Z.leb_spec (month_of t o k) (month_of t o k)); cbn; auto; lia.
  - intros d Hd Hn. destruct (Z.ltb_spec (month_of t o k - 1) (month_of t o d)), (Z.leb_spec (month_of t o d) (month_of t o k)); cbn; auto.
    exfalso. apply Hn. apply (month_inj t o); auto. lia.
Qed.

(** On the valuation view a block is a sum over columns of sums over origins. *)
Lemma block_vals t l i c S G lo hi : ddims t = Vals l ->
  block t i c S G lo hi = sumn (ax3 (values t)) (fun d => if (lo <? nth d l 0) && (nth d l 0 <=? hi) then
    sumn (ax2 (values t)) (fun o => if (S <=? nth o (odims t) 0) && (nth o (odims t) 0 <? S + G) then amount t i c o d else 0%Qc) else 0%Qc).
Proof.
  intros E. unfold block, window.
  transitivity (sumn (ax2 (values t)) (fun o => sumn (ax3 (values t)) (fun d =>
    if (lo <? nth d l 0) && (nth d l 0 <=? hi) then
      if (S <=? nth o (odims t) 0) && (nth o (odims t) 0 <? S + G) then amount t i c o d else 0%Qc else 0%Qc))).
  - apply sumn_ext. intros o Ho. destruct (_ && (nth o _ _ <? _)).
    + apply sumn_ext. intros d Hd. unfold month_of. rewrite E. auto.
    + symmetry. apply sumn_zero. intros d Hd. destruct (_ && _); auto.
  - rewrite sumn_swap. apply sumn_ext. intros d Hd. destruct (_ && _); auto. apply sumn_0.
Qed.

Lemma last_label t o0 a0 h m : val_grid t o0 a0 h m -> (1 <= ax3 (values t))%nat -> forall o d, (d < ax3 (values t))%nat ->
  month_of t o d <= month_of t o (ax3 (values t) - 1).
Proof. intros G H o d Hd. rewrite !(vgrid_month t o0 a0 h m) by (auto; lia). destruct G. nia. Qed.

Lemma sumn_nonzero n f : sumn n f <> 0%Qc -> exists k, (k < n)%nat /\ f k <> 0%Qc.
Proof.
  induction n; cbn; [congruence|]. intros H. destruct (Qc_eq_dec (f n) 0) as [E|E].
  - destruct IHn as (k & Hk & Hf); [intros X; apply H; rewrite X, E; ring|]. exists k. split; auto.
  - exists n. split; auto.
Qed.
Lemma n2n_some q : n2n (Some q) <> None -> q <> 0%Qc.
Proof. intros H ->. apply H. reflexivity. Qed.
Lemma first_period_le close g o : first_period close g o <= o.
Proof.
  unfold first_period. pose proof (Z.mod_pos_bound (o - close - 1) 12). pose proof (Z.mod_pos_bound (o - close - 1) 3).
  destruct g; lia.
Qed.

Lemma group_origins_ok w o0 a0 h m close og (q : nat) : wf w -> val_grid w o0 a0 h m -> no_future w ->
  month_of w 0 (ax3 (values w) - 1) = vdate w ->
  og <> GM -> (1 <= q)%nat -> grain_months og = Z.of_nat q * Z.of_nat (h * m) ->
  (Z.of_nat (h * m) | o0 - (close + 1)) -> (Z.of_nat (h * m) = 1 \/ Z.of_nat (h * m) = 3 \/ og = GY) ->
  let c0 := first_period close og o0 in
  exists x, group_origins close og w = Ok x /\ wf x /\
    odims x = map (fun p => c0 + grain_months og * Z.of_nat p) (seq 0 (ax2 (values x))) /\
    ddims x = ddims w /\ ax0 (values x) = ax0 (values w) /\ ax1 (values x) = ax1 (values w) /\ ax3 (values x) = ax3 (values w) /\
    kdims x = kdims w /\ key_labels x = key_labels w /\ vdims x = vdims w /\ vdate x = vdate w /\
    is_cumulative x = is_cumulative w /\ is_pattern x = is_pattern w /\ ograin x = infer_grain (odims x) /\ dgrain x = dgrain w /\
    (forall o, (o < ax2 (values w))%nat -> exists p, (p < ax2 (values x))%nat /\
       nth p (odims x) 0 <= nth o (odims w) 0 < nth p (odims x) 0 + grain_months og) /\
    (forall i c p lo hi, (p < ax2 (values x))%nat -> window x i c p lo hi = block w i c (nth p (odims x) 0) (grain_months og) lo hi) /\
    (forall i c p d, (p < ax2 (values x))%nat -> cel x i c p d <> None ->
       exists o, (o < ax2 (values w))%nat /\ nth p (odims x) 0 <= nth o (odims w) 0 < nth p (odims x) 0 + grain_months og /\ cel w i c o d <> None) /\
    (ax2 (values x) <= ax2 (values w))%nat /\
    (Z.of_nat (ax2 (values x)) - 1) * grain_months og <= o0 - c0 + Z.of_nat (h * m) * (Z.of_nat (ax2 (values w)) - 1) < Z.of_nat (ax2 (values x)) * grain_months og.
Proof.
  intros W V NF EL Hog Hq EG Hal Hs c0. pose proof V as (Hh & Hm & Eo & Ed & Gd & Go).
  pose proof (wf_o1 _ W) as W2. pose proof (wf_d1 _ W) as W3.
  set (g := Z.of_nat (h * m)) in *. assert (Hg : 1 <= g) by (unfold g; nia).
  set (G := grain_months og) in *. assert (HG : 1 <= G) by (rewrite EG; nia).
  destruct (bins_ok close og g q o0) as (j0 & Hj & Ej & Hb); auto. fold c0 in Ej, Hb. fold G in Hb.
  set (no := ax2 (values w)) in *.
  assert (Eb : map (resample_start close og (hd 0 (odims w))) (odims w) = map (fun k => c0 + G * Z.of_nat ((j0 + k) / q)) (seq 0 no)).
  { rewrite Eo at 1. rewrite hd_map_seq by auto. rewrite Eo, map_map. apply map_ext. intros k.
    rewrite Nat.mul_0_r, Z.add_0_r, Nat2Z.inj_mul. apply Hb. }
  unfold group_origins. rewrite Eb.
  set (bins := map (fun k => c0 + G * Z.of_nat ((j0 + k) / q)) (seq 0 no)).
  rewrite (starts_ok c0 G j0 q no bins) by (auto; lia).
  set (n := S ((j0 + no - 1) / q)).
  set (starts := map (fun p => c0 + G * Z.of_nat p) (seq 0 n)).
  assert (Els : List.length starts = n) by (unfold starts; rewrite map_length, seq_length; auto).
  rewrite Els. cbv zeta.
  set (s := set_grains _ _ _).
  assert (Hsort : StronglySorted Z.lt starts).
  { replace starts with (map (fun p => c0 + Z.of_nat (Z.to_nat G * p)) (seq 0 n)) by (apply map_ext; intros p; nia). apply sorted_ap. lia. }
  assert (Ws : wf s).
  { constructor; cbn [s values set_grains set_odims set_values set_dims kdims vdims odims ddims vdate ax0 ax1 ax2 ax3]; try apply W; auto.
    - unfold n; lia.
    - pose proof (wf_dev _ W) as X. rewrite Ed in *. exact X. }
  destruct (clip_vdate_ok s Ws) as (x & Ex & [Cw Ce Cl Cx Cm Cf]).
  exists x. split; auto. split; auto.
  assert (Evd : vdate x = vdate w).
  { destruct Cm as [Cm|Cm]; [exact Cm|]. apply Z.le_antisymm; [exact Cl|]. rewrite <- EL.
    replace (month_of w 0 (ax3 (values w) - 1)) with (month_of s 0 (ax3 (values w) - 1)).
    2:{ unfold month_of. change (ddims s) with (ddims w). rewrite Ed. reflexivity. }
    apply Cm; cbn; unfold n; lia. }
  assert (Av : values x = values s) by (rewrite Ce; reflexivity).
  assert (Ao : odims x = starts) by (rewrite Ce; reflexivity).
  assert (N2 : ax2 (values x) = n) by (rewrite Av; reflexivity).
  rewrite N2, Ao. split; [reflexivity|].
  split; [rewrite Ce; reflexivity|]. split; [rewrite Av; reflexivity|]. split; [rewrite Av; reflexivity|]. split; [rewrite Av; reflexivity|].
  split; [rewrite Ce; reflexivity|]. split; [rewrite Ce; reflexivity|]. split; [rewrite Ce; reflexivity|]. split; [auto|].
  split; [rewrite Ce; reflexivity|]. split; [rewrite Ce; reflexivity|]. split; [rewrite Ce; reflexivity|]. split; [rewrite Ce; reflexivity|].
  assert (Nb : forall o p, (o < no)%nat -> (p < n)%nat -> nth o bins 0 =? nth p starts 0 = (nth p starts 0 <=? nth o (odims w) 0) && (nth o (odims w) 0 <? nth p starts 0 + G)).
  { intros o p Ho Hp. unfold bins, starts. rewrite Eo. fold no. rewrite !nth_map_seq by auto.
    rewrite Nat2Z.inj_mul. fold g. rewrite Ej.
    pose proof (Nat.div_mod (j0 + o) q ltac:(lia)) as D. pose proof (Nat.mod_upper_bound (j0 + o) q ltac:(lia)) as B.
    set (p' := ((j0 + o) / q)%nat) in *. set (r := ((j0 + o) mod q)%nat) in *. clearbody p' r.
    destruct (Z.eqb_spec (c0 + G * Z.of_nat p') (c0 + G * Z.of_nat p)) as [E|E].
    - assert (p' = p) by nia. subst p'. symmetry. apply andb_true_iff. rewrite Z.leb_le, Z.ltb_lt. rewrite EG. nia.
    - assert (p' <> p) by congruence. symmetry. apply andb_false_iff. rewrite Z.leb_gt, Z.ltb_ge. rewrite EG.
      destruct (Nat.lt_ge_cases p' p); [left|right]; nia. }
  split.
  { intros o Ho. exists ((j0 + o) / q)%nat.
    assert (Hp : ((j0 + o) / q < n)%nat) by (unfold n; assert ((j0 + o) / q <= (j0 + no - 1) / q)%nat by (apply Nat.div_le_mono; lia); lia).
    split; auto. specialize (Nb o _ Ho Hp). unfold bins, starts in Nb. rewrite !nth_map_seq, Z.eqb_refl in Nb by auto. symmetry in Nb.
    apply andb_true_iff in Nb. rewrite Z.leb_le, Z.ltb_lt in Nb. unfold starts. rewrite nth_map_seq by auto. exact Nb. }
  assert (Cx' : forall i c p d, (p < n)%nat -> cel x i c p d = n2n (Some (sumn no (fun o => if (nth p starts 0 <=? nth o (odims w) 0) && (nth o (odims w) 0 <? nth p starts 0 + G) then amount w i c o d else 0%Qc)))).
  { intros i c p d Hp. unfold cel. rewrite Av. cbn [s values set_grains set_odims set_values set_dims av]. do 2 f_equal. apply sumn_ext. intros o Ho. rewrite Nb by auto. reflexivity. }
  split.
  { intros i c p lo hi Hp. rewrite (block_vals w _ i c _ _ lo hi Ed). unfold window.
    replace (ax3 (values x)) with (ax3 (values w)) by (rewrite Av; reflexivity). apply sumn_ext. intros d Hd.
    unfold month_of. replace (ddims x) with (ddims w) by (rewrite Ce; reflexivity). rewrite Ed.
    destruct (_ && _); auto. unfold amount at 1. rewrite Cx' by auto. apply nz_n2n. }
  split.
  { intros i c p d Hp Hn. rewrite Cx' in Hn by auto. apply n2n_some in Hn. apply sumn_nonzero in Hn. destruct Hn as (o & Ho & Hn).
    exists o. split; auto. destruct (_ && _) eqn:E; [|congruence]. apply andb_true_iff in E. rewrite Z.leb_le, Z.ltb_lt in E.
    split; auto. intros X. apply Hn. unfold amount. rewrite X. auto. }
  pose proof (Nat.div_mod (j0 + no - 1) q ltac:(lia)) as D. pose proof (Nat.mod_upper_bound (j0 + no - 1) q ltac:(lia)) as B.
  unfold n. set (p' := ((j0 + no - 1) / q)%nat) in *. set (r := ((j0 + no - 1) mod q)%nat) in *. clearbody p' r. split.
  - destruct p' as [|p']; [lia|]. nia.
  - rewrite EG. rewrite Ej. nia.
Qed.
