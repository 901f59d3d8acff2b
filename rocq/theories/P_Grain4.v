(** The grain of a triangle. *)
From Verif Require Import Num NumFacts Arr Tri ArrFacts Spec TriFacts ConvFacts SliceFacts P_Core P_Filter UnionFacts SpecView P_View P_ViewFull SpecGrain P_Grain P_Grain2 P_Grain3.
From Coq Require Import Lia ZArith List Arith Psatz Sorted.
Import ListNotations.
Local Open Scope Z_scope.

Lemma grain_eqb_eq a b : grain_eqb a b = true <-> a = b.
Proof. destruct a, b; cbn; split; congruence. Qed.
Lemma grain_nested a b : grain_months a <= grain_months b -> exists k, (1 <= k)%nat /\ grain_months b = Z.of_nat k * grain_months a.
Proof.
  destruct a, b; cbn; intros H; try lia; first [exists 1%nat; split; [lia|reflexivity] | exists 2%nat; split; [lia|reflexivity] |
   exists 3%nat; split; [lia|reflexivity] | exists 4%nat; split; [lia|reflexivity] | exists 6%nat; split; [lia|reflexivity] | exists 12%nat; split; [lia|reflexivity]].
Qed.
Lemma nested_le a b : nested a b <-> grain_months a <= grain_months b.
Proof.
  unfold nested. split.
  - intros H. apply Z.divide_pos_le; auto. destruct b; cbn; lia.
  - intros H. destruct (grain_nested a b H) as (k & _ & E). exists (Z.of_nat k). auto.
Qed.
Lemma grain_months_inj a b : grain_months a = grain_months b -> a = b.
Proof. destruct a, b; cbn; intros; try reflexivity; lia. Qed.

Lemma window_eq_cols t u i c o lo hi : ax3 (values u) = ax3 (values t) -> ddims u = ddims t -> odims u = odims t ->
  (forall d, (d < ax3 (values t))%nat -> cel u i c o d = cel t i c o d) -> window u i c o lo hi = window t i c o lo hi.
Proof.
  intros H3 Hd Ho Hc. unfold window. rewrite H3. apply sumn_ext. intros d Hk. unfold month_of, amount. rewrite Hd, Ho, Hc; auto.
Qed.

(** An origin alone is a block. *)
Lemma block_self t i c p G lo hi : wf t -> (p < ax2 (values t))%nat ->
  (forall o, (o < ax2 (values t))%nat -> nth p (odims t) 0 <= nth o (odims t) 0 < nth p (odims t) 0 + G -> o = p) -> 0 < G ->
  block t i c (nth p (odims t) 0) G lo hi = window t i c p lo hi.
Proof.
  intros W Hp Hu HG. unfold block. rewrite (sumn_single _ p); auto.
  - destruct (Z.leb_spec (nth p (odims t) 0) (nth p (odims t) 0)), (Z.ltb_spec (nth p (odims t) 0) (nth p (odims t) 0 + G)); cbn; auto; lia.
  - intros o Ho Hn. destruct (Z.leb_spec (nth p (odims t) 0) (nth o (odims t) 0)), (Z.ltb_spec (nth o (odims t) 0) (nth p (odims t) 0 + G)); cbn; auto.
    exfalso. apply Hn. apply Hu; auto.
Qed.

(** The origin part: from [w] to [x]. *)
Definition origins_ready_at (close : Z) (t : tri) (og : grain) (v0 : Z) (n : nat) : Prop :=
  let c0 := first_period close og (hd 0 (odims t)) in
  (grain_months (ograin t) | hd 0 (odims t) - (close + 1)) /\
  grain_shows og c0 (coarse_count t og c0) /\ dgrain t <> GS /\
  ((hd 0 (odims t) = c0 /\ v0 < c0 + grain_months (dgrain t)) \/
   (dgrain t = GM /\ (2 <= n)%nat /\ v0 - c0 <= Z.of_nat n)).
Lemma origin_part w o0 a0 h m close og : wf w -> val_grid w o0 a0 h m -> no_future w -> month_of w 0 (ax3 (values w) - 1) = vdate w ->
  1 <= a0 -> nested (ograin w) og -> (og <> ograin w -> origins_ready_at close w og (o0 + a0 - 1) (ax3 (values w))) ->
  let c0 := coarse_start close w og in
  exists x A0 M, (if grain_eqb og (ograin w) then Ok w else do g <- group_origins close og w; add_leading close g) = Ok x /\
    wf x /\ val_grid x c0 A0 h M /\ no_future x /\ month_of x 0 (ax3 (values x) - 1) = vdate x /\ (1 <= M)%nat /\
    kdims x = kdims w /\ key_labels x = key_labels w /\ vdims x = vdims w /\ vdate x = vdate w /\
    is_cumulative x = is_cumulative w /\ is_pattern x = is_pattern w /\
    ax0 (values x) = ax0 (values w) /\ ax1 (values x) = ax1 (values w) /\ ograin x = og /\ dgrain x = dgrain w /\
    (forall o, (o < ax2 (values w))%nat -> exists p, (p < ax2 (values x))%nat /\
       nth p (odims x) 0 <= nth o (odims w) 0 < nth p (odims x) 0 + grain_months og) /\
    (forall i c p lo hi, (p < ax2 (values x))%nat -> window x i c p lo hi = block w i c (nth p (odims x) 0) (grain_months og) lo hi) /\
    (nothing_before w a0 -> nothing_before x A0) /\ (ax3 (values w) <= ax3 (values x))%nat /\ c0 <= o0 /\ 1 <= A0 /\
    c0 + grain_months og * (Z.of_nat (ax2 (values x)) - 1) <= o0 + Z.of_nat (h * m) * (Z.of_nat (ax2 (values w)) - 1).
Proof.
  intros W V NF EL Ha Hn Hr c0. pose proof V as (Hh & Hm & Eo & Ed & Gd & Go).
  pose proof (wf_o1 _ W) as W2. pose proof (wf_d1 _ W) as W3.
  assert (Eh : hd 0 (odims w) = o0) by (rewrite Eo, hd_map_seq by auto; lia).
  destruct (grain_eqb og (ograin w)) eqn:E.
  - assert (Eg : og = ograin w) by (apply grain_eqb_eq; auto). subst og. exists w, a0, m.
    assert (Ec0 : c0 = o0) by (unfold c0, coarse_start; rewrite E; auto). rewrite Ec0.
    repeat (split; [auto; fail|]). split.
    { intros o Ho. exists o. split; auto. rewrite Go. nia. }
    split.
    { intros i c p lo hi Hp. symmetry. apply block_self; auto; [|rewrite Go; nia].
      intros o Ho. rewrite Eo, !nth_map_seq by auto. rewrite Go. nia. }
    split; auto. split; auto. rewrite Go. lia.
  - assert (Hne : og <> ograin w) by (intros X; apply grain_eqb_eq in X; congruence).
    specialize (Hr Hne). unfold origins_ready_at in Hr. rewrite Eh in Hr. cbv zeta in Hr. destruct Hr as (Hal & Hsh & HS & Hlead).
    assert (HM : og <> GM).
    { intros ->. apply nested_le in Hn. apply Hne. apply grain_months_inj. destruct (ograin w); cbn in *; lia. }
    pose proof Hn as Hn'. apply nested_le, grain_nested in Hn'. destruct Hn' as (q & Hq & Eq). rewrite Go in Eq. rewrite Go in Hal.
    assert (H3 : Z.of_nat (h * m) = 1 \/ Z.of_nat (h * m) = 3 \/ og = GY).
    { rewrite <- Go. apply nested_le in Hn. destruct (ograin w), og; cbn in *; auto; try lia; congruence. }
    destruct (group_origins_ok w o0 a0 h m close og q W V NF EL HM Hq Eq Hal H3)
      as (x & Ex & Wx & Ox & Dx & X0 & X1 & X3 & Kx & Lx & Vx & VDx & Cx & Px & Gx & DGx & Cov & Win & Nb & N2 & Nn).
    set (G := grain_months og) in *. assert (HG : 1 <= G) by (rewrite Eq; nia).
    assert (Ec0 : first_period close og o0 = c0) by (unfold c0, coarse_start; rewrite E, Eh; reflexivity).
    clearbody c0. rewrite Ec0 in *.
    assert (Ecount : coarse_count w og c0 = ax2 (values x)).
    { unfold coarse_count. fold G. rewrite Eo, last_map_seq by auto.
      replace (o0 + Z.of_nat (h * m * (ax2 (values w) - 1)) - c0) with (o0 - c0 + Z.of_nat (h * m) * (Z.of_nat (ax2 (values w)) - 1)) by nia.
      rewrite (div_bound _ G (Z.of_nat (ax2 (values x)) - 1)); [|lia|lia].
      pose proof (wf_o1 _ Wx). lia. }
    rewrite Ecount in Hsh.
    assert (Ig : ograin x = og) by (rewrite Gx, Ox; apply infer_ok; auto; apply Wx).
    set (M := (q * m)%nat).
    assert (EG : G = Z.of_nat (h * M)) by (rewrite Eq; unfold M; nia).
    assert (Vg : forall a, o0 + a0 = c0 + a -> val_grid x c0 a h M).
    { intros a Ea. unfold val_grid. rewrite X3, Dx, DGx, Ig. split; [auto|]. split; [unfold M; nia|]. split.
      - rewrite Ox. apply map_ext. intros p. rewrite EG, <- Nat2Z.inj_mul. reflexivity.
      - split; [|split; auto]. rewrite Ed. f_equal. apply map_ext. intros k. lia. }
    assert (NFx : no_future x).
    { intros o d Ho Hd F. apply (NF 0%nat d); auto; [lia|]. unfold future in *. rewrite VDx in F. unfold month_of in *. rewrite Dx, Ed in F. rewrite Ed. auto. }
    assert (ELx : month_of x 0 (ax3 (values x) - 1) = vdate x).
    { rewrite VDx, <- EL, X3. unfold month_of. rewrite Dx, Ed. reflexivity. }
    assert (Pc : period_start close (ograin x) c0 = c0) by (rewrite Ig, <- Ec0; apply period_start_first; auto).
    assert (Lc : c0 <= o0) by (rewrite <- Ec0; apply first_period_le).
    assert (NBx : nothing_before w a0 -> forall A, A <= a0 -> nothing_before x A).
    { intros NB A HA i c p d (R1 & R2 & R3 & R4) Hc. destruct (Nb i c p d R3 Hc) as (o & Ho & Hin & Hcw).
      rewrite X0 in R1. rewrite X1 in R2. rewrite X3 in R4.
      specialize (NB i c o d ltac:(repeat split; auto) Hcw).
      replace (month_of x p d) with (month_of w o d) by (unfold month_of; rewrite Dx, Ed; reflexivity). lia. }
    rewrite Ex. cbn [rbind].
    destruct (Z.eq_dec (o0 + a0) (c0 + 1)) as [E1|E1].
    + (* monthly, nothing to add, or first period *)
      assert (o0 = c0 /\ a0 = 1) as (E2 & E3) by lia.
      exists x, a0, M.
      rewrite (add_leading_none close x c0 a0 h M); [|auto|apply Vg; lia|congruence|lia|auto| |].
      * split; [auto|]. split; [auto|]. split; [apply Vg; lia|]. repeat (split; [auto; fail|]). split; [unfold M; nia|].
        repeat (split; [auto; fail|]). split; [intros NB; apply NBx; auto; lia|]. split; [lia|]. split; [lia|]. split; [lia|]. lia.
      * rewrite DGx. destruct (dgrain w) eqn:Eg; auto; [|congruence].
        exfalso. apply nested_le in Hn. rewrite Go in Hn. cbn in Gd.
        apply Hne. apply grain_months_inj. rewrite Go. destruct og; cbn in Hn |- *; nia.
      * rewrite <- E2. destruct Hal as (y & Ey). exists (y * Z.of_nat m). nia.
    + destruct Hlead as [(E2 & L2)|(Em & L3 & L2)].
      * exists x, a0, M.
        rewrite (add_leading_none close x c0 a0 h M); [|auto|apply Vg; lia|congruence|lia|auto| |].
        -- split; [auto|]. split; [auto|]. split; [apply Vg; lia|]. repeat (split; [auto; fail|]). split; [unfold M; nia|].
           repeat (split; [auto; fail|]). split; [intros NB; apply NBx; auto; lia|]. split; [lia|]. split; [lia|]. split; [lia|]. lia.
        -- rewrite DGx. destruct (dgrain w) eqn:Eg; auto; [|congruence].
           exfalso. apply nested_le in Hn. rewrite Go in Hn. cbn in Gd.
           apply Hne. apply grain_months_inj. rewrite Go. destruct og; cbn in Hn |- *; nia.
        -- rewrite <- E2. destruct Hal as (y & Ey). exists (y * Z.of_nat m). nia.
      * assert (Eh1 : h = 1%nat) by (rewrite Em in Gd; cbn in Gd; lia). subst h.
        destruct (add_leading_months close x c0 (o0 + a0 - c0) M Wx) as (y & Ey & Wy & Sy & Vy & Y3 & Ny & Wiy); auto; try lia.
        { apply Vg. lia. }
        exists y, 1, M. rewrite Ey. split; [auto|]. split; [auto|]. split; [auto|].
        assert (Ly : month_of y 0 (ax3 (values y) - 1) = vdate y).
        { rewrite (sr_vd _ _ Sy), <- ELx. rewrite (vgrid_month y c0 1 1 M) by (auto; lia).
          rewrite (vgrid_month x c0 (o0 + a0 - c0) 1 M); [|apply Vg; lia|lia]. lia. }
        split.
        { intros o d Ho Hd F. unfold future in F.
          rewrite (vgrid_month y c0 1 1 M o d Vy Hd) in F. rewrite <- Ly, (vgrid_month y c0 1 1 M 0 _ Vy) in F by lia. lia. }
        split; [auto|]. split; [unfold M; nia|].
        split; [rewrite (sr_k _ _ Sy); auto|]. split; [rewrite (sr_kl _ _ Sy); auto|]. split; [rewrite (sr_v _ _ Sy); auto|].
        split; [rewrite (sr_vd _ _ Sy); auto|]. split; [rewrite (sr_cum _ _ Sy); auto|]. split; [rewrite (sr_pat _ _ Sy); auto|].
        split; [rewrite (sr_0 _ _ Sy); auto|]. split; [rewrite (sr_1 _ _ Sy); auto|]. split; [rewrite (sr_og _ _ Sy); auto|].
        split; [rewrite (sr_dg _ _ Sy); auto|]. rewrite (sr_o _ _ Sy), (sr_2 _ _ Sy).
        split; [auto|]. split; [intros i c p lo hi Hp; rewrite Wiy by auto; apply Win; auto|].
        split; [|split; [lia|split; [lia|split; [lia|lia]]]]. intros NB i c p d (R1 & R2 & R3 & R4) Hc. destruct (Ny i c p d Hc) as (Hk & Hcx).
        rewrite (sr_0 _ _ Sy) in R1. rewrite (sr_1 _ _ Sy) in R2. rewrite (sr_2 _ _ Sy) in R3.
        pose proof (NBx NB 1 ltac:(lia) i c p (d - Z.to_nat (o0 + a0 - c0 - 1))%nat ltac:(repeat split; auto; lia) Hcx) as B.
        rewrite (sr_o _ _ Sy). rewrite (vgrid_month y c0 1 1 M) by auto.
        rewrite (vgrid_month x c0 (o0 + a0 - c0) 1 M) in B; [|apply Vg; lia|lia]. lia.
Qed.

Lemma valid_grain_nested a b : valid_grain a b = true <-> nested a b.
Proof. rewrite nested_le. destruct a, b; cbn; split; intros; try reflexivity; try discriminate; lia. Qed.
Lemma grain_rank_le a b : (grain_rank a <? grain_rank b)%nat = false <-> grain_months a <= grain_months b.
Proof. destruct a, b; cbn; split; intros; try reflexivity; try discriminate; lia. Qed.

Lemma step_window (h n j k : nat) (b v : Z) : (1 <= h)%nat -> v = b + Z.of_nat (h * n) - Z.of_nat h * Z.of_nat j ->
  (v - 1 <? b + Z.of_nat (h * k)) && (b + Z.of_nat (h * k) <=? v) = (v - Z.of_nat h <? b + Z.of_nat (h * k)) && (b + Z.of_nat (h * k) <=? v).
Proof.
  intros Hh ->. apply eq_true_iff_eq. rewrite !andb_true_iff, !Z.ltb_lt, !Z.leb_le, !Nat2Z.inj_mul.
  split; intros (A & B); split; auto; [lia|].
  assert (Z.of_nat n - Z.of_nat j - 1 < Z.of_nat k) by nia. nia.
Qed.

Lemma regrain_ok w o0 a0 h m close og dg : wf w -> val_grid w o0 a0 h m -> no_future w -> month_of w 0 (ax3 (values w) - 1) = vdate w ->
  1 <= a0 -> allowed w og dg -> (og <> ograin w -> origins_ready_at close w og (o0 + a0 - 1) (ax3 (values w))) ->
  (dg <> dgrain w -> (2 <= ax3 (values w))%nat) ->
  let c0 := coarse_start close w og in
  exists y A' h' M', regrain close og dg w = Ok y /\ wf y /\ val_grid y c0 A' h' M' /\ no_future y /\ month_of y 0 (ax3 (values y) - 1) = vdate y /\
    regrained w y og dg c0 /\ (nothing_before w a0 -> nothing_before y A') /\ c0 <= o0 /\ 1 <= A' /\
    c0 + grain_months og * (Z.of_nat (ax2 (values y)) - 1) <= o0 + Z.of_nat (h * m) * (Z.of_nat (ax2 (values w)) - 1).
Proof.
  intros W V NF EL Ha (An & Ad & Al) Hr H2 c0.
  destruct (origin_part w o0 a0 h m close og W V NF EL Ha An Hr) as (x & A0 & M & Ex & Wx & Vx & NFx & Lx & HM & Kx & KLx & VDIx & VDx & Cx & Px & X0 & X1 & Gx & DGx & Cov & Win & NBx & N3 & Lc & LA & LF).
  fold c0 in Vx, Lc, LF. unfold regrain. rewrite Ex. cbn [rbind].
  pose proof V as (Hh & Hm & Eo & Ed & Gd & Go). pose proof Vx as (_ & _ & Eox & Edx & Gdx & Gox).
  pose proof (wf_d1 _ Wx) as Wx3. pose proof (wf_o1 _ Wx) as Wx2.
  assert (Eoz : forall n, map (fun k => c0 + Z.of_nat (h * M * k)) (seq 0 n) = map (fun p => c0 + grain_months og * Z.of_nat p) (seq 0 n)).
  { intros n. apply map_ext. intros p. rewrite <- Gx, Gox, <- Nat2Z.inj_mul. reflexivity. }
  assert (LL : forall p, (p < ax2 (values x))%nat -> nth p (odims x) 0 <= last (odims w) 0).
  { intros p Hp. rewrite Eox, nth_map_seq by auto. rewrite Eo, last_map_seq by apply W.
    rewrite <- Gx, Gox in LF. pose proof (wf_o1 _ W) as Wo.
    assert (Y1 : Z.of_nat (h * M * p) <= Z.of_nat (h * M) * (Z.of_nat (ax2 (values x)) - 1)).
    { rewrite (Nat2Z.inj_mul (h * M) p). apply Z.mul_le_mono_nonneg_l; lia. }
    assert (Y2 : Z.of_nat (h * m * (ax2 (values w) - 1)) = Z.of_nat (h * m) * (Z.of_nat (ax2 (values w)) - 1)).
    { rewrite (Nat2Z.inj_mul (h * m)), Nat2Z.inj_sub by lia. reflexivity. }
    rewrite Y2. eapply Z.le_trans; [|exact LF]. apply Z.add_le_mono_l. exact Y1. }
  destruct (grain_eqb dg (dgrain w)) eqn:E.
  - assert (dg = dgrain w) by (apply grain_eqb_eq; auto). subst dg. cbn [negb andb].
    exists x, A0, h, M. repeat (split; [auto; fail|]). split; [|auto].
    assert (Mx : forall o k, (k < ax3 (values x))%nat -> month_of x o k = c0 + A0 - 1 + Z.of_nat (h * k)) by (intros; apply (vgrid_month x c0 A0 h M); auto).
    rewrite Mx in Lx by lia.
    constructor; auto.
    + rewrite Eox at 1. apply Eoz.
    + intros o d Ho Hd. left. exists (ax3 (values x) - 1 - d)%nat. rewrite Mx by auto. rewrite Gd, <- VDx, <- Lx.
      replace (ax3 (values x) - 1)%nat with (d + (ax3 (values x) - 1 - d))%nat at 1 by lia.
      rewrite Nat.mul_add_distr_l, Nat2Z.inj_add, !Nat2Z.inj_mul. ring.
    + intros i c p v Hi Hc Hp (j & Ev). rewrite Win by auto. destruct (is_cumulative w) as [[|]|]; auto.
      all: rewrite <- !Win by auto; unfold window; apply sumn_ext; intros k Hk; rewrite Mx by auto;
        rewrite Gd, <- VDx, <- Lx in Ev; rewrite Gd.
      all: rewrite (step_window h (ax3 (values x) - 1) j k _ v Hh Ev); reflexivity.
  - assert (Hne : dg <> dgrain w) by (intros X; apply grain_eqb_eq in X; congruence). specialize (H2 Hne).
    destruct (Nat.ltb_spec 1 (ax3 (values x))); [|lia]. cbn [negb andb].
    pose proof Ad as Ad'. apply nested_le, grain_nested in Ad'. destruct Ad' as (step & Hs & Es). rewrite Gd in Es.
    pose proof Al as Al'. apply grain_nested in Al'. destruct Al' as (m' & Hm' & Em').
    assert (EM : M = (step * m')%nat).
    { rewrite <- Gx in Em'. rewrite Gox, Es in Em'. nia. }
    destruct (thin_ok x c0 A0 h M dg step m' Wx Vx Lx Hs Hm' ltac:(rewrite Es; nia) EM) as (y & Ey & Wy & R & Gy & Vy & Ly & Y3 & Ny & Wiy).
    set (r := ((ax3 (values x) - 1) mod step)%nat) in *.
    exists y, (A0 + Z.of_nat (h * r)), (h * step)%nat, m'. split; [auto|]. split; [auto|]. split; [auto|].
    pose proof Vy as (Hh' & _ & Eoy & Edy & _).
    pose proof (wf_d1 _ Wy) as Wy3.
    assert (My : forall o k, (k < ax3 (values y))%nat -> month_of y o k = c0 + (A0 + Z.of_nat (h * r)) - 1 + Z.of_nat (h * step * k)) by (intros; apply (vgrid_month y _ _ _ _ o k Vy); auto).
    assert (Ly' := Ly). rewrite My in Ly' by lia.
    split.
    { intros o d Ho Hd F. unfold future in F. rewrite My in F by auto. rewrite <- Ly' in F.
      assert (h * step * d <= h * step * (ax3 (values y) - 1))%nat by (apply Nat.mul_le_mono_l; lia). lia. }
    split; [auto|]. split.
    + constructor; auto.
      * rewrite (ro_k _ _ R); auto.
      * rewrite (ro_kl _ _ R); auto.
      * rewrite (ro_v _ _ R); auto.
      * rewrite (ro_vd _ _ R); auto.
      * rewrite (ro_cum _ _ R); auto.
      * rewrite (ro_pat _ _ R); auto.
      * rewrite (ro_0 _ _ R); auto.
      * rewrite (ro_1 _ _ R); auto.
      * rewrite (ro_og _ _ R); auto.
      * rewrite (ro_o _ _ R), (ro_2 _ _ R). rewrite Eox at 1. apply Eoz.
      * rewrite (ro_o _ _ R), (ro_2 _ _ R). auto.
      * rewrite (ro_o _ _ R), (ro_2 _ _ R). auto.
      * intros o d Ho Hd. left. exists (ax3 (values y) - 1 - d)%nat. rewrite My by auto. rewrite Es, <- VDx, <- (ro_vd _ _ R), <- Ly'.
        replace (ax3 (values y) - 1)%nat with (d + (ax3 (values y) - 1 - d))%nat at 1 by lia.
        rewrite Nat.mul_add_distr_l, Nat2Z.inj_add, !Nat2Z.inj_mul. ring.
      * intros i c p v Hi Hc Hp Hv. rewrite (ro_2 _ _ R) in Hp. rewrite Wiy; [|lia|lia|auto|].
        2:{ destruct Hv as (j & Ev). exists j. rewrite VDx. auto. }
        rewrite Win, (ro_o _ _ R), Cx by auto. reflexivity.
    + rewrite (ro_2 _ _ R). split; [|split; [lia|split; [lia|lia]]]. intros NB i c p j (R1 & R2 & R3 & R4) Hc.
      rewrite (ro_0 _ _ R) in R1. rewrite (ro_1 _ _ R) in R2. rewrite (ro_2 _ _ R) in R3.
      destruct (Ny i c p j R1 R2 R3 R4 Hc) as (k & Hk & Hkj & Hcx).
      pose proof (NBx NB i c p k ltac:(repeat split; auto) Hcx) as B.
      rewrite (vgrid_month x c0 A0 h M) in B by auto. rewrite Eox, nth_map_seq in B by auto.
      rewrite (ro_o _ _ R), Eox, nth_map_seq, My by auto.
      assert (B1 : (M * p <= k)%nat) by nia.
      assert (B2 : (m' * p <= j)%nat).
      { subst M. assert (step * (m' * p) <= r + step * j)%nat by nia.
        assert (r < step)%nat by (apply Nat.mod_upper_bound; lia). nia. }
      subst M. assert (h * (step * m') * p <= h * step * j)%nat by nia. lia.
Qed.

Lemma grain_to_checks close og dg t : allowed t og dg -> flag_known t dg ->
  grain_to close og dg t = (do v <- dev_to_val t; do obj <- regrain close og dg v; if is_val_tri t then dev_to_val obj else val_to_dev obj).
Proof.
  intros (A1 & A2 & A3) F. unfold grain_to.
  rewrite (proj2 (valid_grain_nested _ _) A1), (proj2 (valid_grain_nested _ _) A2). cbn [andb negb].
  rewrite (proj2 (grain_rank_le _ _) A3).
  replace (match is_cumulative t with None => true | _ => false end && negb (grain_eqb dg (dgrain t)) && (1 <? ax3 (values t))%nat) with false; [reflexivity|].
  destruct F as [F|F]; [destruct (is_cumulative t); [reflexivity|congruence]|].
  rewrite (proj2 (grain_eqb_eq _ _) F). cbn [negb]. rewrite andb_false_r. reflexivity.
Qed.

Lemma ready_at close t w o0 a0 h m og : wf w -> val_grid w o0 a0 h m -> month_of w 0 (ax3 (values w) - 1) = vdate w ->
  odims t = odims w -> ograin t = ograin w -> dgrain t = dgrain w -> vdate t = vdate w -> month_of t 0 0 = o0 + a0 - 1 ->
  origins_ready close t og -> origins_ready_at close w og (o0 + a0 - 1) (ax3 (values w)).
Proof.
  intros W V L E1 E2 E3 E4 E5 (R1 & R2 & R3 & R4). unfold origins_ready_at. unfold coarse_count in *. rewrite E1, ?E2, ?E3, ?E4, ?E5 in *.
  repeat (split; [auto; fail|]). destruct R4 as [R4|(R4 & R5 & R6)]; [left; auto|right]. split; [auto|].
  pose proof (wf_d1 _ W). rewrite (vgrid_month w o0 a0 h m) in L by (auto; lia). destruct V as (_ & _ & _ & _ & Gd & _).
  rewrite R4 in Gd. cbn in Gd. assert (h = 1%nat) by lia. subst h. lia.
Qed.

Lemma grain_val w o0 a0 h m close og dg : wf w -> val_grid w o0 a0 h m -> no_future w -> month_of w 0 (ax3 (values w) - 1) = vdate w ->
  1 <= a0 -> allowed w og dg -> flag_known w dg -> (og <> ograin w -> origins_ready close w og) ->
  (dg <> dgrain w -> (2 <= ax3 (values w))%nat) ->
  exists y, grain_to close og dg w = Ok y /\ wf y /\ is_val_tri y = true /\ regrained w y og dg (coarse_start close w og).
Proof.
  intros W V NF EL Ha A F Hr H2. pose proof (wf_d1 _ W).
  destruct (regrain_ok w o0 a0 h m close og dg W V NF EL Ha A) as (y & A' & h' & M' & Ey & Wy & Vy & _ & _ & R & _); auto.
  { intros Hne. apply (ready_at close w w o0 a0 h m); auto. rewrite (vgrid_month w o0 a0 h m) by auto. lia. }
  exists y. rewrite grain_to_checks by auto.
  assert (Iw : is_val_tri w = true) by (unfold is_val_tri; destruct V as (_ & _ & _ & -> & _); reflexivity).
  assert (Iy : is_val_tri y = true) by (unfold is_val_tri; destruct Vy as (_ & _ & _ & -> & _); reflexivity).
  unfold dev_to_val. rewrite Iw. cbn [rbind]. rewrite Ey. cbn [rbind]. rewrite Iy. auto.
Qed.

Lemma grid_distinct t o0 a0 h m : age_grid t o0 a0 h m -> distinct_months t.
Proof.
  intros G o d e Ho Hd He E. rewrite !(grid_month t o0 a0 h m) in E by auto. destruct G as (Hh & _).
  assert (h * (d + m * o) = h * (e + m * o))%nat by lia. nia.
Qed.
Lemma vgrid_distinct t o0 a0 h m : val_grid t o0 a0 h m -> distinct_months t.
Proof.
  intros G o d e Ho Hd He E. rewrite !(vgrid_month t o0 a0 h m) in E by auto. destruct G as (Hh & _).
  assert (h * d = h * e)%nat by lia. nia.
Qed.

Lemma grain_age t o0 a0 h m close og dg : wf t -> age_grid t o0 a0 h m -> no_gap t h m -> blank_future t -> data_beyond_first t ->
  before_ultimate t -> not_full_cumulative t -> (exists o d, (o < ax2 (values t))%nat /\ (d < ax3 (values t))%nat /\ month_of t o d = vdate t) ->
  ~ future t 0 0 -> 1 <= a0 -> allowed t og dg -> flag_known t dg -> (og <> ograin t -> origins_ready close t og) ->
  (dg <> dgrain t -> month_of t 0 0 < vdate t) ->
  let c0 := coarse_start close t og in
  vdate t < c0 + 9998 -> later_totals t og dg c0 ->
  exists u A' h' M', grain_to close og dg t = Ok u /\ age_grid u c0 A' h' M' /\ regrained t u og dg c0.
Proof.
  intros W G Hg B D U NFC (kl & dl & Hkl & Hdl & Ekl) NF Ha A F Hr H2 c0 SH LT.
  destruct (to_valuation t o0 a0 h m W G Hg B D U NFC) as (w & Ew & (S & C) & V & SD & L & Ed).
  pose proof (wf_o1 _ W) as W2. pose proof (wf_d1 _ W) as W3.
  assert (M00 : month_of t 0 0 = o0 + a0 - 1) by (rewrite (grid_month t o0 a0 h m) by (auto; lia); lia).
  assert (Wd : (1 <= ax3 (values w))%nat).
  { rewrite L. assert (K : In (month_of t 0 0) (known_valuations t)).
    { apply known_in; auto. exists 0%nat, 0%nat. unfold future in NF. repeat split; auto; lia. }
    destruct (known_valuations t); [destruct K|cbn; lia]. }
  assert (Ww : wf w) by (apply (wf_shifted t); auto).
  assert (NFw : no_future w).
  { intros o d Ho Hd Fu. unfold future, month_of in Fu. rewrite Ed, (sr_vd _ _ S) in Fu.
    assert (K : In (nth d (known_valuations t) 0) (known_valuations t)) by (apply nth_In; lia).
    apply known_in in K; auto. destruct K as (? & ? & _ & _ & _ & K). lia. }
  assert (Lw : month_of w 0 (ax3 (values w) - 1) = vdate w).
  { assert (K : In (vdate t) (known_valuations t)) by (apply known_in; auto; exists kl, dl; repeat split; auto; lia).
    destruct (In_nth _ _ 0 K) as (e & He & Ee).
    assert (X : month_of w 0 e = vdate t) by (unfold month_of; rewrite Ed; auto).
    rewrite (sr_vd _ _ S). specialize (NFw 0%nat (ax3 (values w) - 1)%nat ltac:(rewrite (sr_2 _ _ S); lia) ltac:(lia)).
    unfold future in NFw. rewrite (sr_vd _ _ S) in NFw. rewrite <- X in *. rewrite !(vgrid_month w o0 a0 h m) in * by (auto; lia).
    assert (h * e <= h * (ax3 (values w) - 1))%nat by (apply Nat.mul_le_mono_l; lia). lia. }
  assert (NBw : nothing_before w a0).
  { intros i c o k (R1 & R2 & R3 & R4) Hc. rewrite (sr_2 _ _ S) in R3. rewrite C in Hc by auto.
    destruct (Nat.leb_spec (m * o) k); [|cbn in Hc; congruence].
    rewrite (vgrid_month w o0 a0 h m) by auto. rewrite (sr_o _ _ S). destruct G as (_ & _ & -> & _). rewrite nth_map_seq by auto. nia. }
  assert (Aw : allowed w og dg) by (unfold allowed; rewrite (sr_og _ _ S), (sr_dg _ _ S); auto).
  assert (Ec : coarse_start close w og = c0) by (unfold c0, coarse_start; rewrite (sr_og _ _ S), (sr_o _ _ S); reflexivity).
  destruct (regrain_ok w o0 a0 h m close og dg Ww V NFw Lw Ha Aw) as (y & A' & h' & M' & Ey & Wy & Vy & NFy & Ly & R & NBy & Lc & LA & LF); auto.
  { intros Hne. rewrite (sr_og _ _ S) in Hne. apply (ready_at close t w o0 a0 h m); auto; rewrite ?(sr_o _ _ S), ?(sr_og _ _ S), ?(sr_dg _ _ S), ?(sr_vd _ _ S); auto. }
  { intros Hne. rewrite (sr_dg _ _ S) in Hne. specialize (H2 Hne). destruct (Nat.le_gt_cases 2 (ax3 (values w))) as [?|?]; auto.
    exfalso. rewrite (vgrid_month w o0 a0 h m), (sr_vd _ _ S) in Lw by (auto; lia).
    replace (ax3 (values w) - 1)%nat with 0%nat in Lw by lia. lia. }
  rewrite Ec in *. rewrite (sr_2 _ _ S) in LF.
  assert (Dt : distinct_months t) by (apply wf_distinct; auto).
  assert (Dw : distinct_months w) by (apply wf_distinct; auto).
  assert (EB : forall i c s g lo hi, (i < ax0 (values t))%nat -> (c < ax1 (values t))%nat -> block w i c s g lo hi = block t i c s g lo hi).
  { intros. apply block_same; auto. }
  pose proof (wf_d1 _ Wy) as Wy3. pose proof (wf_o1 _ Wy) as Wy2.
  assert (Eoy := rg_odims _ _ _ _ _ R).
  assert (Elast : last (odims t) 0 = o0 + Z.of_nat (h * m) * (Z.of_nat (ax2 (values t)) - 1)).
  { destruct G as (_ & _ & -> & _). rewrite last_map_seq by auto. rewrite !Nat2Z.inj_mul. nia. }
  assert (Dy : data_beyond_first y).
  { destruct LT as [LT|(i & c & p & v & Hi & Hc & Hp & Hv & Hb)].
    - left. rewrite Elast in LT. assert (grain_months og * (Z.of_nat (ax2 (values y)) - 1) < grain_months og) by lia.
      assert (1 <= grain_months og) by (destruct og; cbn; lia). nia.
    - right. assert (P : (p < ax2 (values y))%nat).
      { destruct (sumn_nonzero _ _ Hb) as (o & Ho & Hz). cbv beta in Hz.
        destruct (c0 + grain_months og * Z.of_nat p <=? nth o (odims t) 0) eqn:Z1; [|cbn in Hz; congruence].
        destruct (nth o (odims t) 0 <? c0 + grain_months og * Z.of_nat p + grain_months og) eqn:Z2; [|cbn in Hz; congruence].
        apply Z.leb_le in Z1. apply Z.ltb_lt in Z2.
        destruct (rg_cover _ _ _ _ _ R o) as (p' & Hp' & Hin); [rewrite (sr_2 _ _ S); auto|].
        rewrite Eoy, nth_map_seq, (sr_o _ _ S) in Hin by auto. assert (1 <= grain_months og) by (destruct og; cbn; lia).
        assert (Z.of_nat p < Z.of_nat p' + 1) by nia. lia. }
      assert (Wn : window y i c p (v - 1) v <> 0%Qc).
      { rewrite (rg_amount _ _ _ _ _ R); [|rewrite (sr_0 _ _ S); auto|rewrite (sr_1 _ _ S); auto|auto|].
        2:{ destruct Hv as (j & Hv). exists j. rewrite (sr_vd _ _ S). auto. }
        rewrite EB by auto. rewrite (sr_cum _ _ S), Eoy, nth_map_seq by auto. auto. }
      destruct (sumn_nonzero _ _ Wn) as (d & Hd & Hz). cbv beta in Hz. exists i, c, p, d.
      split; [repeat split; auto; [rewrite (rg_0 _ _ _ _ _ R), (sr_0 _ _ S); auto|rewrite (rg_1 _ _ _ _ _ R), (sr_1 _ _ S); auto]|].
      split; [auto|]. intros E. apply Hz. unfold amount. rewrite E. destruct (_ && _); reflexivity. }
  pose proof (NBy NBw) as NB.
  assert (Vdy : vdate y = vdate t) by (rewrite (rg_vd _ _ _ _ _ R), (sr_vd _ _ S); auto).
  assert (Hdy : hd 0 (odims y) = c0) by (rewrite Eoy, hd_map_seq by auto; lia).
  destruct (to_ages y c0 A' h' M') as (u & Eu & Su & Gu & U3 & SDu & Cu); auto.
  - intros o d Ho Hd. specialize (NFy o d Ho Hd). unfold future in NFy. rewrite Vdy, <- Ekl in NFy. specialize (U kl dl Hkl Hdl). lia.
  - unfold short_history. rewrite Vdy, Hdy. auto.
  - destruct Dy as [Dy|(i & c & p & d & (R1 & R2 & R3 & R4) & Hp & Hc)]; [auto|left].
    specialize (NB i c p d ltac:(repeat split; auto) Hc). rewrite (vgrid_month y c0 A' h' M') in NB by auto.
    rewrite Eoy, nth_map_seq in NB by auto. assert (1 <= grain_months og) by (destruct og; cbn; lia).
    destruct d; [exfalso; rewrite Nat.mul_0_r in NB; nia|lia].
  - exists u, A', h', M'. rewrite grain_to_checks by auto. rewrite Ew. cbn [rbind]. rewrite Ey. cbn [rbind].
    assert (It : is_val_tri t = false) by (unfold is_val_tri; destruct G as (_ & _ & _ & -> & _); reflexivity).
    rewrite It. split; [auto|]. split; [auto|].
    assert (Du : distinct_months u) by (apply (grid_distinct u c0 A' h' M'); auto).
    assert (Dyy : distinct_months y) by (apply wf_distinct; auto).
    constructor.
    + rewrite (sr_k _ _ Su), (rg_k _ _ _ _ _ R), (sr_k _ _ S); auto.
    + rewrite (sr_kl _ _ Su), (rg_kl _ _ _ _ _ R), (sr_kl _ _ S); auto.
    + rewrite (sr_v _ _ Su), (rg_v _ _ _ _ _ R), (sr_v _ _ S); auto.
    + rewrite (sr_vd _ _ Su); auto.
    + rewrite (sr_cum _ _ Su), (rg_cum _ _ _ _ _ R), (sr_cum _ _ S); auto.
    + rewrite (sr_pat _ _ Su), (rg_pat _ _ _ _ _ R), (sr_pat _ _ S); auto.
    + rewrite (sr_0 _ _ Su), (rg_0 _ _ _ _ _ R), (sr_0 _ _ S); auto.
    + rewrite (sr_1 _ _ Su), (rg_1 _ _ _ _ _ R), (sr_1 _ _ S); auto.
    + rewrite (sr_og _ _ Su), (rg_og _ _ _ _ _ R); auto.
    + rewrite (sr_dg _ _ Su), (rg_dg _ _ _ _ _ R); auto.
    + rewrite (sr_o _ _ Su), (sr_2 _ _ Su). auto.
    + intros o Ho. rewrite (sr_o _ _ Su), (sr_2 _ _ Su). rewrite <- (sr_o _ _ S). apply (rg_cover _ _ _ _ _ R). rewrite (sr_2 _ _ S). auto.
    + intros p Hp. rewrite (sr_2 _ _ Su) in Hp. rewrite (sr_o _ _ Su), <- (sr_o _ _ S). apply (rg_last _ _ _ _ _ R); auto.
    + intros o d Ho Hd. rewrite (sr_2 _ _ Su) in Ho. rewrite U3 in Hd.
      assert (Mu : month_of u o d = c0 + A' - 1 + Z.of_nat (h' * (d + M' * o))) by (apply (grid_month u c0 A' h' M'); auto; [rewrite (sr_2 _ _ Su)|rewrite U3]; auto).
      destruct (Nat.lt_ge_cases (d + M' * o) (ax3 (values y))) as [Hk|Hk].
      * left. rewrite Mu, <- (vgrid_month y c0 A' h' M' o _ Vy Hk). destruct (rg_kept _ _ _ _ _ R o _ Ho Hk) as [(j & K)|K].
        -- exists j. rewrite K, (sr_vd _ _ S). reflexivity.
        -- exfalso. apply (NFy o (d + M' * o)%nat); auto.
      * right. unfold future. rewrite Mu, (sr_vd _ _ Su), <- Ly. rewrite (vgrid_month y c0 A' h' M') by (auto; lia).
        destruct Gu as (Hh' & _). assert (h' * (ax3 (values y) - 1) < h' * (d + M' * o))%nat by nia. lia.
    + intros i c p v Hi Hc Hp Hv. rewrite (sr_2 _ _ Su) in Hp.
      rewrite (window_same y u); auto.
      2:{ rewrite (rg_0 _ _ _ _ _ R), (sr_0 _ _ S); auto. }
      2:{ rewrite (rg_1 _ _ _ _ _ R), (sr_1 _ _ S); auto. }
      rewrite (rg_amount _ _ _ _ _ R); [|rewrite (sr_0 _ _ S); auto|rewrite (sr_1 _ _ S); auto|auto|].
      2:{ destruct Hv as (j & Hv). exists j. rewrite (sr_vd _ _ S). auto. }
      rewrite EB by auto. rewrite (sr_cum _ _ S), (sr_o _ _ Su). reflexivity.
Qed.
