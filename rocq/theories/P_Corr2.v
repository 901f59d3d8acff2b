(** Proofs about the calendar year test: which link ratios are counted where. *)
From Coq Require Import Lia.
From Verif Require Import P_Arith P_Agg P_Core P_View P_Grain P_Olf3 P_Corr UnionFacts NumFacts SpecCorr.
Local Open Scope nat_scope.

(** * Above and below the median *)

Lemma count_mono n P Q f : (forall x, P x = true -> Q x = true) -> count_if n P f <= count_if n Q f.
Proof.
  intros H. unfold count_if. induction (seq 0 n) as [|j l IH]; [auto|]. cbn [filter].
  destruct (f j) as [y|]; auto. destruct (P y) eqn:E; [rewrite (H y E); cbn; lia|]. destruct (Q y); cbn; lia.
Qed.
Lemma count_split n P f : count_if n P f + count_if n (fun x => negb (P x)) f = n_known n f.
Proof.
  unfold n_known, count_if. induction (seq 0 n) as [|j l IH]; [auto|]. cbn [filter].
  destruct (f j) as [y|]; auto. destruct (P y); cbn; lia.
Qed.
Lemma count_ext n P Q f : (forall x, P x = Q x) -> count_if n P f = count_if n Q f.
Proof. intros H. apply Nat.le_antisymm; apply count_mono; intros x; rewrite H; auto. Qed.
Lemma count_strict n P Q f o x : o < n -> f o = Some x -> P x = false -> Q x = true -> (forall y, P y = true -> Q y = true) -> count_if n P f < count_if n Q f.
Proof.
  intros Ho E Px Qx H. unfold count_if. assert (I : In o (seq 0 n)) by (apply in_seq; lia). induction (seq 0 n) as [|j l IH]; [destruct I|]. cbn [filter].
  assert (M : List.length (filter (fun j => match f j with Some x => P x | None => false end) l) <= List.length (filter (fun j => match f j with Some x => Q x | None => false end) l)).
  { clear - H. induction l as [|j l IH]; [auto|]. cbn [filter]. destruct (f j) as [y|]; auto. destruct (P y) eqn:E; [rewrite (H y E); cbn; lia|]. destruct (Q y); cbn; lia. }
  destruct I as [->|I].
  - rewrite E, Px, Qx. cbn. lia.
  - specialize (IH I). destruct (f j) as [y|]; auto. destruct (P y) eqn:Ep; [rewrite (H y Ep); cbn; lia|]. destruct (Q y); cbn; lia.
Qed.
Lemma ltb_leb x y : Qc_ltb x y = negb (Qc_leb y x).
Proof. destruct (Qc_ltb_spec x y), (Qc_leb_spec y x); auto; exfalso; qlra. Qed.

Lemma above_median n f m o x : is_median n f m -> o < n -> f o = Some x ->
  ((m < x)%Qc <-> n_known n f <= 2 * count_if n (fun y => Qc_ltb y x) f).
Proof.
  intros (lo & hi & (L1 & L2) & (H1 & H2) & E) Ho Fo. unfold count in E. change (Z.of_nat 2) with 2%Z in E. rewrite qcZ_2 in E.
  pose proof (count_split n (fun y => Qc_ltb y x) f) as SP.
  rewrite (count_ext n (fun y => negb (Qc_ltb y x)) (fun y => Qc_leb x y)) in SP.
  2:{ intros y. rewrite ltb_leb, negb_involutive. reflexivity. }
  split; intros H.
  - destruct (Nat.le_gt_cases (n_known n f) (2 * count_if n (fun y => Qc_ltb y x) f)) as [A|A]; auto. exfalso.
    assert (Lx : (x <= lo)%Qc).
    { destruct (Qc_leb_spec x lo) as [B|B]; auto. exfalso.
      assert (M : count_if n (fun y => Qc_leb x y) f <= count_if n (fun y => Qc_ltb lo y) f).
      { apply count_mono. intros y Hy. destruct (Qc_leb_spec x y); [|discriminate]. destruct (Qc_ltb_spec lo y); auto. exfalso. qlra. }
      lia. }
    assert (Hx : (x <= hi)%Qc).
    { destruct (Qc_leb_spec x hi) as [B|B]; auto. exfalso.
      assert (M : count_if n (fun y => Qc_leb y hi) f <= count_if n (fun y => Qc_ltb y x) f).
      { apply count_mono. intros y Hy. destruct (Qc_leb_spec y hi); [|discriminate]. destruct (Qc_ltb_spec y x); auto. exfalso. qlra. }
      lia. }
    qlra.
  - assert (Lx : (lo < x)%Qc).
    { destruct (Qc_leb_spec x lo) as [B|B]; [|qlra]. exfalso.
      assert (M : count_if n (fun y => Qc_leb lo y) f <= count_if n (fun y => Qc_leb x y) f).
      { apply count_mono. intros y Hy. destruct (Qc_leb_spec lo y); [|discriminate]. destruct (Qc_leb_spec x y); auto. exfalso. qlra. }
      lia. }
    assert (Hx : (hi <= x)%Qc).
    { destruct (Qc_leb_spec hi x) as [B|B]; auto. exfalso.
      assert (M : count_if n (fun y => Qc_ltb y x) f < count_if n (fun y => Qc_ltb y hi) f).
      { apply (count_strict n _ _ f o x); auto.
        - destruct (Qc_ltb_spec x x); auto. exfalso; qlra.
        - destruct (Qc_ltb_spec x hi); auto. exfalso; qlra.
        - intros y Hy. destruct (Qc_ltb_spec y x); [|discriminate]. destruct (Qc_ltb_spec y hi); auto. exfalso. qlra. }
      lia. }
    qlra.
Qed.
Lemma below_median n f m o x : is_median n f m -> o < n -> f o = Some x ->
  ((x < m)%Qc <-> n_known n f <= 2 * count_if n (fun y => Qc_ltb x y) f).
Proof.
  intros (lo & hi & (L1 & L2) & (H1 & H2) & E) Ho Fo. unfold count in E. change (Z.of_nat 2) with 2%Z in E. rewrite qcZ_2 in E.
  pose proof (count_split n (fun y => Qc_ltb x y) f) as SP.
  rewrite (count_ext n (fun y => negb (Qc_ltb x y)) (fun y => Qc_leb y x)) in SP.
  2:{ intros y. rewrite ltb_leb, negb_involutive. reflexivity. }
  split; intros H.
  - destruct (Nat.le_gt_cases (n_known n f) (2 * count_if n (fun y => Qc_ltb x y) f)) as [A|A]; auto. exfalso.
    assert (Lx : (lo <= x)%Qc).
    { destruct (Qc_leb_spec lo x) as [B|B]; auto. exfalso.
      assert (M : count_if n (fun y => Qc_leb lo y) f <= count_if n (fun y => Qc_ltb x y) f).
      { apply count_mono. intros y Hy. destruct (Qc_leb_spec lo y); [|discriminate]. destruct (Qc_ltb_spec x y); auto. exfalso. qlra. }
      lia. }
    assert (Hx : (hi <= x)%Qc).
    { destruct (Qc_leb_spec hi x) as [B|B]; auto. exfalso.
      assert (M : count_if n (fun y => Qc_leb y x) f <= count_if n (fun y => Qc_ltb y hi) f).
      { apply count_mono. intros y Hy. destruct (Qc_leb_spec y x); [|discriminate]. destruct (Qc_ltb_spec y hi); auto. exfalso. qlra. }
      lia. }
    qlra.
  - assert (Lx : (x < hi)%Qc).
    { destruct (Qc_leb_spec hi x) as [B|B]; [|qlra]. exfalso.
      assert (M : count_if n (fun y => Qc_leb y hi) f <= count_if n (fun y => Qc_leb y x) f).
      { apply count_mono. intros y Hy. destruct (Qc_leb_spec y hi); [|discriminate]. destruct (Qc_leb_spec y x); auto. exfalso. qlra. }
      lia. }
    assert (Hx : (x <= lo)%Qc).
    { destruct (Qc_leb_spec x lo) as [B|B]; auto. exfalso.
      assert (M : count_if n (fun y => Qc_ltb x y) f < count_if n (fun y => Qc_ltb lo y) f).
      { apply (count_strict n _ _ f o x); auto.
        - destruct (Qc_ltb_spec x x); auto. exfalso; qlra.
        - destruct (Qc_ltb_spec lo x); auto. exfalso; qlra.
        - intros y Hy. destruct (Qc_ltb_spec x y); [|discriminate]. destruct (Qc_ltb_spec lo y); auto. exfalso. qlra. }
      lia. }
    qlra.
Qed.

(** * Ranks *)

Lemma filter_le {A} (p q : A -> bool) l : (forall x, In x l -> p x = true -> q x = true) -> List.length (filter p l) <= List.length (filter q l).
Proof.
  induction l as [|x l IH]; intros H; [auto|]. cbn [filter]. specialize (IH (fun y Hy => H y (or_intror Hy))). pose proof (H x (or_introl eq_refl)) as Hx.
  destruct (p x); [rewrite Hx by auto; cbn; lia|]. destruct (q x); cbn; lia.
Qed.
Lemma qc_le a b : a <= b -> (qc (Z.of_nat a) <= qc (Z.of_nat b))%Qc.
Proof.
  intros H. destruct (Nat.eq_dec a b) as [->|N]; [qlra|]. assert (P : (0 < qc (Z.of_nat b - Z.of_nat a))%Qc) by (apply qcZ_pos; lia).
  rewrite qcZ_minus in P. qlra.
Qed.
Lemma half_mult (x y : Qc) : (y / qc 2 + y / qc 2 = y)%Qc.
Proof. rewrite qcZ_2. field. apply two_ne. Qed.
Lemma rank_mono l x y : In x l -> In y l -> (x < y)%Qc -> (rank_in l x < rank_in l y)%Qc.
Proof.
  intros Hx Hy H. unfold rank_in.
  assert (A : List.length (filter (fun z => Qc_ltb z x) l) + List.length (filter (fun z => Qc_eqb z x) l) <= List.length (filter (fun z => Qc_ltb z y) l)).
  { clear Hx Hy. induction l as [|z l IH]; [auto|]. cbn [filter]. destruct (Qc_ltb_spec z x), (Qc_eqb_spec z x), (Qc_ltb_spec z y); subst; cbn [List.length]; try lia; exfalso; qlra. }
  assert (B : forall w, In w l -> 1 <= List.length (filter (fun z => Qc_eqb z w) l)).
  { clear. intros w. induction l as [|z l IH]; [intros []|]. intros [->|I]; cbn [filter].
    - destruct (Qc_eqb_spec w w); [cbn; lia|congruence].
    - specialize (IH I). destruct (Qc_eqb z w); cbn; lia. }
  pose proof (B x Hx) as Bx. pose proof (B y Hy) as By. clear B Hx Hy.
  set (a := List.length (filter (fun z => Qc_ltb z x) l)) in *. set (b := List.length (filter (fun z => Qc_eqb z x) l)) in *.
  set (c := List.length (filter (fun z => Qc_ltb z y) l)) in *. set (d := List.length (filter (fun z => Qc_eqb z y) l)) in *. clearbody a b c d.
  apply qc_le in A. apply qc_le in Bx, By. rewrite Nat2Z.inj_add, qcZ_plus in A. change (Z.of_nat 1) with 1%Z in Bx, By. rewrite qcZ_1 in Bx, By.
  set (qa := qc (Z.of_nat a)) in *. set (qb := qc (Z.of_nat b)) in *. set (qd := qc (Z.of_nat d)) in *. set (qe := qc (Z.of_nat c)) in *. clearbody qa qb qd qe.
  pose proof (half_mult 0 (qb + 1)) as E1. pose proof (half_mult 0 (qd + 1)) as E2. set (hb := ((qb + 1) / qc 2)%Qc) in *. set (hd := ((qd + 1) / qc 2)%Qc) in *. clearbody hb hd. qlra.
Qed.
Lemma rank_lt l x y : In x l -> In y l -> Qc_ltb (rank_in l x) (rank_in l y) = Qc_ltb x y.
Proof.
  intros Hx Hy. destruct (Qc_ltb_spec x y) as [H|H].
  - pose proof (rank_mono l x y Hx Hy H). destruct (Qc_ltb_spec (rank_in l x) (rank_in l y)); auto; contradiction.
  - destruct (Qc_eqb_spec x y) as [->|N].
    + destruct (Qc_ltb_spec (rank_in l y) (rank_in l y)); auto; try (exfalso; qlra).
    + assert (H' : (y < x)%Qc). { destruct (Qc_leb_spec x y) as [L|L]; [|qlra]. exfalso. apply N. apply Qcle_antisym; auto. qlra. }
      pose proof (rank_mono l y x Hy Hx H') as R. destruct (Qc_ltb_spec (rank_in l x) (rank_in l y)); auto. exfalso. qlra.
Qed.

Section COLUMN.
  Variables (n : nat) (f : nat -> cell).
  Let l := present (map f (seq 0 n)).
  Let g (o : nat) : cell := option_map (rank_in l) (f o).
  Lemma g_known : n_known n g = n_known n f.
  Proof. unfold n_known, count_if, g. f_equal. apply filter_ext. intros o. destruct (f o); reflexivity. Qed.
  Lemma in_l o x : o < n -> f o = Some x -> In x l.
  Proof. intros Ho E. apply present_In. rewrite <- E. apply in_map, in_seq. lia. Qed.
  Lemma g_below o x : o < n -> f o = Some x -> count_if n (fun r => Qc_ltb r (rank_in l x)) g = count_if n (fun y => Qc_ltb y x) f.
  Proof.
    intros Ho E. unfold count_if, g. f_equal. apply filter_ext_in. intros j Hj. apply in_seq in Hj. destruct (f j) as [y|] eqn:Ey; [|reflexivity].
    cbn [option_map]. apply rank_lt; [apply (in_l j)|apply (in_l o)]; auto; lia.
  Qed.
  Lemma g_above o x : o < n -> f o = Some x -> count_if n (fun r => Qc_ltb (rank_in l x) r) g = count_if n (fun y => Qc_ltb x y) f.
  Proof.
    intros Ho E. unfold count_if, g. f_equal. apply filter_ext_in. intros j Hj. apply in_seq in Hj. destruct (f j) as [y|] eqn:Ey; [|reflexivity].
    cbn [option_map]. apply rank_lt; [apply (in_l o)|apply (in_l j)]; auto; lia.
  Qed.
  Lemma g_median o x : o < n -> f o = Some x -> exists m, median_of (present (map g (seq 0 n))) = Some m /\ is_median n g m.
  Proof.
    intros Ho E. destruct (line_ok AMedian n g) as (_ & H); [split; discriminate|].
    assert (K : 0 < n_known n g).
    { rewrite known_present. assert (I : In (rank_in l x) (present (map g (seq 0 n)))).
      { apply present_In. replace (Some (rank_in l x)) with (g o) by (unfold g; rewrite E; reflexivity). apply (in_map g (seq 0 n) o), in_seq. lia. }
      revert I. generalize (present (map g (seq 0 n))). intros [|y r] I; [destruct I|cbn; lia]. }
    destruct (H (or_introl K)) as (m & M & S). cbn [aggregate_of] in M.
    destruct (median_of (present (map g (seq 0 n)))) as [m'|] eqn:Em.
    - exists m'. split; auto. assert (m' = m); [|subst; auto]. unfold agg_line in S. rewrite Em in S. clear - S. destruct S as (S0 & S1). cbn in S0, S1. destruct (Qc_eqb_spec m 0) as [Z|Z].
      + specialize (S0 Z). destruct (Qc_eqb_spec m' 0); congruence.
      + specialize (S1 Z). destruct (Qc_eqb_spec m' 0); congruence.
    - exfalso. rewrite known_present in K. unfold median_of in Em. revert K Em. generalize (present (map g (seq 0 n))). intros [|y r] K Em; [cbn in K; lia|discriminate].
  Qed.
End COLUMN.

(** * The large and the small link ratios *)

Definition side_of (large : bool) (lr : tri) (i c o d : nat) : bool := if large then is_large lr i c o d else is_small lr i c o d.
Lemma side_ok large lr i c o d : o < ax2 (values lr) ->
  av (side large (values lr)) i c o d = match cel lr i c o d with Some _ => Some (if side_of large lr i c o d then 1%Qc else 0%Qc) | None => None end.
Proof.
  intros Ho. unfold side. cbn [av]. change (av (values lr) i c o d) with (cel lr i c o d). destruct (cel lr i c o d) as [x|] eqn:E; auto.
  set (f := fun o' => cel lr i c o' d). set (n := ax2 (values lr)) in *.
  assert (Eg : line 2 (ranks (values lr)) i c o d = map (fun o' => option_map (rank_in (present (map f (seq 0 n)))) (f o') : cell) (seq 0 n)) by reflexivity.
  assert (Fo : f o = Some x) by exact E.
  destruct (g_median n f o x Ho Fo) as (m & Em & M). rewrite Eg, Em.
  assert (Er : nz (av (ranks (values lr)) i c o d) = rank_in (present (map f (seq 0 n))) x).
  { unfold ranks. cbn [av]. change (av (values lr) i c o d) with (cel lr i c o d). rewrite E. reflexivity. }
  rewrite Er. set (r := rank_in (present (map f (seq 0 n))) x).
  assert (Go : (fun o' => option_map (rank_in (present (map f (seq 0 n)))) (f o') : cell) o = Some r) by (cbv beta; rewrite Fo; reflexivity).
  f_equal. unfold side_of. destruct large.
  - pose proof (above_median n _ m o r M Ho Go) as A. rewrite g_known in A. unfold r in A at 2. rewrite (g_below n f o x Ho Fo) in A.
    unfold is_large. rewrite E. change (fun o' : nat => cel lr i c o' d) with f. fold n.
    destruct (Qc_ltb_spec m r) as [H|H], (Nat.leb_spec (n_known n f) (2 * count_if n (fun y => Qc_ltb y x) f)) as [H'|H']; auto; exfalso.
    + apply A in H. lia.
    + apply A in H'. auto.
  - pose proof (below_median n _ m o r M Ho Go) as A. rewrite g_known in A. unfold r in A at 2. rewrite (g_above n f o x Ho Fo) in A.
    unfold is_small. rewrite E. change (fun o' : nat => cel lr i c o' d) with f. fold n.
    destruct (Qc_ltb_spec r m) as [H|H], (Nat.leb_spec (n_known n f) (2 * count_if n (fun y => Qc_ltb x y) f)) as [H'|H']; auto; exfalso.
    + apply A in H. lia.
    + apply A in H'. auto.
Qed.

(** * Counting by calendar period *)

Lemma sum_filter_seq (P : nat -> bool) n : sumn n (fun j => if P j then 1%Qc else 0%Qc) = qc (Z.of_nat (List.length (filter P (seq 0 n)))).
Proof.
  induction n as [|n IH]; [reflexivity|]. rewrite seq_S, filter_app, app_length, Nat2Z.inj_add, qcZ_plus, <- IH. cbn [sumn filter Nat.add]. destruct (P n); cbn [List.length]; [change (qc (Z.of_nat 1)) with 1%Qc|change (qc (Z.of_nat 0)) with 0%Qc]; ring.
Qed.
Lemma filter_prod {A B} (P : A -> B -> bool) (la : list A) (lb : list B) :
  List.length (filter (fun ab => P (fst ab) (snd ab)) (list_prod la lb)) = fold_right plus 0 (map (fun a => List.length (filter (P a) lb)) la).
Proof.
  induction la as [|a la IH]; [reflexivity|]. cbn [list_prod map fold_right]. rewrite filter_app, app_length, IH. f_equal.
  clear. induction lb as [|b lb IH]; [reflexivity|]. cbn [map filter fst snd]. destruct (P a b); cbn [List.length]; rewrite IH; reflexivity.
Qed.
Lemma sum_prod (P : nat -> nat -> bool) n m :
  sumn n (fun o => sumn m (fun d => if P o d then 1%Qc else 0%Qc)) = qc (Z.of_nat (List.length (filter (fun od => P (fst od) (snd od)) (list_prod (seq 0 n) (seq 0 m))))).
Proof.
  rewrite filter_prod. induction n as [|n IH]; [reflexivity|]. rewrite seq_S, map_app, fold_right_app. cbn [sumn map fold_right Nat.add]. rewrite IH, sum_filter_seq.
  set (k := List.length (filter (P n) (seq 0 m))). clearbody k. clear IH. rewrite <- qcZ_plus. f_equal. rewrite <- Nat2Z.inj_add. f_equal.
  induction (map (fun a => List.length (filter (P a) (seq 0 m))) (seq 0 n)) as [|y r IH]; cbn [fold_right]; lia.
Qed.

(** Read by date: the amount of a month in the valuation view. *)
Lemma by_date t u i c o e : wf t -> (forall d, d < ax3 (values u) -> month_of u o d = month_of u o e -> d = e) ->
  same_data_by_date t u -> i < ax0 (values t) -> c < ax1 (values t) -> o < ax2 (values t) -> e < ax3 (values u) ->
  nz (cel u i c o e) = sumn (ax3 (values t)) (fun d => if (month_of t o d =? month_of u o e)%Z then nz (cel t i c o d) else 0%Qc).
Proof.
  intros W Inj (SR & FI & FJ) Hi Hc Ho He. destruct (cel u i c o e) as [q|] eqn:E.
  - destruct (FJ i c o e q) as (d & Hd & Md & Cd); auto.
    { unfold in_range. rewrite (sr_0 _ _ SR), (sr_1 _ _ SR), (sr_2 _ _ SR). auto. }
    rewrite (sumn_single _ d); auto.
    + rewrite Md, Z.eqb_refl, Cd. reflexivity.
    + intros d' Hd' N. destruct (Z.eqb_spec (month_of t o d') (month_of u o e)) as [M|M]; auto. exfalso. apply N. apply (month_inj t o d' d W Ho Hd' Hd). congruence.
  - rewrite sumn_zero; [reflexivity|]. intros d Hd. destruct (Z.eqb_spec (month_of t o d) (month_of u o e)) as [M|M]; auto.
    destruct (cel t i c o d) as [q|] eqn:C; [|reflexivity]. exfalso. destruct (FI i c o d q) as (e' & He' & M' & C'); [repeat split; auto|auto|].
    assert (e' = e) by (apply Inj; auto; congruence). subst. congruence.
Qed.

Section COUNT.
  Variables (lr : tri) (o0 a0 : Z) (h m : nat).
  Hypothesis T : testable lr o0 a0 h m.
  Variable large : bool.
  Let t := set_values lr (side large (values lr)).
  Lemma side_none i c o d : o < ax2 (values lr) -> cel t i c o d = None <-> cel lr i c o d = None.
  Proof using. intros Ho. unfold cel at 1. change (values t) with (side large (values lr)). rewrite side_ok by auto. destruct (cel lr i c o d); split; congruence. Qed.
  Lemma calendar_count_ok : exists a, calendar_count large lr = Ok a /\
    ax3 a = List.length (known_valuations lr) /\
    forall i c e, i < ax0 (values lr) -> c < ax1 (values lr) -> e < List.length (known_valuations lr) ->
      av a i c 0 e = Some (qc (Z.of_nat (in_period lr (nth e (known_valuations lr) 0%Z) (side_of large lr i c)))).
  Proof using T.
    destruct T as [W G Hg B D U F].
    assert (Wt : wf t) by (apply wf_set_values; auto).
    assert (Bt : blank_future t). { intros i c o d R Fu. apply side_none; [apply R|]. apply B; auto. }
    assert (Dt : data_beyond_first t).
    { destruct D as [D0|(i & c & o & d & R & H1 & H2)]; [left; exact D0|]. right. exists i, c, o, d. split; [exact R|]. split; auto. intros E. apply side_none in E; [auto|apply R]. }
    destruct (to_valuation t o0 a0 h m Wt G Hg Bt Dt U) as (u & Eu & Sh & V & SD & L & Ed); [left; exact F|].
    unfold calendar_count. fold t. rewrite Eu. cbn [rbind]. eexists. split; [reflexivity|].
    change (known_valuations t) with (known_valuations lr) in *. pose proof SD as (SR & _ & _).
    split. { cbn [map_arr ax3]. rewrite (af_3 _ _ _ (agg_frame_ok ASum u AxOrigin)). exact L. }
    intros i c e Hi Hc He. cbn [map_arr av]. f_equal.
    change (av (values (agg_axis ASum u AxOrigin)) i c 0 e) with (cel (agg_axis ASum u AxOrigin) i c 0 e).
    destruct (agg_cell_ok ASum u AxOrigin i c 0 e) as (_ & H); [split; discriminate|]. destruct H as (x & Ex & S); [auto|].
    assert (N : nz (cel (agg_axis ASum u AxOrigin) i c 0 e) = x).
    { clear - S. destruct S as (S0 & S1). destruct (Qc_eqb_spec x 0) as [Z|Z]; [rewrite (S0 Z)|rewrite (S1 Z)]; auto. }
    rewrite N. cbn [aggregate_of] in Ex. rewrite Ex. unfold axis_length, along. cbn [axis_num axn]. rewrite (sr_2 _ _ SR).
    change (ax2 (values t)) with (ax2 (values lr)).
    assert (Mu : forall o d, month_of u o d = nth d (known_valuations lr) 0%Z) by (intros; unfold month_of; rewrite Ed; reflexivity).
    assert (ND : NoDup (known_valuations lr)) by (apply sorted_NoDup, zunion_sorted).
    unfold in_period. rewrite <- (sum_prod (fun o d => (month_of lr o d =? nth e (known_valuations lr) 0)%Z && side_of large lr i c o d)).
    apply sumn_ext. intros o Ho.
    rewrite (by_date t u i c o e Wt); auto; [|intros d Hd Md; rewrite !Mu in Md; apply (proj1 (NoDup_nth _ 0%Z) ND); auto; congruence|rewrite L; exact He].
    change (ax3 (values t)) with (ax3 (values lr)). apply sumn_ext. intros d Hd. rewrite Mu. change (month_of t o d) with (month_of lr o d).
    destruct (month_of lr o d =? nth e (known_valuations lr) 0)%Z; [|reflexivity]. cbn [andb].
    unfold cel. change (values t) with (side large (values lr)). rewrite side_ok by auto. unfold side_of, is_large, is_small.
    destruct (cel lr i c o d); [destruct large; destruct (_ <=? _); reflexivity|destruct large; reflexivity].
  Qed.
End COUNT.

(** * The test *)

Lemma whole_nat n : whole (qc (Z.of_nat n)) = n.
Proof.
  unfold whole, qc. cbn [this Q2Qc]. rewrite (Qround.Qfloor_comp _ (inject_Z (Z.of_nat n))) by apply Qred_correct. rewrite Qround.Qfloor_Z. apply Nat2Z.id.
Qed.
Lemma qmin_nat a b : qmin (qc (Z.of_nat a)) (qc (Z.of_nat b)) = qc (Z.of_nat (Nat.min a b)).
Proof.
  unfold qmin. destruct (Qc_leb_spec (qc (Z.of_nat a)) (qc (Z.of_nat b))) as [H|H].
  - destruct (Nat.le_gt_cases a b) as [L|L]; [rewrite Nat.min_l by auto; reflexivity|]. exfalso.
    assert (P : (0 < qc (Z.of_nat a - Z.of_nat b))%Qc) by (apply qcZ_pos; lia). rewrite qcZ_minus in P. qlra.
  - destruct (Nat.le_gt_cases a b) as [L|L]; [exfalso; apply H, qc_le; auto|]. rewrite Nat.min_r by lia. reflexivity.
Qed.
Lemma test_period_ok p l s : reports p l s (test_period p (qc (Z.of_nat l)) (qc (Z.of_nat s))).
Proof.
  unfold test_period. rewrite qmin_nat, <- qcZ_plus, <- Nat2Z.inj_add, !whole_nat. unfold reports. cbn [ct_z ct_n ct_expectation ct_variance ct_prob ct_critical].
  rewrite mean_ok, variance_ok, prob_ok. repeat split; auto.
  - intros H. destruct (Qc_ltb_spec (coins_prob (l + s) (Nat.min l s)) p); [auto|discriminate].
  - intros H. destruct (Qc_ltb_spec (coins_prob (l + s) (Nat.min l s)) p); auto.
Qed.
Lemma test_ok lr o0 a0 h m p : testable lr o0 a0 h m -> (0 <= p)%Qc -> (p <= 1)%Qc ->
  exists r vs, valuation_test p lr = Ok r /\ valuation_months lr vs /\
    forall i c, i < ax0 (values lr) -> c < ax1 (values lr) ->
      List.length (r i c) = List.length vs /\
      forall e, e < List.length vs ->
        exists x, nth_error (r i c) e = Some x /\
          reports p (in_period lr (nth e vs 0%Z) (is_large lr i c)) (in_period lr (nth e vs 0%Z) (is_small lr i c)) x.
Proof.
  intros T P0 P1. unfold valuation_test.
  replace (Qc_leb 0 p && Qc_leb p 1) with true by (destruct (Qc_leb_spec 0 p), (Qc_leb_spec p 1); auto; contradiction).
  destruct (calendar_count_ok lr o0 a0 h m T true) as (l & El & Ll & Cl). destruct (calendar_count_ok lr o0 a0 h m T false) as (s & Es & Ls & Cs).
  rewrite El, Es. cbn [rbind]. eexists. exists (known_valuations lr). split; [reflexivity|]. split.
  { split; [apply StronglySorted_Sorted, zunion_sorted|]. intros v. apply known_in, T. }
  intros i c Hi Hc. split; [rewrite map_length, seq_length; exact Ll|]. intros e He.
  eexists. split.
  - rewrite nth_error_map. rewrite (nth_error_nth' _ 0) by (rewrite seq_length, Ll; exact He). cbn [option_map]. rewrite seq_nth by (rewrite Ll; exact He). reflexivity.
  - cbn [Nat.add]. rewrite Cl, Cs by auto. cbn [nz]. apply test_period_ok.
Qed.
Lemma test_bad p lr : ~ ((0 <= p)%Qc /\ (p <= 1)%Qc) -> valuation_test p lr = Err ValueError.
Proof. intros H. unfold valuation_test. destruct (Qc_leb_spec 0 p), (Qc_leb_spec p 1); auto. exfalso; auto. Qed.
Lemma total_never ci2 l : (ci2 <= 0)%Qc -> total_critical ci2 l = false.
Proof.
  intros H. unfold total_critical. cbn [fst snd]. set (v := total_variance l). destruct (Qc_ltb_spec v (v + ci2)%Qc); [exfalso; qlra|].
  destruct (Qc_ltb_spec (v - ci2)%Qc v); [exfalso; qlra|reflexivity].
Qed.
