From Coq Require Import Lia Sorted Permutation.
From Verif Require Import SpecBuild SpecPandas P_Align2 CatFacts P_Calendar NumFacts ArrFacts TriFacts UnionFacts P_Group P_Core DevFacts.
Local Open Scope Z_scope.

(** * Periods *)
Lemma step_pos g : 1 <= months_in g. Proof. destruct g; cbn; lia. Qed.
Lemma step_months_in g : step_months g = months_in g. Proof. destruct g; auto. Qed.
Lemma start_first gc m : fst gc <> GS -> period_start gc m = first_month gc m.
Proof.
  intros H. unfold period_start, first_month. assert (E : anchor_months (fst gc) = months_in (fst gc)) by (destruct (fst gc); auto; congruence).
  rewrite E. pose proof (step_pos (fst gc)). pose proof (Z.div_mod (m - (snd gc + 1)) (months_in (fst gc)) ltac:(lia)). lia.
Qed.
Lemma first_le gc m : first_month gc m <= m < first_month gc m + months_in (fst gc).
Proof.
  unfold first_month. pose proof (step_pos (fst gc)). set (g := months_in (fst gc)) in *. set (x := m - (snd gc + 1)).
  pose proof (Z.div_mod x g ltac:(lia)). pose proof (Z.mod_pos_bound x g ltac:(lia)). unfold x in *. lia.
Qed.
Lemma first_of_add gc a k : first_month gc a = a -> first_month gc (a + months_in (fst gc) * k) = a + months_in (fst gc) * k.
Proof.
  unfold first_month. intros H. pose proof (step_pos (fst gc)). set (g := months_in (fst gc)) in *. set (b := snd gc + 1) in *.
  replace (a + g * k - b) with (a - b + k * g) by lia. rewrite Z.div_add by lia. lia.
Qed.
Lemma first_idem gc m : first_month gc (first_month gc m) = first_month gc m.
Proof.
  unfold first_month at 1. pose proof (step_pos (fst gc)). set (g := months_in (fst gc)) in *. unfold first_month. fold g. set (b := snd gc + 1).
  replace (b + g * ((m - b) / g) - b) with ((m - b) / g * g) by lia. rewrite Z.div_mul by lia. lia.
Qed.
Lemma first_diff gc a b : first_month gc a = a -> first_month gc b = b -> exists k, b = a + months_in (fst gc) * k.
Proof.
  unfold first_month. intros A B. exists ((b - (snd gc + 1)) / months_in (fst gc) - (a - (snd gc + 1)) / months_in (fst gc)). lia.
Qed.
Lemma first_aligned g c m : (c + 1) mod months_in g = 0 -> first_month (g, 11) m = first_month (g, c) m.
Proof.
  intros H. unfold first_month. cbn [fst snd]. pose proof (step_pos g) as P. 
  assert (E : (11 + 1) mod months_in g = 0) by (destruct g; reflexivity).
  assert (D : exists k, 11 + 1 = c + 1 + k * months_in g).
  { exists ((11 + 1) / months_in g - (c + 1) / months_in g). pose proof (Z.div_mod (11 + 1) (months_in g) ltac:(lia)). pose proof (Z.div_mod (c + 1) (months_in g) ltac:(lia)). lia. }
  destruct D as (k & D). rewrite D. replace (m - (c + 1 + k * months_in g)) with (m - (c + 1) + (- k) * months_in g) by lia.
  rewrite Z.div_add by lia. lia.
Qed.
Lemma first_aligned' gc m : (snd gc + 1) mod months_in (fst gc) = 0 -> first_month (fst gc, 11) m = first_month gc m.
Proof. destruct gc as (g, c). apply first_aligned. Qed.
Lemma period_range_In gc a b x : fst gc <> GS ->
  In x (period_range gc a b) <-> first_month gc x = x /\ first_month gc a <= x <= b.
Proof.
  intros H. unfold period_range. rewrite !start_first by auto. rewrite step_months_in. pose proof (step_pos (fst gc)) as P.
  set (g := months_in (fst gc)) in *. set (s := first_month gc a). assert (Fs : first_month gc s = s) by apply first_idem.
  pose proof (first_le gc b) as LB. fold g in LB. assert (FB : first_month gc (first_month gc b) = first_month gc b) by apply first_idem. set (e := first_month gc b) in *.
  destruct (first_diff gc s e Fs FB) as (k & Ek). fold g in Ek.
  assert (Q : (e - s) / g = k). { rewrite Ek. replace (s + g * k - s) with (k * g) by lia. apply Z.div_mul. lia. }
  rewrite Q, in_map_iff. split.
  - intros (j & <- & Hj). apply in_seq in Hj. split; [apply first_of_add; auto|]. nia.
  - intros (Fx & L & U). destruct (first_diff gc s x Fs Fx) as (j & Ej). fold g in Ej.
    assert (0 <= j) by nia. assert (x <= e).
    { destruct (Z.le_gt_cases x e); auto. exfalso. assert (J : k < j) by nia. assert (g * (k + 1) <= g * j) by nia. lia. }
    assert (j <= k) by nia. exists (Z.to_nat j). split; [lia|]. apply in_seq. lia.
Qed.
Lemma period_range_sorted gc a b : fst gc <> GS -> StronglySorted Z.lt (period_range gc a b).
Proof.
  intros H. unfold period_range. pose proof (step_pos (fst gc)). rewrite <- step_months_in in *. set (g := step_months (fst gc)) in *. generalize (period_start gc a) as s. intros s.
  generalize (Z.to_nat ((period_start gc b - s) / g + 1)) as n. intros n. generalize 0%nat as i. induction n as [|n IH]; intros i; cbn; constructor; auto.
  apply Forall_forall. intros x Hx. apply in_map_iff in Hx. destruct Hx as (j & <- & Hj). apply in_seq in Hj. nia.
Qed.

(** * Sorted lists of numbers *)
Lemma zsort_In l x : In x (zsort l) <-> In x l.
Proof. induction l as [|y l IH]; cbn; [tauto|]. rewrite zinsert_In, IH. intuition (subst; auto). Qed.
Lemma zsort_sorted l : StronglySorted Z.lt (zsort l).
Proof. induction l; cbn; [constructor|apply zinsert_sorted; auto]. Qed.
Lemma zsorted_ext l m : StronglySorted Z.lt l -> StronglySorted Z.lt m -> (forall x, In x l <-> In x m) -> l = m.
Proof.
  intros S. revert m. induction S as [|a l S IH F]; intros m T E.
  - destruct m as [|b m]; auto. destruct (proj2 (E b)); left; auto.
  - inversion T as [|b m' T' G]; subst; [destruct (proj1 (E a)); left; auto|]. rewrite Forall_forall in F, G.
    assert (a = b).
    { destruct (proj1 (E a) (or_introl eq_refl)) as [<-|Ha]; auto. destruct (proj2 (E b) (or_introl eq_refl)) as [->|Hb]; auto.
      specialize (F b Hb). specialize (G a Ha). lia. }
    subst b. f_equal. apply IH; auto. intros x. specialize (E x). cbn in E. split; intros Hx.
    + destruct (proj1 E (or_intror Hx)) as [<-|]; auto. specialize (F a Hx). lia.
    + destruct (proj2 E (or_intror Hx)) as [<-|]; auto. specialize (G a Hx). lia.
Qed.

(** * Group keys *)
Definition gkey_lt (x y : gkey) : Prop :=
  let '(o, d, k) := x in let '(o', d', k') := y in o < o' \/ (o = o' /\ (d < d' \/ (d = d' /\ key_lt k k'))).
Lemma gkey_eqb_eq x y : gkey_eqb x y = true <-> x = y.
Proof.
  destruct x as ((o, d), k), y as ((o', d'), k'). cbn. rewrite !andb_true_iff, !Z.eqb_eq, strs_eqb_eq. split.
  - intros ((-> & ->) & ->). auto.
  - intros [= -> -> ->]. auto.
Qed.
Lemma gkey_irrefl x : ~ gkey_lt x x.
Proof. destruct x as ((o, d), k). cbn. intros [H|(_ & [H|(_ & H)])]; try lia. exact (key_lt_irrefl _ H). Qed.
Lemma gkey_trans x y z : gkey_lt x y -> gkey_lt y z -> gkey_lt x z.
Proof.
  destruct x as ((o, d), k), y as ((o', d'), k'), z as ((o2, d2), k2). cbn.
  intros [H|(-> & [H|(-> & H)])] [G|(-> & [G|(-> & G)])]; try (left; lia); try (right; split; auto; left; lia).
  right; split; auto. right; split; auto. eapply key_lt_trans; eauto.
Qed.
Lemma gkey_cmp x y : gkey_eqb x y = false -> (gkey_leb x y = true -> gkey_lt x y) /\ (gkey_leb x y = false -> gkey_lt y x).
Proof.
  intros E. assert (N : x <> y) by (intros ->; rewrite (proj2 (gkey_eqb_eq y y) eq_refl) in E; discriminate).
  destruct x as ((o, d), k), y as ((o', d'), k'). cbn. destruct (Z.ltb_spec o o'); cbn; [split; [auto|discriminate]|].
  destruct (Z.eqb_spec o o') as [->|]; cbn; [|split; [discriminate|intros _; left; lia]].
  destruct (Z.ltb_spec d d'); cbn; [split; [auto|discriminate]|].
  destruct (Z.eqb_spec d d') as [->|]; cbn; [|split; [discriminate|intros _; right; split; auto; left; lia]].
  split; intros K.
  - apply key_leb_le in K. destruct K as [->|K]; [congruence|auto].
  - apply key_leb_gt in K. auto.
Qed.
Lemma gkey_insert_In x l y : In y (gkey_insert x l) <-> y = x \/ In y l.
Proof.
  induction l as [|z l IH]; cbn; [intuition|]. destruct (gkey_eqb x z) eqn:E.
  - apply gkey_eqb_eq in E. subst. cbn. intuition.
  - destruct (gkey_leb x z); cbn; [intuition|]. rewrite IH. intuition.
Qed.
Lemma gkey_insert_sorted x l : StronglySorted gkey_lt l -> StronglySorted gkey_lt (gkey_insert x l).
Proof.
  induction 1 as [|y l S IH F]; cbn; [repeat constructor|]. destruct (gkey_eqb x y) eqn:E; [constructor; auto|].
  destruct (gkey_cmp _ _ E) as (A & B). destruct (gkey_leb x y).
  - constructor; [constructor; auto|]. constructor; auto. eapply Forall_impl; [|exact F]. intros z. apply gkey_trans; auto.
  - constructor; auto. apply Forall_forall. intros z Hz. apply gkey_insert_In in Hz. destruct Hz as [->|Hz]; auto. rewrite Forall_forall in F. auto.
Qed.
Definition gkeys (l : list gkey) : list gkey := fold_right gkey_insert [] l.
Lemma gkeys_In l x : In x (gkeys l) <-> In x l.
Proof. induction l as [|y l IH]; cbn; [tauto|]. rewrite gkey_insert_In, IH. intuition. Qed.
Lemma gkeys_sorted l : StronglySorted gkey_lt (gkeys l).
Proof. induction l; cbn; [constructor|apply gkey_insert_sorted; auto]. Qed.
Lemma gsorted_NoDup l : StronglySorted gkey_lt l -> NoDup l.
Proof.
  induction 1 as [|y l S IH F]; constructor; auto. intros I. rewrite Forall_forall in F. exact (gkey_irrefl _ (F _ I)).
Qed.
Lemma gsorted_ext l m : StronglySorted gkey_lt l -> StronglySorted gkey_lt m -> (forall x, In x l <-> In x m) -> l = m.
Proof.
  intros S. revert m. induction S as [|a l S IH F]; intros m T E.
  - destruct m as [|b m]; auto. destruct (proj2 (E b)); left; auto.
  - inversion T as [|b m' T' G]; subst; [destruct (proj1 (E a)); left; auto|]. rewrite Forall_forall in F, G.
    assert (a = b).
    { destruct (proj1 (E a) (or_introl eq_refl)) as [<-|Ha]; auto. destruct (proj2 (E b) (or_introl eq_refl)) as [->|Hb]; auto.
      exfalso. apply (gkey_irrefl a). eapply gkey_trans; [apply F; eauto|apply G; auto]. }
    subst b. f_equal. apply IH; auto. intros x. specialize (E x). cbn in E. split; intros Hx.
    + destruct (proj1 E (or_intror Hx)) as [<-|]; auto. exfalso. exact (gkey_irrefl a (F a Hx)).
    + destruct (proj2 E (or_intror Hx)) as [<-|]; auto. exfalso. exact (gkey_irrefl a (G a Hx)).
Qed.

(** Sums over the groups are sums over the rows. *)
Lemma qsum_filter_split {A} (p q : A -> bool) f l : (forall x, In x l -> p x = true -> q x = true -> False) ->
  qsum (map f (filter (fun x => p x || q x) l)) = (qsum (map f (filter p l)) + qsum (map f (filter q l)))%Qc.
Proof.
  induction l as [|x l IH]; intros H; [symmetry; apply Qcplus_0_l|]. cbn [filter].
  assert (IH' := IH (fun y Hy => H y (or_intror Hy))). specialize (H x (or_introl eq_refl)).
  destruct (p x), (q x); cbn [orb map qsum fold_right]; fold (qsum (map f (filter (fun x => p x || q x) l))); fold (qsum (map f (filter p l))); fold (qsum (map f (filter q l))).
  - exfalso; auto.
  - rewrite IH'. ring.
  - rewrite IH'. ring.
  - auto.
Qed.
Lemma group_sums {A} (key : A -> gkey) (f : A -> Qc) (P : gkey -> bool) (G : list gkey) (l : list A) : NoDup G ->
  qsum (map (fun g => qsum (map f (filter (fun r => gkey_eqb (key r) g) l))) (filter P G)) =
  qsum (map f (filter (fun r => P (key r) && existsb (gkey_eqb (key r)) G) l)).
Proof.
  induction 1 as [|g G N ND IH].
  - cbn. replace (filter (fun r => P (key r) && false) l) with (@nil A); auto. induction l as [|x l IHl]; auto. cbn. rewrite andb_false_r. auto.
  - cbn [filter existsb]. destruct (P g) eqn:Pg.
    + cbn [map qsum fold_right]. fold (qsum (map (fun g => qsum (map f (filter (fun r => gkey_eqb (key r) g) l))) (filter P G))). rewrite IH.
      rewrite <- (qsum_filter_split (fun r => gkey_eqb (key r) g)).
      * f_equal. f_equal. apply filter_ext_in. intros x _. destruct (gkey_eqb (key x) g) eqn:E; cbn [orb]; auto.
        apply gkey_eqb_eq in E. rewrite E, Pg. auto.
      * intros x _ E1 E2. apply gkey_eqb_eq in E1. apply andb_true_iff in E2. destruct E2 as (_ & E2). apply existsb_exists in E2. destruct E2 as (h & I & E2).
        apply gkey_eqb_eq in E2. congruence.
    + rewrite IH. f_equal. f_equal. apply filter_ext_in. intros x _. destruct (gkey_eqb (key x) g) eqn:E; cbn [orb]; auto.
      apply gkey_eqb_eq in E. rewrite E, Pg. auto.
Qed.

(** * The axes *)
Lemma first_keys_In l : forall seen k, In k (first_keys l seen) <-> In k l /\ ~ In k seen.
Proof.
  induction l as [|x l IH]; intros seen k; cbn [first_keys]; [cbn; tauto|]. destruct (existsb (strs_eqb x) seen) eqn:E.
  - apply existsb_key in E. rewrite IH. cbn [In]. split; [tauto|]. intros ([->|H] & N); [contradiction|auto].
  - assert (Nx : ~ In x seen) by (intros I; apply existsb_key in I; congruence). cbn [In]. rewrite IH. cbn [In]. split.
    + intros [<-|(H & N)]; tauto.
    + intros ([->|H] & N); [auto|]. destruct (list_eq_dec string_dec x k) as [->|D]; [auto|]. right. split; auto. intros [F|F]; auto.
Qed.
Lemma first_keys_NoDup l : forall seen, NoDup (first_keys l seen).
Proof.
  induction l as [|x l IH]; intros seen; cbn [first_keys]; [constructor|]. destruct (existsb (strs_eqb x) seen); auto.
  constructor; auto. rewrite first_keys_In. cbn. tauto.
Qed.
Lemma In_nth' {A} (l : list A) x d : In x l -> exists i, (i < List.length l)%nat /\ nth i l d = x.
Proof. intros H. destruct (In_nth l x d H) as (n & ? & ?). eauto. Qed.
Lemma filter_map_comm {A B} (f : A -> B) p l : filter p (map f l) = map f (filter (fun x => p (f x)) l).
Proof. induction l as [|x l IH]; cbn; auto. destruct (p (f x)); cbn; rewrite IH; auto. Qed.
Lemma filter_filter {A} (p q : A -> bool) l : filter p (filter q l) = filter (fun x => q x && p x) l.
Proof. induction l as [|x l IH]; cbn; auto. destruct (q x); cbn; rewrite IH; auto. Qed.

Section Built.
Variables (trailing : bool) (og dg : grain * Z) (labels columns : list string) (cumulative : option bool) (table : list rec).
Hypothesis Og : fst og <> GS.
Hypothesis Dg : fst dg <> GS.
Hypothesis Close : (snd og + 1) mod months_in (fst og) = 0.
Hypothesis Dates : forall r, In r table -> 12 * 1900 <= dm (r_o r) < 12 * 2079 /\ 12 * 1900 <= dm (r_d r) < 12 * 2079.

Let O (r : rec) := first_month og (dm (r_o r)).
Let D (r : rec) := last_month dg (dm (r_d r)).
Let mk (g : gkey) := let '(o, d, k) := g in ARow o d k (map (group_sum og dg table g) (seq 0 (List.length columns))).
Let rows := filter valid_row (aggregate og dg (List.length columns) table).

Lemma end_last m : Build.period_end dg m = last_month dg m.
Proof. unfold Build.period_end, last_month. rewrite start_first, step_months_in; auto. Qed.
Lemma group_of_eq r : group_of og dg r = (O r, D r, r_key r).
Proof. unfold group_of. rewrite start_first, end_last; auto. Qed.
Lemma rows_In x : In x rows <-> exists r, In r table /\ counts og dg r = true /\ x = mk (O r, D r, r_key r).
Proof.
  unfold rows, aggregate. rewrite filter_In, in_map_iff. fold (gkeys (map (group_of og dg) table)). split.
  - intros ((g & <- & H) & V). apply (proj1 (gkeys_In _ _)) in H. apply in_map_iff in H. destruct H as (r & <- & Hr). exists r. rewrite group_of_eq in *. cbn in V. auto.
  - intros (r & Hr & C & ->). split; [|exact C]. exists (O r, D r, r_key r). split; auto. apply gkeys_In. apply in_map_iff. exists r. rewrite group_of_eq. auto.
Qed.
Lemma rows_fields x : In x rows -> exists r, In r table /\ counts og dg r = true /\ a_o x = O r /\ a_d x = D r /\ a_key x = r_key r.
Proof. intros H. apply rows_In in H. destruct H as (r & ? & ? & ->). exists r. cbn. auto. Qed.
Lemma rows_of r : In r table -> counts og dg r = true -> exists x, In x rows /\ a_o x = O r /\ a_d x = D r /\ a_key x = r_key r.
Proof. intros H C. exists (mk (O r, D r, r_key r)). split; [|cbn; auto]. apply rows_In. eauto. Qed.
Lemma O_first r : first_month og (O r) = O r. Proof. apply first_idem. Qed.
Lemma D_last r : first_month dg (D r - months_in (fst dg) + 1) = D r - months_in (fst dg) + 1.
Proof. unfold D, last_month. replace (first_month dg (dm (r_d r)) + months_in (fst dg) - 1 - months_in (fst dg) + 1) with (first_month dg (dm (r_d r))) by lia. apply first_idem. Qed.
Lemma OD_bounds r : In r table -> 22789 <= O r <= 24947 /\ 22800 <= D r <= 24958.
Proof.
  intros H. destruct (Dates r H) as (A & B). pose proof (first_le og (dm (r_o r))). pose proof (first_le dg (dm (r_d r))). unfold O, D, last_month.
  assert (1 <= months_in (fst og) <= 12) by (destruct (fst og); cbn; lia). assert (1 <= months_in (fst dg) <= 12) by (destruct (fst dg); cbn; lia). lia.
Qed.

Variable x0 : arow.
Hypothesis X0 : In x0 rows.
Let omin := zminl (map a_o rows) (a_o x0).
Let omax := zmaxl (map a_o rows) (a_o x0).
Let dmin := zminl (map a_d rows) (a_d x0).
Let dmax := zmaxl (map a_d rows) (a_d x0).
Lemma ext_in (f : arow -> Z) z : In z (f x0 :: map f rows) -> exists x, In x rows /\ f x = z.
Proof. intros [<-|H]; [eauto|]. apply in_map_iff in H. destruct H as (x & <- & ?). eauto. Qed.
Lemma ext_le (f : arow -> Z) x : In x rows -> zminl (map f rows) (f x0) <= f x <= zmaxl (map f rows) (f x0).
Proof. intros H. assert (In (f x) (f x0 :: map f rows)) by (right; apply in_map; auto). split; [apply zminl_le|apply zmaxl_ge]; auto. Qed.
Lemma ext_of (f : arow -> Z) : exists x y, In x rows /\ In y rows /\ f x = zminl (map f rows) (f x0) /\ f y = zmaxl (map f rows) (f x0).
Proof.
  destruct (ext_in f _ (zminl_in (map f rows) (f x0))) as (x & ? & ?). destruct (ext_in f _ (zmaxl_in (map f rows) (f x0))) as (z & ? & ?). exists x, z. auto.
Qed.
Lemma row_facts x : In x rows -> first_month og (a_o x) = a_o x /\ first_month dg (a_d x - months_in (fst dg) + 1) = a_d x - months_in (fst dg) + 1 /\
  a_o x <= a_d x /\ 22789 <= a_o x <= 24947 /\ 22800 <= a_d x <= 24958 /\ omin <= a_o x <= omax /\ dmin <= a_d x <= dmax.
Proof.
  intros H. pose proof (ext_le a_o x H). pose proof (ext_le a_d x H). destruct (rows_fields x H) as (r & Hr & C & Eo & Ed & _).
  pose proof (OD_bounds r Hr) as (B1 & B2). apply Z.leb_le in C. fold (O r) (D r) in C. rewrite <- Eo, <- Ed in C. rewrite <- Eo in B1. rewrite <- Ed in B2. split; [rewrite Eo; apply O_first|]. split; [rewrite Ed; apply D_last|].
  unfold omin, omax, dmin, dmax. auto.
Qed.
Lemma omin_facts : first_month og omin = omin /\ 22789 <= omin /\ omin <= omax /\ omax <= dmax /\ dmax <= 24958 /\ first_month og omax = omax /\
  first_month dg (dmin - months_in (fst dg) + 1) = dmin - months_in (fst dg) + 1 /\ first_month dg (dmax - months_in (fst dg) + 1) = dmax - months_in (fst dg) + 1.
Proof.
  destruct (ext_of a_o) as (x & z & Hx & Hz & Ex & Ez). destruct (ext_of a_d) as (u & v & Hu & Hv & Eu & Ev). fold omin in Ex. fold omax in Ez. fold dmin in Eu. fold dmax in Ev.
  pose proof (row_facts x Hx). pose proof (row_facts z Hz). pose proof (row_facts u Hu). pose proof (row_facts v Hv).
  rewrite Ex in *. rewrite Ez in *. rewrite Eu in *. rewrite Ev in *. repeat split; try tauto; lia.
Qed.
Definition dates_axis := map (fun s => s + step_months (fst dg) - 1) (period_range dg dmin dmax).
Lemma first_dmin : first_month dg dmin = dmin - months_in (fst dg) + 1.
Proof.
  destruct omin_facts as (_ & _ & _ & _ & _ & _ & E & _). pose proof (first_le dg dmin) as L. pose proof (first_idem dg dmin) as I. pose proof (step_pos (fst dg)).
  destruct (first_diff dg _ _ E I) as (k & K). set (g := months_in (fst dg)) in *. assert (k = 0) by nia. subst k. lia.
Qed.
Lemma dates_axis_In b : In b dates_axis <-> first_month dg (b - months_in (fst dg) + 1) = b - months_in (fst dg) + 1 /\ dmin <= b <= dmax.
Proof.
  unfold dates_axis. rewrite in_map_iff. rewrite step_months_in. pose proof (step_pos (fst dg)) as P. pose proof first_dmin as F. destruct omin_facts as (_ & _ & _ & _ & _ & _ & _ & E).
  set (g := months_in (fst dg)) in *. split.
  - intros (s & <- & H). apply (proj1 (period_range_In dg _ _ _ Dg)) in H. destruct H as (Fs & L & U).
    replace (s + g - 1 - g + 1) with s by lia. split; auto. destruct (first_diff dg s _ Fs E) as (k & K). fold g in K. rewrite F in L. assert (0 <= k) by nia. nia.
  - intros (Fb & L & U). exists (b - g + 1). split; [lia|]. apply (period_range_In dg); auto. split; auto. rewrite F. lia.
Qed.
Let axes := date_axes trailing og dg rows x0.
Lemma axes_In a b : In (a, b) axes <-> (first_month og a = a /\ omin <= a <= omax) /\ In b dates_axis /\ a <= b.
Proof.
  unfold axes, date_axes. rewrite filter_In, in_flat_map. cbn [fst snd]. rewrite Z.leb_le.
  assert (Ed : match trailing, dg with true, (GS, 11) => map (fun m => m - 3) dates_axis | _, _ => dates_axis end = dates_axis).
  { destruct trailing; auto. generalize dates_axis. destruct dg as (g, c). cbn in Dg. destruct g; auto. congruence. }
  fold dmin dmax. fold dates_axis. unfold axes. change (map (fun s => s + step_months (fst dg) - 1) (period_range dg dmin dmax)) with dates_axis. rewrite Ed.
  destruct omin_facts as (Eo & _). split.
  - intros ((x & Hx & H) & L). apply in_map_iff in H. destruct H as (z & [= <- <-] & Hz). apply (proj1 (period_range_In og _ _ _ Og)) in Hx. fold omin omax in Hx. rewrite Eo in Hx. tauto.
  - intros ((F & L) & Hb & Lab). split; auto. exists a. split; [|apply in_map; auto]. apply (period_range_In og); auto. fold omin omax. rewrite Eo. auto.
Qed.
Lemma os_eq : zsort (map fst axes) = period_range og omin omax.
Proof.
  apply zsorted_ext; [apply zsort_sorted|apply period_range_sorted; auto|]. intros a. rewrite zsort_In, in_map_iff, period_range_In by auto. destruct omin_facts as (Eo & ? & ? & ? & ? & ? & ? & ?). rewrite Eo. split.
  - intros ((a', b) & E & Hp). cbn in E. subst a'. apply (proj1 (axes_In _ _)) in Hp. tauto.
  - intros (F & L). exists (a, dmax). split; auto. apply axes_In. rewrite dates_axis_In. repeat split; auto; try lia.
    destruct (ext_of a_d) as (u & v & Hu & Hv & Eu & Ev). pose proof (row_facts u Hu). fold dmin in Eu. lia.
Qed.
Let os := zsort (map fst axes).
Let check := period_range (fst og, 11) (nth 0 os 0) dmax.
Lemma os_map : os = map (fun k => omin + months_in (fst og) * Z.of_nat k) (seq 0 (Z.to_nat ((omax - omin) / months_in (fst og) + 1))).
Proof.
  unfold os. rewrite os_eq. unfold period_range. rewrite !start_first by auto. destruct omin_facts as (Eo & _ & _ & _ & _ & Em & _). rewrite Eo, Em, step_months_in. auto.
Qed.
Lemma os_0 : nth 0 os 0 = omin.
Proof.
  rewrite os_map. pose proof omin_facts as (? & ? & ? & ?). pose proof (step_pos (fst og)). assert (0 <= (omax - omin) / months_in (fst og)) by (apply Z.div_pos; lia).
  destruct (Z.to_nat ((omax - omin) / months_in (fst og) + 1)) as [|n] eqn:En; [lia|]. cbn. lia.
Qed.
Lemma check_map : check = map (fun k => omin + months_in (fst og) * Z.of_nat k) (seq 0 (Z.to_nat ((first_month og dmax - omin) / months_in (fst og) + 1))).
Proof.
  unfold check. rewrite os_0. unfold period_range. rewrite !start_first by auto. rewrite !first_aligned' by auto. destruct omin_facts as (Eo & _). cbn [fst]. rewrite Eo, step_months_in. auto.
Qed.
Lemma check_In a : In a check <-> first_month og a = a /\ omin <= a <= dmax.
Proof.
  unfold check. rewrite os_0, period_range_In by auto. destruct omin_facts as (Eo & _). rewrite !first_aligned' by auto. rewrite Eo. tauto.
Qed.
Lemma check_sorted : StronglySorted Z.lt check.
Proof. apply period_range_sorted; auto. Qed.
Lemma os_prefix : (List.length os <= List.length check)%nat /\ forall o, (o < List.length os)%nat -> nth o os 0 = nth o check 0.
Proof.
  rewrite os_map, check_map, !map_length, !seq_length. pose proof omin_facts as (? & ? & ? & M & ? & Em & _). pose proof (step_pos (fst og)).
  assert (first_month og omax <= first_month og dmax).
  { unfold first_month. assert ((omax - (snd og + 1)) / months_in (fst og) <= (dmax - (snd og + 1)) / months_in (fst og)) by (apply Z.div_le_mono; lia). nia. }
  rewrite Em in H4. assert ((omax - omin) / months_in (fst og) <= (first_month og dmax - omin) / months_in (fst og)) by (apply Z.div_le_mono; lia).
  split; [lia|]. intros o Ho. rewrite !nth_map_seq by lia. auto.
Qed.
Let final := if negb (List.length check =? List.length os)%nat && negb (dmax =? ULT_VAL) then check else os.
Lemma final_eq : final = check.
Proof.
  unfold final. pose proof omin_facts as (? & ? & ? & ? & V & _). assert (dmax =? ULT_VAL = false) as -> by (apply Z.eqb_neq; change ULT_VAL with 27143; lia).
  rewrite andb_true_r. destruct (Nat.eqb_spec (List.length check) (List.length os)) as [E|]; auto. cbn [negb].
  destruct os_prefix as (L & P). apply nth_ext with 0 0; auto.
Qed.
Let dd := set_ddims_of rows x0 axes.
Lemma lag_eq a b : a <= b -> b - a < 12000 -> lag (a, b) = b + 1 - a.
Proof. intros. unfold lag. cbn [fst snd]. apply lag_months; lia. Qed.
Lemma axes_bounds a b : In (a, b) axes -> 22789 <= a <= b /\ b <= 24958 /\ omin <= a /\ b <= dmax.
Proof. intros H. apply (proj1 (axes_In _ _)) in H. rewrite dates_axis_In in H. pose proof omin_facts as (? & ? & ? & ? & ? & _). lia. Qed.
Lemma row_axes x : In x rows -> In (a_o x, a_d x) axes.
Proof. intros H. apply axes_In. rewrite dates_axis_In. pose proof (row_facts x H). tauto. Qed.
(** Either there are several development dates, or every row has the latest one. *)
Lemma dd_cases : (exists l, dd = Ages l /\ StronglySorted Z.lt l /\ (forall a, In a l <-> exists p, In p axes /\ snd p + 1 - fst p = a)) \/
  (dd = Vals [dmax] /\ forall x, In x rows -> a_d x = dmax).
Proof.
  unfold dd, set_ddims_of. fold dmax. destruct (Nat.ltb_spec 1 (List.length (zsort (map snd axes)))) as [L|L].
  - left. eexists; split; [reflexivity|]. split; [apply zsort_sorted|]. intros a. rewrite zsort_In, in_map_iff. split.
    + intros ((x, z) & <- & H). exists (x, z). split; auto. cbn [fst snd]. pose proof (axes_bounds _ _ H). rewrite lag_eq; lia.
    + intros ((x, z) & H & <-). exists (x, z). split; auto. cbn [fst snd]. pose proof (axes_bounds _ _ H). rewrite lag_eq; lia.
  - right. split; auto. intros x Hx. destruct (ext_of a_d) as (u & v & Hu & Hv & Eu & Ev). fold dmax in Ev.
    assert (A : In (a_d x) (zsort (map snd axes))) by (apply zsort_In; apply in_map_iff; exists (a_o x, a_d x); split; auto; apply row_axes; auto).
    assert (B : In dmax (zsort (map snd axes))) by (rewrite <- Ev; apply zsort_In; apply in_map_iff; exists (a_o v, a_d v); split; auto; apply row_axes; auto).
    destruct (zsort (map snd axes)) as [|p [|q l]]; cbn in L; try lia; cbn in A, B; [tauto|]. destruct A as [A|[]], B as [B|[]]. congruence.
Qed.
Let ks := first_keys (map a_key rows) [].
Lemma ks_In k : In k ks <-> exists r, In r table /\ counts og dg r = true /\ r_key r = k.
Proof.
  unfold ks. rewrite first_keys_In, in_map_iff. cbn [In]. split.
  - intros ((x & <- & Hx) & _). destruct (rows_fields x Hx) as (r & ? & ? & _ & _ & ->). eauto.
  - intros (r & Hr & C & <-). destruct (rows_of r Hr C) as (x & ? & _ & _ & ?). split; eauto.
Qed.
Lemma on_axes_all : forallb (on_axes os dd) rows = true.
Proof.
  apply forallb_forall. intros x Hx. unfold on_axes. apply andb_true_iff. split; apply existsb_exists.
  - exists (a_o x). split; [|apply Z.eqb_refl]. unfold os. apply zsort_In. apply in_map_iff. exists (a_o x, a_d x). split; auto. apply row_axes; auto.
  - exists (dev_label dd x). split; [|apply Z.eqb_refl]. destruct dd_cases as [(l & -> & _ & E)|(-> & _)]; cbn [dev_label dlist nth]; [|left; auto].
    apply E. exists (a_o x, a_d x). split; [apply row_axes; auto|]. cbn [fst snd]. pose proof (row_facts x Hx). rewrite lag_eq; lia.
Qed.
Let cellv (i c o d : nat) := n2n (Some (qsum (map (fun x => nth c (a_amt x) 0%Qc)
  (filter (fun x => strs_eqb (a_key x) (nth i ks []) && (a_o x =? nth o os (a_o x - 1)) && (dev_label dd x =? nth d (dlist dd) 0)) rows)))).
Definition the_tri : tri := Tri ks labels columns final dd
  (Arr (List.length ks) (List.length columns) (List.length final) (List.length (dlist dd)) cellv) dmax cumulative false (fst og) (finer (fst dg) (fst og)).

Lemma month_the o d : (o < List.length final)%nat -> (d < List.length (dlist dd))%nat -> nth o final 0 <= month_of the_tri o d /\
  match dd with Ages l => month_of the_tri o d = nth o final 0 + nth d l 0 - 1 | Vals _ => month_of the_tri o d = dmax end.
Proof.
  intros Ho Hd. unfold month_of. cbn [ddims odims the_tri]. assert (I : In (nth o final 0) final) by (apply nth_In; auto). rewrite final_eq in I. apply (proj1 (check_In _)) in I. rewrite <- final_eq in I.
  destruct dd_cases as [(l & E & S & In_l)|(E & All)]; rewrite E in *; cbn [dlist] in *.
  - assert (J : In (nth d l 0) l) by (apply nth_In; auto). apply In_l in J. destruct J as ((a, b) & Hp & J). cbn [fst snd] in J. apply axes_bounds in Hp.
    unfold age_month. destruct (Z.eqb_spec (nth d l 0) 9999); lia.
  - cbn in Hd. assert (d = 0)%nat by lia. subst d. cbn [nth]. split; auto. lia.
Qed.

Lemma the_cell i c o d : (c < List.length columns)%nat -> (o < List.length final)%nat -> (d < List.length (dlist dd))%nat ->
  cellv i c o d = n2n (Some (column_sum c (filter (belongs og dg the_tri i o d) table))).
Proof.
  intros Hc Ho Hd. unfold cellv. f_equal. f_equal. unfold rows, aggregate. fold (gkeys (map (group_of og dg) table)).
  rewrite filter_filter, filter_map_comm, map_map.
  set (P := fun g : gkey => valid_row (mk g) && (strs_eqb (a_key (mk g)) (nth i ks []) && (a_o (mk g) =? nth o os (a_o (mk g) - 1)) && (dev_label dd (mk g) =? nth d (dlist dd) 0))).
  transitivity (qsum (map (fun g => qsum (map (fun r => nz (nth c (r_amt r) None)) (filter (fun r => gkey_eqb (group_of og dg r) g) table))) (filter P (gkeys (map (group_of og dg) table))))).
  { f_equal. change (filter _ (gkeys (map (group_of og dg) table))) with (filter P (gkeys (map (group_of og dg) table))). apply map_ext_in. intros ((a, b), k) _. cbn [a_amt]. rewrite nth_map_seq by auto. auto. }
  rewrite group_sums by (apply gsorted_NoDup, gkeys_sorted). unfold column_sum. f_equal. f_equal. apply filter_ext_in. intros r Hr.
  assert (existsb (gkey_eqb (group_of og dg r)) (gkeys (map (group_of og dg) table)) = true) as ->.
  { apply existsb_exists. exists (group_of og dg r). split; [apply gkeys_In; apply in_map; auto|apply gkey_eqb_eq; auto]. }
  rewrite andb_true_r, group_of_eq. unfold P, belongs. cbn [mk a_key a_o kdims odims the_tri]. fold (O r) (D r).
  destruct (strs_eqb (r_key r) (nth i ks [])); cbn [andb]; [|rewrite andb_false_r; auto].
  destruct (month_the o d Ho Hd) as (M1 & M2). pose proof (OD_bounds r Hr) as Bd. destruct os_prefix as (Lp & Pp). rewrite <- final_eq in Lp, Pp.
  assert (Eo : counts og dg r = true -> (O r =? nth o os (O r - 1)) = (O r =? nth o final 0)).
  { intros C. destruct (Nat.lt_ge_cases o (List.length os)) as [Lo|Lo].
    - rewrite (nth_indep os (O r - 1) 0 Lo), Pp by auto. auto.
    - rewrite nth_overflow by auto. destruct (Z.eqb_spec (O r) (O r - 1)); [lia|]. symmetry. apply Z.eqb_neq. intros F.
      destruct (rows_of r Hr C) as (x & Hx & Ex & _). assert (I : In (a_o x) os) by (unfold os; apply zsort_In; apply in_map_iff; exists (a_o x, a_d x); split; auto; apply row_axes; auto).
      destruct (In_nth' os (a_o x) 0 I) as (j & Lj & Ej). rewrite Pp in Ej by auto. assert (o = j); [|lia].
      apply (sorted_nth_inj final o j 0); [rewrite final_eq; apply check_sorted|auto|lia|congruence]. }
  unfold valid_row. cbn [mk a_o a_d]. fold (O r) (D r). destruct (Z.leb_spec (O r) (D r)) as [C|C]; cbn [andb].
  - rewrite Eo by (apply Z.leb_le; auto). destruct (Z.eqb_spec (O r) (nth o final 0)) as [Eq|]; cbn [andb]; auto.
    destruct dd_cases as [(l & E & S & In_l)|(E & All)]; rewrite E in *; cbn [dlist dev_label nth a_o a_d mk] in *.
    + rewrite lag_eq by lia. rewrite M2, <- Eq. destruct (Z.eqb_spec (D r + 1 - O r) (nth d l 0)), (Z.eqb_spec (D r) (O r + nth d l 0 - 1)); auto; lia.
    + cbn in Hd. assert (d = 0)%nat by lia. subst d. cbn [nth]. rewrite Z.eqb_refl, M2. symmetry. apply Z.eqb_eq.
      destruct (rows_of r Hr) as (x & Hx & _ & Ex & _); [apply Z.leb_le; auto|]. rewrite <- Ex. auto.
  - symmetry. destruct (Z.eqb_spec (O r) (nth o final 0)) as [Eq|]; cbn [andb]; auto. apply Z.eqb_neq. lia.
Qed.
End Built.
