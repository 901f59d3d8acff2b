From Coq Require Import Lia Sorted Permutation.
From Verif Require Import SpecBuild SpecPandas P_Align2 CatFacts P_Calendar NumFacts ArrFacts TriFacts UnionFacts P_Group P_Core P_Arith DevFacts P_Build.
Local Open Scope Z_scope.

Lemma build_built trailing labels columns cumulative table :
  table_ok (origin_grain_of trailing table) (dev_grain_of trailing table) table ->
  exists t, build trailing labels columns cumulative table = Ok t /\
    built (origin_grain_of trailing table) (dev_grain_of trailing table) columns table t /\
    is_cumulative t = cumulative /\ key_labels t = labels /\ ograin t = fst (origin_grain_of trailing table).
Proof.
  intros T. unfold build. destruct table as [|r0 tb] eqn:Et; [destruct (tb_row _ _ _ T) as (? & [] & _)|]. rewrite <- Et in *.
  set (og := origin_grain_of trailing table) in *. set (dg := dev_grain_of trailing table) in *.
  assert (Eog : get_grain trailing OriginDates (map r_o table) (r_o r0) = og) by (unfold og, origin_grain_of; rewrite Et; reflexivity).
  assert (Edg : get_grain trailing DevelopmentDates (map r_d table) (r_d r0) = dg) by (unfold dg, dev_grain_of; rewrite Et; reflexivity).
  rewrite Eog, Edg.
  assert (forallb (fun r => dm (r_d r) / 12 =? 1970) table = false) as ->.
  { destruct (forallb _ table) eqn:F; auto. rewrite forallb_forall in F. destruct (tb_1970 _ _ _ T) as (r & Hr & N). specialize (F r Hr). apply Z.eqb_eq in F. congruence. }
  clear Eog Edg Et tb. pose proof (tb_og _ _ _ T) as Og. pose proof (tb_dg _ _ _ T) as Dg. pose proof (tb_close _ _ _ T) as Cl. pose proof (tb_dates _ _ _ T) as Dt.
  destruct (filter valid_row (aggregate og dg (List.length columns) table)) as [|x0 tl] eqn:ER.
  { destruct (tb_row _ _ _ T) as (r & Hr & C). destruct (rows_of og dg columns table Og Dg r Hr C) as (x & Hx & _). rewrite ER in Hx. destruct Hx. }
  rewrite <- ER. set (rows := filter valid_row (aggregate og dg (List.length columns) table)) in *. assert (X0 : In x0 rows) by (rewrite ER; left; auto). clear ER tl.
  pose proof (on_axes_all trailing og dg columns table Og Dg Cl Dt x0 X0) as OA. fold rows in OA. rewrite OA. cbn [negb].
  eexists. split; [reflexivity|].
  change (Tri _ _ _ _ _ _ _ _ _ _ _) with (the_tri trailing og dg labels columns cumulative table x0).
  set (t := the_tri trailing og dg labels columns cumulative table x0).
  split; [|split; [|split]; reflexivity].
  pose proof (final_eq trailing og dg columns table Og Dg Cl Dt x0 X0) as FE. cbv zeta in FE. fold rows in FE.
  pose proof (check_In trailing og dg columns table Og Dg Cl Dt x0 X0) as CI. fold rows in CI.
  pose proof (check_sorted trailing og dg columns table Og x0) as CS. fold rows in CS.
  assert (OI : forall a, In a (odims t) <-> first_month og a = a /\ zminl (map a_o rows) (a_o x0) <= a <= vdate t).
  { intros a. unfold t. cbn [the_tri odims vdate]. fold rows. rewrite FE. apply CI. }
  assert (OS : StronglySorted Z.lt (odims t)) by (unfold t; cbn [the_tri odims]; fold rows; rewrite FE; auto).
  clear FE CI CS.
  pose proof (dd_cases trailing og dg columns table Og Dg Cl Dt x0 X0) as DC. fold rows in DC.
  pose proof (axes_bounds trailing og dg columns table Og Dg Cl Dt x0 X0) as AB. fold rows in AB.
  pose proof (omin_facts og dg columns table Og Dg Cl Dt x0 X0) as OF. fold rows in OF.
  pose proof (row_facts og dg columns table Og Dg Cl Dt x0) as RF. fold rows in RF.
  pose proof (row_axes trailing og dg columns table Og Dg Cl Dt x0 X0) as RA. fold rows in RA.
  pose proof (fun o d => month_the trailing og dg labels columns cumulative table Og Dg Cl Dt x0 X0 o d) as MT. fold rows t in MT.
  change (set_ddims_of rows x0 (date_axes trailing og dg rows x0)) with (ddims t) in DC, MT.
  change (zmaxl (map a_d rows) (a_d x0)) with (vdate t) in *.
  assert (MT' : forall o d, (o < ax2 (values t))%nat -> (d < ax3 (values t))%nat -> nth o (odims t) 0 <= month_of t o d /\
    match ddims t with Ages l => month_of t o d = nth o (odims t) 0 + nth d l 0 - 1 | Vals _ => month_of t o d = vdate t end) by exact MT.
  clear MT. rename MT' into MT.
  assert (Cell : forall i c o d, in_range t i c o d -> cel t i c o d = n2n (Some (column_sum c (filter (belongs og dg t i o d) table)))).
  { intros i c o d (Hi & Hc & Ho & Hd). exact (the_cell trailing og dg labels columns cumulative table Og Dg Cl Dt x0 X0 i c o d Hc Ho Hd). }
  assert (LD : forall d, (d < ax3 (values t))%nat <-> (d < List.length (dlist (ddims t)))%nat) by (intros; reflexivity).
  assert (LO : forall d, (d < ax2 (values t))%nat <-> (d < List.length (odims t))%nat) by (intros; reflexivity).
  assert (L0 : ax0 (values t) = List.length (kdims t)) by reflexivity. assert (L1 : ax1 (values t) = List.length (vdims t)) by reflexivity.
  assert (L2 : ax2 (values t) = List.length (odims t)) by reflexivity. assert (L3 : ax3 (values t) = List.length (dlist (ddims t))) by reflexivity.
  assert (FP : is_pattern t = false) by reflexivity. assert (FV : vdims t = columns) by reflexivity.
  assert (KN : NoDup (kdims t)) by apply first_keys_NoDup.
  assert (KI : forall k, In k (kdims t) <-> exists r, In r table /\ counts og dg r = true /\ r_key r = k) by exact (ks_In og dg columns table Og Dg).
  assert (VE : exists v, In v rows /\ a_d v = vdate t).
  { destruct (ext_of og dg columns table x0 X0 a_d) as (u & v & Hu & Hv & Eu & Ev). fold rows in Hv, Ev. exists v. split; [exact Hv|]. exact Ev. }
  clearbody t.
  assert (NE : exists d, In d (dlist (ddims t))).
  { destruct DC as [(l & E & _ & I)|(E & _)]; rewrite E; cbn [dlist]; [|eexists; left; reflexivity]. exists (a_d x0 + 1 - a_o x0). apply I. exists (a_o x0, a_d x0). split; auto. }
  assert (NEo : In (a_o x0) (odims t)).
  { apply OI. pose proof (RF x0 X0). split; [tauto|lia]. }
  assert (DS : StronglySorted Z.lt (dlist (ddims t))).
  { destruct DC as [(l & E & S & _)|(E & _)]; rewrite E; cbn [dlist]; auto. repeat constructor. }
  assert (WF : wf t).
  { constructor; auto.
    - rewrite L2. destruct (odims t); [destruct NEo|cbn; lia].
    - rewrite L3. destruct (dlist (ddims t)); [destruct NE as (? & [])|cbn; lia].
    - change ULT_VAL with 27143. lia.
    - change ULT_VAL with 27143. destruct DC as [(l & E & S & I)|(E & _)]; rewrite E.
      + split; [|split].
        * intros a Ha. apply I in Ha. destruct Ha as ((p, q) & Hp & <-). cbn [fst snd]. apply AB in Hp. lia.
        * intros o Ho. apply OI in Ho. lia.
        * intros o a Ho Ha _. apply OI in Ho. apply I in Ha. destruct Ha as ((p, q) & Hp & <-). cbn [fst snd]. apply AB in Hp. lia.
      + intros v [<-|[]]. lia. }
  assert (Lo : forall o, (o < ax2 (values t))%nat -> nth o (odims t) 0 <= vdate t).
  { intros o Ho. assert (I : In (nth o (odims t) 0) (odims t)) by (apply nth_In; lia). apply OI in I. lia. }
  assert (Row : forall r, In r table -> counts og dg r = true -> exists x, In x rows /\ a_o x = first_month og (dm (r_o r)) /\ a_d x = last_month dg (dm (r_d r)) /\ a_key x = r_key r).
  { intros r Hr C. exact (rows_of og dg columns table Og Dg r Hr C). }
  pose proof (rows_fields og dg columns table Og Dg) as Fld. fold rows in Fld.
  assert (VD : (exists r, In r table /\ counts og dg r = true /\ vdate t = last_month dg (dm (r_d r))) /\ forall r, In r table -> counts og dg r = true -> last_month dg (dm (r_d r)) <= vdate t).
  { split.
    - destruct VE as (v & Hv & Ev). destruct (Fld v Hv) as (r & Hr & C & _ & Ed & _). exists r. split; auto. split; auto. congruence.
    - intros r Hr C. destruct (Row r Hr C) as (x & Hx & _ & Ed & _). rewrite <- Ed. apply (RF x Hx). }
  constructor; auto.
  - (* blank *)
    intros i c o d R F. rewrite Cell by auto. assert (E : filter (belongs og dg t i o d) table = []).
    { destruct (filter (belongs og dg t i o d) table) as [|r l] eqn:E; auto. exfalso. assert (I : In r (filter (belongs og dg t i o d) table)) by (rewrite E; left; auto).
      apply filter_In in I. destruct I as (Hr & B). unfold belongs in B. rewrite !andb_true_iff, !Z.eqb_eq in B. destruct B as ((_ & B1) & B2).
      unfold future in F. destruct R as (_ & _ & Ho & Hd). destruct (MT o d Ho Hd) as (M & _). assert (counts og dg r = true) by (apply Z.leb_le; lia). pose proof (proj2 VD r Hr H). lia. }
    rewrite E. reflexivity.
  - (* origins *)
    intros o. rewrite OI. split.
    + intros (F & L). split; auto. split; [lia|]. destruct (ext_of og dg columns table x0 X0 a_o) as (u & v & Hu & Hv & Eu & Ev). fold rows in Hu, Eu.
      destruct (Fld u Hu) as (r & Hr & C & Eo & _). exists r. split; auto. split; auto. rewrite <- Eo, Eu. lia.
    + intros (F & L & r & Hr & C & B). split; auto. split; [|lia]. destruct (Row r Hr C) as (x & Hx & Eo & _). pose proof (RF x Hx). lia.
  - (* cells *)
    intros i c o d R. rewrite Cell by auto. apply stores_n2n.
  - (* rows *)
    intros r Hr C. destruct (Row r Hr C) as (x & Hx & Eo & Ed & Ek).
    assert (Ik : In (r_key r) (kdims t)) by (apply KI; eauto).
    assert (Io : In (a_o x) (odims t)) by (apply OI; pose proof (RF x Hx); split; [tauto|lia]).
    destruct (In_nth' _ _ [] Ik) as (i & Li & Ei). destruct (In_nth' _ _ 0 Io) as (o & Lo' & Eo'). rewrite <- L0 in Li. rewrite <- L2 in Lo'.
    assert (exists d, (d < ax3 (values t))%nat /\ month_of t o d = a_d x) as (d & Ld & Em).
    { destruct DC as [(l & E & S & I)|(E & All)].
      - assert (Id : In (a_d x + 1 - a_o x) l) by (apply I; exists (a_o x, a_d x); split; auto). destruct (In_nth' _ _ 0 Id) as (d & Ld & E'). exists d.
        assert (Ld' : (d < ax3 (values t))%nat) by (apply LD; rewrite E; auto). split; auto. destruct (MT o d Lo' Ld') as (_ & M). rewrite E in M. rewrite M, E', Eo'. lia.
      - assert (Ld' : (0 < ax3 (values t))%nat) by (apply LD; rewrite E; cbn; lia). exists 0%nat. split; auto. destruct (MT o 0%nat Lo' Ld') as (_ & M). rewrite E in M. rewrite M. symmetry. auto. }
    exists i, o, d. split; auto. split; auto. split; auto. unfold belongs. rewrite Ei, Eo', Em, <- Eo, <- Ed, !Z.eqb_refl. rewrite (proj2 (strs_eqb_eq _ _) eq_refl). auto.
  - (* one *)
    intros r i o d i' o' d' B B' Hi Ho Hd Hi' Ho' Hd'. unfold belongs in B, B'. rewrite !andb_true_iff, !Z.eqb_eq in B, B'. destruct B as ((K & A) & M), B' as ((K' & A') & M').
    apply strs_eqb_eq in K, K'. assert (i = i').
    { apply (proj1 (NoDup_nth (kdims t) []) KN); try lia. congruence. }
    assert (o = o') by (apply (sorted_nth_inj (odims t) o o' 0); auto; try lia; congruence). subst o'. split; auto. split; auto.
    destruct (MT o d Ho Hd) as (_ & N). destruct (MT o d' Ho Hd') as (_ & N'). apply (proj1 (LD _)) in Hd. apply (proj1 (LD _)) in Hd'.
    destruct DC as [(l & E & S & I)|(E & All)]; rewrite E in N, N', Hd, Hd'; cbn [dlist] in Hd, Hd'.
    + apply (sorted_nth_inj l d d' 0); auto. lia.
    + cbn in Hd, Hd'. lia.
  - (* none *)
    intros r i o d Hr C Ho Hd. destruct (belongs og dg t i o d r) eqn:B; auto. exfalso. unfold belongs in B. rewrite !andb_true_iff, !Z.eqb_eq in B. destruct B as ((_ & A) & M).
    destruct (MT o d Ho Hd) as (L & _). apply Z.leb_gt in C. lia.
Qed.

(** * Totals *)
Lemma sum_one n f k v : (k < n)%nat -> f k = v -> (forall i, (i < n)%nat -> i <> k -> f i = 0%Qc) -> sumn n f = v.
Proof. intros H <- Z. apply sumn_single; auto. Qed.
Lemma built_total og dg columns table t c : built og dg columns table t -> (c < List.length columns)%nat ->
  total t c = column_sum c (filter (counts og dg) table).
Proof.
  intros B Hc. assert (Hc' : (c < ax1 (values t))%nat) by (rewrite (wf_v _ (bt_wf _ _ _ _ _ B)), (bt_v _ _ _ _ _ B); auto).
  transitivity (sumn (ax0 (values t)) (fun i => sumn (ax2 (values t)) (fun o => sumn (ax3 (values t)) (fun d => column_sum c (filter (belongs og dg t i o d) table))))).
  { apply sumn_ext. intros i Hi. apply sumn_ext. intros o Ho. apply sumn_ext. intros d Hd. unfold amount.
    destruct (bt_cell _ _ _ _ _ B i c o d) as (Z0 & Z1); [repeat split; auto|]. destruct (Qc_eq_dec (column_sum c (filter (belongs og dg t i o d) table)) 0) as [E|E]; [rewrite (Z0 E), E|rewrite (Z1 E)]; auto. }
  assert (G : forall l, (forall r, In r l -> In r table) ->
    sumn (ax0 (values t)) (fun i => sumn (ax2 (values t)) (fun o => sumn (ax3 (values t)) (fun d => column_sum c (filter (belongs og dg t i o d) l)))) = column_sum c (filter (counts og dg) l)).
  { induction l as [|r l IH]; intros Hl.
    - cbn. apply sumn_zero. intros. apply sumn_zero. intros. apply sumn_zero. auto.
    - specialize (IH (fun x Hx => Hl x (or_intror Hx))). specialize (Hl r (or_introl eq_refl)).
      set (v := nz (nth c (r_amt r) None)).
      transitivity (sumn (ax0 (values t)) (fun i => sumn (ax2 (values t)) (fun o => sumn (ax3 (values t)) (fun d => (if belongs og dg t i o d r then v else 0) + column_sum c (filter (belongs og dg t i o d) l)))))%Qc.
      { apply sumn_ext. intros i Hi. apply sumn_ext. intros o Ho. apply sumn_ext. intros d Hd. cbn [filter]. destruct (belongs og dg t i o d r); unfold column_sum; cbn [map]; rewrite ?qsum_cons; fold v; [auto|ring]. }
      rewrite (sumn_ext _ _ (fun i => sumn (ax2 (values t)) (fun o => sumn (ax3 (values t)) (fun d => if belongs og dg t i o d r then v else 0%Qc)) +
        sumn (ax2 (values t)) (fun o => sumn (ax3 (values t)) (fun d => column_sum c (filter (belongs og dg t i o d) l))))%Qc).
      2: { intros i Hi. rewrite <- sumn_plus. apply sumn_ext. intros o Ho. apply sumn_plus. }
      rewrite sumn_plus, IH. cbn [filter]. destruct (counts og dg r) eqn:C.
      + unfold column_sum. cbn [map]. rewrite qsum_cons. fold v. f_equal. destruct (bt_row _ _ _ _ _ B r Hl C) as (i0 & o0 & d0 & Hi & Ho & Hd & Bl).
        assert (Z : forall i o d, (i < ax0 (values t))%nat -> (o < ax2 (values t))%nat -> (d < ax3 (values t))%nat -> i <> i0 \/ o <> o0 \/ d <> d0 -> (if belongs og dg t i o d r then v else 0%Qc) = 0%Qc).
        { intros i o d H1 H2 H3 N. destruct (belongs og dg t i o d r) eqn:E; auto. destruct (bt_one _ _ _ _ _ B r _ _ _ _ _ _ E Bl) as (? & ? & ?); auto. exfalso. intuition. }
        apply (sum_one _ _ i0); auto; [|intros i Li Ni; apply sumn_zero; intros o Lo; apply sumn_zero; intros d Ld; apply Z; auto].
        apply (sum_one _ _ o0); auto; [|intros o Lo No; apply sumn_zero; intros d Ld; apply Z; auto].
        apply (sum_one _ _ d0); auto. rewrite Bl. auto.
      + rewrite (sumn_ext _ _ (fun _ => 0%Qc)); [rewrite sumn_0; ring|]. intros i Li. apply sumn_zero. intros o Lo. apply sumn_zero. intros d Ld.
        rewrite (bt_none _ _ _ _ _ B r i o d); auto. }
  apply G. auto.
Qed.

(** * The order of the rows *)
Lemma date_leb_refl a : date_leb a a = true.
Proof. destruct a as (m, f). unfold date_leb. cbn. rewrite Z.ltb_irrefl, Z.eqb_refl. destruct f; auto. Qed.
Lemma date_leb_total a b : date_leb a b = true \/ date_leb b a = true.
Proof.
  destruct a as (m, f), b as (m', f'). unfold date_leb. cbn. destruct (Z.ltb_spec m m'); auto. destruct (Z.ltb_spec m' m); auto. assert (m = m') by lia. subst.
  rewrite Z.eqb_refl. destruct f, f'; auto.
Qed.
Lemma date_leb_trans a b c : date_leb a b = true -> date_leb b c = true -> date_leb a c = true.
Proof.
  destruct a as (m, f), b as (m', f'), c as (k, h). unfold date_leb. cbn. rewrite !orb_true_iff, !andb_true_iff, !Z.ltb_lt, !Z.eqb_eq, !orb_true_iff, !negb_true_iff. intros [A|(A & A')] [B|(B & B')]; try (left; lia).
  right. split; [lia|]. destruct A' as [->|A']; auto. destruct B' as [->|B']; [congruence|auto].
Qed.
Lemma date_leb_anti a b : date_leb a b = true -> date_leb b a = true -> a = b.
Proof.
  destruct a as (m, f), b as (m', f'). unfold date_leb. cbn. rewrite !orb_true_iff, !andb_true_iff, !Z.ltb_lt, !Z.eqb_eq, !orb_true_iff, !negb_true_iff.
  intros [A|(A & A')] [B|(B & B')]; try lia. subst. f_equal. destruct f, f'; auto; destruct A', B'; congruence.
Qed.
Lemma date_min_spec l d0 : In (date_min l d0) (d0 :: l) /\ forall d, In d (d0 :: l) -> date_leb (date_min l d0) d = true.
Proof.
  induction l as [|a l (I & L)]; cbn [date_min fold_right].
  - split; [left; auto|]. intros d [<-|[]]. apply date_leb_refl.
  - fold (date_min l d0). destruct (date_leb a (date_min l d0)) eqn:E.
    + split; [right; left; auto|]. intros d [<-|[<-|H]]; [|apply date_leb_refl|]; (eapply date_leb_trans; [exact E|]; apply L; cbn; auto).
    + assert (E' : date_leb (date_min l d0) a = true) by (destruct (date_leb_total a (date_min l d0)); congruence).
      split; [destruct I as [I|I]; [left; auto|right; right; auto]|]. intros d [<-|[<-|H]]; auto; apply L; cbn; auto.
Qed.
Lemma date_max_spec l d0 : In (date_max l d0) (d0 :: l) /\ forall d, In d (d0 :: l) -> date_leb d (date_max l d0) = true.
Proof.
  induction l as [|a l (I & L)]; cbn [date_max fold_right].
  - split; [left; auto|]. intros d [<-|[]]. apply date_leb_refl.
  - fold (date_max l d0). destruct (date_leb a (date_max l d0)) eqn:E.
    + split; [destruct I as [I|I]; [left; auto|right; right; auto]|]. intros d [<-|[<-|H]]; auto; apply L; cbn; auto.
    + assert (E' : date_leb (date_max l d0) a = true) by (destruct (date_leb_total a (date_max l d0)); congruence).
      split; [right; left; auto|]. intros d [<-|[<-|H]]; [|apply date_leb_refl|]; (eapply date_leb_trans; [|exact E']; apply L; cbn; auto).
Qed.
Lemma date_min_ext l d0 l' d0' : (forall d, In d (d0 :: l) <-> In d (d0' :: l')) -> date_min l d0 = date_min l' d0'.
Proof.
  intros E. destruct (date_min_spec l d0) as (I & L), (date_min_spec l' d0') as (I' & L'). apply date_leb_anti; [apply L|apply L']; apply E; auto.
Qed.
Lemma date_max_ext l d0 l' d0' : (forall d, In d (d0 :: l) <-> In d (d0' :: l')) -> date_max l d0 = date_max l' d0'.
Proof.
  intros E. destruct (date_max_spec l d0) as (I & L), (date_max_spec l' d0') as (I' & L'). apply date_leb_anti; [apply L'|apply L]; apply E; auto.
Qed.
Lemma zsort_ext l m : (forall x, In x l <-> In x m) -> zsort l = zsort m.
Proof. intros E. apply zsorted_ext; [apply zsort_sorted|apply zsort_sorted|]. intros x. rewrite !zsort_In. auto. Qed.
Lemma existsb_ext_In {A} (p : A -> bool) l m : (forall x, In x l <-> In x m) -> existsb p l = existsb p m.
Proof.
  intros E. destruct (existsb p l) eqn:A1, (existsb p m) eqn:A2; auto.
  - apply existsb_exists in A1. destruct A1 as (x & Hx & P). assert (existsb p m = true) by (apply existsb_exists; exists x; split; auto; apply E; auto). congruence.
  - apply existsb_exists in A2. destruct A2 as (x & Hx & P). assert (existsb p l = true) by (apply existsb_exists; exists x; split; auto; apply E; auto). congruence.
Qed.
Lemma forallb_ext_In {A} (p : A -> bool) l m : (forall x, In x l <-> In x m) -> forallb p l = forallb p m.
Proof.
  intros E. destruct (forallb p l) eqn:A1, (forallb p m) eqn:A2; auto.
  - rewrite forallb_forall in A1. assert (forallb p m = true) by (apply forallb_forall; intros x Hx; apply A1, E; auto). congruence.
  - rewrite forallb_forall in A2. assert (forallb p l = true) by (apply forallb_forall; intros x Hx; apply A2, E; auto). congruence.
Qed.
Lemma get_grain_ext trailing k l d0 l' d0' : In d0 l -> In d0' l' -> (forall d, In d l <-> In d l') -> get_grain trailing k l d0 = get_grain trailing k l' d0'.
Proof.
  intros I I' E. assert (EC : forall d, In d (d0 :: l) <-> In d (d0' :: l')).
  { intros d. cbn [In]. rewrite E. split; intros [<-|]; auto. right. apply E. auto. }
  unfold get_grain. assert (Em : zsort (map (fun d => dm d mod 12) l) = zsort (map (fun d => dm d mod 12) l')).
  { apply zsort_ext. intros x. rewrite !in_map_iff. split; intros (d & <- & H); exists d; split; auto; apply E; auto. }
  rewrite Em. f_equal. unfold closing. rewrite (date_min_ext l d0 l' d0' EC), (date_max_ext l d0 l' d0' EC).
  rewrite (existsb_ext_In _ l l' E). auto.
Qed.
Lemma aggregate_perm og dg n l l' : Permutation l l' -> aggregate og dg n l = aggregate og dg n l'.
Proof.
  intros P. unfold aggregate. fold (gkeys (map (group_of og dg) l)) (gkeys (map (group_of og dg) l')).
  assert (gkeys (map (group_of og dg) l) = gkeys (map (group_of og dg) l')) as ->.
  { apply gsorted_ext; try apply gkeys_sorted. intros x. rewrite !gkeys_In. split; apply Permutation_in; apply Permutation_map; [auto|symmetry; auto]. }
  apply map_ext. intros ((o, d), k). f_equal. apply map_ext. intros c. unfold group_sum. apply qsum_perm, Permutation_map.
  induction P as [|x l1 l2 P IH|x z l|l1 l2 l3 P1 IH1 P2 IH2]; cbn [filter]; auto.
  - destruct (gkey_eqb (group_of og dg x) (o, d, k)); auto.
  - destruct (gkey_eqb (group_of og dg x) (o, d, k)), (gkey_eqb (group_of og dg z) (o, d, k)); auto. apply perm_swap.
  - etransitivity; eauto.
Qed.
Lemma build_perm trailing labels columns cumulative table table' : Permutation table table' ->
  build trailing labels columns cumulative table = build trailing labels columns cumulative table'.
Proof.
  intros P. unfold build. assert (E : forall r, In r table <-> In r table') by (intros r; split; apply Permutation_in; [auto|symmetry; auto]).
  destruct table as [|r0 tb] eqn:Et; [apply Permutation_nil in P; subst; auto|]. destruct table' as [|r0' tb'] eqn:Et'; [symmetry in P; apply Permutation_nil in P; discriminate|].
  rewrite <- Et, <- Et' in *. rewrite (forallb_ext_In _ table table' E).
  rewrite (get_grain_ext trailing OriginDates (map r_o table) (r_o r0) (map r_o table') (r_o r0')).
  2: rewrite Et; left; auto. 2: rewrite Et'; left; auto.
  2: intros x; rewrite !in_map_iff; split; intros (r & <- & H); exists r; split; auto; apply E; auto.
  rewrite (get_grain_ext trailing DevelopmentDates (map r_d table) (r_d r0) (map r_d table') (r_d r0')).
  2: rewrite Et; left; auto. 2: rewrite Et'; left; auto.
  2: intros x; rewrite !in_map_iff; split; intros (r & <- & H); exists r; split; auto; apply E; auto.
  rewrite (aggregate_perm _ _ _ _ _ P). reflexivity.
Qed.

(** * Rejected tables *)
Lemma build_none trailing labels columns cumulative table : fst (origin_grain_of trailing table) <> GS -> fst (dev_grain_of trailing table) <> GS ->
  (forall r, In r table -> counts (origin_grain_of trailing table) (dev_grain_of trailing table) r = false) ->
  build trailing labels columns cumulative table = Err ValueError.
Proof.
  intros Og Dg H. unfold build. destruct table as [|r0 tb] eqn:Et; auto. rewrite <- Et in *.
  set (og := origin_grain_of trailing table) in *. set (dg := dev_grain_of trailing table) in *.
  assert (Eog : get_grain trailing OriginDates (map r_o table) (r_o r0) = og) by (unfold og, origin_grain_of; rewrite Et; reflexivity).
  assert (Edg : get_grain trailing DevelopmentDates (map r_d table) (r_d r0) = dg) by (unfold dg, dev_grain_of; rewrite Et; reflexivity).
  rewrite Eog, Edg. destruct (forallb _ table); auto.
  destruct (filter valid_row (aggregate og dg (List.length columns) table)) as [|x l] eqn:E; auto. exfalso.
  destruct (rows_fields og dg columns table Og Dg x) as (r & Hr & C & _); [rewrite E; left; auto|]. rewrite H in C by auto. discriminate.
Qed.
Lemma build_1970 trailing labels columns cumulative table : (forall r, In r table -> dm (r_d r) / 12 = 1970) ->
  build trailing labels columns cumulative table = Err ValueError.
Proof.
  intros H. unfold build. destruct table as [|r0 tb] eqn:Et; auto. rewrite <- Et in *.
  assert (forallb (fun r => dm (r_d r) / 12 =? 1970) table = true) as ->; auto. apply forallb_forall. intros r Hr. apply Z.eqb_eq. auto.
Qed.

(** * Inferred grains *)
Lemma grain_shape ds d0 trailing k a s n : (1 <= n)%nat -> 1 <= s -> months_spaced ds a s n ->
  fst (get_grain trailing k ds d0) = (if (n =? 1)%nat then GY else if s =? 6 then GS else if s =? 3 then GQ else GM).
Proof.
  intros N S M. unfold get_grain. cbn [fst].
  assert (E : zsort (map (fun d => dm d mod 12) ds) = map (fun k => a + s * Z.of_nat k) (seq 0 n)).
  { apply zsorted_ext; [apply zsort_sorted| |].
    - clear M N. generalize 0%nat as i. induction n as [|n IH]; intros i; cbn; constructor; auto.
      apply Forall_forall. intros x Hx. apply in_map_iff in Hx. destruct Hx as (j & <- & Hj). apply in_seq in Hj. nia.
    - intros x. rewrite zsort_In, !in_map_iff. specialize (M x). split.
      + intros (d & Hd & I). destruct (proj1 M) as (k0 & L & ->); [eauto|]. exists k0. split; auto. apply in_seq. lia.
      + intros (k0 & <- & I). apply in_seq in I. destruct (proj2 M) as (d & I' & Ed); [exists k0; split; [lia|auto]|]. exists d. auto. }
  rewrite E. clear E M. destruct n as [|[|n]]; [lia|reflexivity|].
  assert (Z : forall m i, zdiffs (map (fun k => a + s * Z.of_nat k) (seq i (Datatypes.S m))) = repeat s m).
  { induction m as [|m IH]; intros i; [reflexivity|]. cbn [seq map]. specialize (IH (Datatypes.S i)). cbn [seq map] in IH.
    change (zdiffs (?x :: ?y :: ?l)) with ((y - x) :: zdiffs (y :: l)). rewrite IH. cbn [repeat]. f_equal. lia. }
  pose proof (Z (Datatypes.S n) 0%nat) as Zn. cbn [seq map] in Zn |- *. unfold grain_of_months. rewrite Zn.
  assert (F : forall z m, forallb (Z.eqb z) (repeat s (Datatypes.S m)) = (s =? z)).
  { intros z m. induction m as [|m IH]; [cbn; rewrite andb_true_r, Z.eqb_sym; auto|]. change (repeat s (Datatypes.S (Datatypes.S m))) with (s :: repeat s (Datatypes.S m)). cbn [forallb]. rewrite IH, (Z.eqb_sym z s), andb_diag. auto. }
  rewrite !F. reflexivity.
Qed.
Lemma closing_dec k g ds d0 : closing false k g ds d0 = 11.
Proof. reflexivity. Qed.
