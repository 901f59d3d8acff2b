(** Proofs for C20: the development axis of a built triangle. *)
From Coq Require Import Lia Sorted Permutation.
From Verif Require Import SpecBuild SpecPandas P_Align2 CatFacts P_Calendar NumFacts ArrFacts TriFacts UnionFacts P_Group P_Core P_Arith DevFacts P_Build P_Build2.
Local Open Scope Z_scope.

(** The development axis of a built triangle: the ages at which some origin between the
    first and the last one with data meets some development date between the first and the
    last one with data. *)
Lemma build_ages trailing labels columns cumulative table t :
  let og := origin_grain_of trailing table in let dg := dev_grain_of trailing table in
  table_ok og dg table -> build trailing labels columns cumulative table = Ok t ->
  dgrain t = finer (fst dg) (fst og) /\
  ((exists l, ddims t = Ages l /\ StronglySorted Z.lt l /\
     forall a, In a l <-> exists o b, a = b + 1 - o /\ o <= b /\
       (first_month og o = o /\ (exists r, In r table /\ counts og dg r = true /\ first_month og (dm (r_o r)) <= o) /\
                                (exists r, In r table /\ counts og dg r = true /\ o <= first_month og (dm (r_o r)))) /\
       (first_month dg (b - months_in (fst dg) + 1) = b - months_in (fst dg) + 1 /\
        (exists r, In r table /\ counts og dg r = true /\ last_month dg (dm (r_d r)) <= b) /\
        (exists r, In r table /\ counts og dg r = true /\ b <= last_month dg (dm (r_d r))))) \/
   (ddims t = Vals [vdate t] /\ forall r, In r table -> counts og dg r = true -> last_month dg (dm (r_d r)) = vdate t)).
Proof.
  intros og dg T B. pose proof (tb_og _ _ _ T) as Og. pose proof (tb_dg _ _ _ T) as Dg. pose proof (tb_close _ _ _ T) as Cl. pose proof (tb_dates _ _ _ T) as Dt.
  unfold build in B. destruct table as [|r0 tb] eqn:Et; [discriminate|]. rewrite <- Et in *.
  assert (Eog : get_grain trailing OriginDates (map r_o table) (r_o r0) = og) by (unfold og, origin_grain_of; rewrite Et; reflexivity).
  assert (Edg : get_grain trailing DevelopmentDates (map r_d table) (r_d r0) = dg) by (unfold dg, dev_grain_of; rewrite Et; reflexivity).
  rewrite Eog, Edg in B. clearbody og dg. clear Eog Edg Et tb.
  destruct (forallb (fun r => dm (r_d r) / 12 =? 1970) table); [discriminate|].
  destruct (filter valid_row (aggregate og dg (List.length columns) table)) as [|x0 tl] eqn:ER; [discriminate|].
  rewrite <- ER in B. set (rows := filter valid_row (aggregate og dg (List.length columns) table)) in *. assert (X0 : In x0 rows) by (rewrite ER; left; auto). clear ER tl.
  destruct (negb _); [discriminate|]. injection B as <-. cbn [dgrain ddims vdate]. split; auto.
  pose proof (dd_cases trailing og dg columns table Og Dg Cl Dt x0 X0) as DC. fold rows in DC.
  pose proof (axes_In trailing og dg columns table Og Dg Cl Dt x0 X0) as AI. fold rows in AI.
  pose proof (dates_axis_In og dg columns table Og Dg Cl Dt x0 X0) as DI. fold rows in DI.
  assert (Ext : forall f x, In x rows -> zminl (map f rows) (f x0) <= f x <= zmaxl (map f rows) (f x0)) by exact (ext_le og dg columns table x0).
  assert (Of : forall f, exists x y, In x rows /\ In y rows /\ f x = zminl (map f rows) (f x0) /\ f y = zmaxl (map f rows) (f x0)) by exact (ext_of og dg columns table x0 X0).
  pose proof (rows_fields og dg columns table Og Dg) as Fld. fold rows in Fld. pose proof (rows_of og dg columns table Og Dg) as Row. fold rows in Row.
  destruct DC as [(l & E & S & I)|(E & All)]; [left|right].
  - exists l. split; auto. split; auto. intros a. rewrite I. split.
    + intros ((o, b) & Hp & <-). cbn [fst snd]. exists o, b. split; auto. apply (proj1 (AI o b)) in Hp. destruct Hp as ((F1 & L1) & Hb & L2).
      apply (proj1 (DI b)) in Hb. destruct Hb as (F2 & L3). destruct (Of a_o) as (x & y & Hx & Hy & Ex & Ey). destruct (Of a_d) as (u & v & Hu & Hv & Eu & Ev).
      destruct (Fld x Hx) as (rx & Rx & Cx & Ox & _). destruct (Fld y Hy) as (ry & Ry & Cy & Oy & _).
      destruct (Fld u Hu) as (ru & Ru & Cu & _ & Du & _). destruct (Fld v Hv) as (rv & Rv & Cv & _ & Dv & _).
      split; auto. split; split; auto.
      * split; [exists rx|exists ry]; repeat split; auto; lia.
      * split; [exists ru|exists rv]; repeat split; auto; lia.
    + intros (o & b & -> & L & (F1 & (r1 & R1 & C1 & L1) & (r2 & R2 & C2 & L2)) & (F2 & (r3 & R3 & C3 & L3) & (r4 & R4 & C4 & L4))).
      exists (o, b). split; [|cbn; lia]. apply AI.
      destruct (Row r1 R1 C1) as (x1 & X1 & E1 & _). destruct (Row r2 R2 C2) as (x2 & X2 & E2 & _).
      destruct (Row r3 R3 C3) as (x3 & X3 & _ & E3 & _). destruct (Row r4 R4 C4) as (x4 & X4 & _ & E4 & _).
      pose proof (Ext a_o x1 X1). pose proof (Ext a_o x2 X2). pose proof (Ext a_d x3 X3). pose proof (Ext a_d x4 X4).
      split; [split; auto; lia|]. split; auto. apply DI. split; auto. lia.
  - split; auto. intros r Hr C. destruct (Row r Hr C) as (x & Hx & _ & Ed & _). rewrite <- Ed. auto.
Qed.
