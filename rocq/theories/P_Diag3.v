(** Proofs about the summary of a fitted method: all rows. *)
From Coq Require Import Lia.
From Verif Require Import P_Voting DevFacts P_Align2 P_Align3 P_Core P_Corr5 P_Methods P_Dropna LabelFacts UnionFacts P_Align P_Diag1 P_Diag2.
From Verif Require Import P_Agg P_Select2 P_Select3 P_FullTri P_Filter SliceFacts TriFacts CatFacts SpecSelect SpecDiag.
Local Open Scope nat_scope.

Lemma sel_seq_every {A} (l : list A) e k : List.length l = k -> map (fun p => nth p l e) (every k) = l.
Proof.
  intros <-. unfold every. apply (nth_ext _ _ e e); rewrite map_length, seq_length; auto. intros i Hi.
  rewrite (nth_indep _ e (nth 0 l e)) by (rewrite map_length, seq_length; auto). rewrite (map_nth (fun p => nth p l e)). rewrite seq_nth by auto. reflexivity.
Qed.

Definition diag_names (ex : option tri) : list string :=
  (["Latest"; "Quarter Incremental"; "Year Incremental"; "IBNR"; "Ultimate"; "Run Off 1"]%string ++ match ex with None => [] | Some _ => ["Apriori"%string] end)%list.

Section Rows.
Variables (name : string) (t : tri) (n : nat) (o0 a0 : Z) (ib ult run : tri) (ex : option tri).
Hypothesis W : wf t.
Hypothesis Bt : blank_future t.
Hypothesis U : uniq_labels t.
Hypothesis A0 : 1 <= ax0 (values t).
Hypothesis A1 : 1 <= ax1 (values t).
Hypothesis Q : square t n o0 a0 12.
Hypothesis N3 : 3 <= n.
Hypothesis DG : dgrain t = GY.
Hypothesis Ib : alike t ib.
Hypothesis Ul : alike t ult.
Hypothesis Ru : alike t run.
Hypothesis Hex : match ex with None => True | Some e => alike t e end.

Local Notation lat := (agg_axis ASum t AxDev).
Definition diag_values (i c o : nat) : list Qc :=
  [sumn n (fun d => amount t i c o d); 0%Qc; amount t i c o (n - 1 - o); amount ib i c o 0; amount ult i c o 0; amount run i c o 0]
  ++ match ex with None => [] | Some e => [amount e i c o 0] end.

Lemma year_start_bounds v : (v - 12 < year_start v <= v)%Z.
Proof. unfold year_start. pose proof (Z.div_mod v 12 ltac:(lia)). pose proof (Z.mod_pos_bound v 12 ltac:(lia)). lia. Qed.
Lemma first_before : (first_valuation t <? year_start (vdate t))%Z = true.
Proof.
  apply Z.ltb_lt. unfold first_valuation. assert (X : forall l d, (fold_right Z.min d l <= d)%Z) by (induction l; intros; cbn; [lia|]; specialize (IHl d); lia).
  pose proof (X (valuations t) (valuation t 0 0)) as H. pose proof Q as (_ & E2 & E3). rewrite valuation_month in H by (auto; lia).
  rewrite (square_month _ _ _ _ _ _ _ Q) in H by lia. pose proof (square_vdate _ _ _ _ _ Q). pose proof (year_start_bounds (vdate t)). rewrite valuation_month, (square_month _ _ _ _ _ _ _ Q) by (auto; lia). lia.
Qed.

Lemma rows_ok c : c < ax1 (values t) -> exists p, diag_rows name t lat ib ult run ex (nth c (vdims t) EmptyString) = Ok p /\ wf p /\
  kdims p = map (fun k => nth c (vdims t) EmptyString :: name :: k) (kdims t) /\ key_labels p = ("Measure" :: "Model" :: key_labels t)%string /\
  vdims p = diag_names ex /\ odims p = odims t /\ ddims p = Vals [vdate t] /\ vdate p = vdate t /\
  forall i k o, i < ax0 (values t) -> k < List.length (diag_names ex) -> o < ax2 (values t) -> amount p i k o 0 = nth k (diag_values i c o) 0%Qc.
Proof.
  intros Hc. unfold diag_values. pose proof Q as (_ & E2 & E3). set (col := nth c (vdims t) EmptyString).
  destruct (sum_side t t) as (Es & Sl & Dl & Cl); auto; try lia.
  pose proof (agg_frame_ok ASum t AxDev) as F. destruct F.
  destruct (side_col t W A0 A1 (proj2 U) _ c Sl Hc) as (w & Ew & Tk & O). fold col in Ew.
  unfold diag_rows. rewrite Ew, DG. cbn [rbind].
  assert (T : tab t (set_vdims w ["Latest"%string]) ["Latest"%string] [fun i o => cel lat i c o 0]).
  { destruct Tk, O as (O0 & O1 & O2 & O3 & Oc). rewrite Dl in tk_d. destruct (ddims w) as [|vs] eqn:Ed; [contradiction|].
    destruct Sl as [Wl Lv L0 L1 L2 L3]. rewrite L3 in tk_d. cbn in tk_d. subst vs.
    assert (Ek : kdims w = kdims t) by (rewrite tk_k, sel_seq_every; [auto|rewrite <- (wf_k _ Wl); auto]).
    assert (Eo : odims w = odims t) by (rewrite tk_o, sel_seq_every; [auto|rewrite <- (wf_o _ Wl); auto]).
    assert (Evd : vdate w = vdate t).
    { destruct (getitem_cols_ok lat [col] Wl) as (ic & w' & Ew' & P & _); [repeat constructor; intros []|discriminate| |].
      - intros x [<-|[]]. rewrite Lv. apply nth_In. rewrite <- (wf_v _ W). auto.
      - rewrite Ew in Ew'. injection Ew' as <-. pose proof (pk_le _ _ _ _ P). pose proof (pk_fut _ _ _ _ P 0 0 ltac:(lia) ltac:(lia)) as X.
        unfold month_of in X. rewrite Dl in X. cbn [nth] in X. rewrite af_vd in *. rewrite Z.ltb_irrefl in X. apply Z.ltb_ge in X. lia. }
    constructor; cbn [set_vdims set_dims kdims key_labels vdims odims ddims vdate values List.length]; auto; try congruence; try lia.
    - destruct W, Wl. constructor; cbn [set_vdims set_dims kdims vdims odims ddims vdate values List.length]; rewrite ?Ek, ?Eo, ?Ed, ?Evd; cbn [dlist List.length]; auto; try lia.
      + repeat constructor.
      + intros v [<-|[]]. auto.
    - intros i o k Hi Ho Hk. assert (k = 0) by lia. subst k. apply Oc; auto. }
  destruct (put_zero t A0 A1 _ _ _ "Quarter Incremental"%string T) as (p1 & g1 & E1 & T1 & H1); [cbn; intuition discriminate|discriminate|].
  cbn [orb]. rewrite E1. cbn [rbind]. clear E1. rewrite (tb_vd _ _ _ _ T1). rewrite first_before.
  destruct (since_ok t n o0 a0 W Bt U A0 A1 Q N3 _ (year_start_bounds (vdate t)) c Hc) as (y & fy & Ey & Oy & Cy). fold col in Ey. rewrite Ey. cbn [rbind].
  destruct (put_col t A0 A1 _ _ _ "Year Incremental"%string y fy T1) as (p2 & g2 & E2' & T2 & H2); [cbn; intuition discriminate|auto|]. rewrite E2'. cbn [rbind]. clear E2'.
  destruct (side_col t W A0 A1 (proj2 U) _ c Ib Hc) as (b & Eb & _ & Ob). fold col in Eb. rewrite Eb. cbn [rbind].
  destruct (put_col t A0 A1 _ _ _ "IBNR"%string b (fun i o => cel ib i c o 0) T2) as (p3 & g3 & E3' & T3 & H3); [cbn; intuition discriminate|exact Ob|]. rewrite E3'. cbn [rbind]. clear E3'.
  destruct (side_col t W A0 A1 (proj2 U) _ c Ul Hc) as (v & Ev & _ & Ov). fold col in Ev. rewrite Ev. cbn [rbind].
  destruct (put_col t A0 A1 _ _ _ "Ultimate"%string v (fun i o => cel ult i c o 0) T3) as (p4 & g4 & E4 & T4 & H4); [cbn; intuition discriminate|exact Ov|]. rewrite E4. cbn [rbind]. clear E4.
  rewrite (sd_3 _ _ Ru). cbn [firstn run_off_names put_run_offs].
  destruct (side_col t W A0 A1 (proj2 U) _ c Ru Hc) as (r & Er & Tr & Or). fold col in Er. rewrite Er. cbn [rbind].
  assert (Wr : wf r).
  { destruct (getitem_cols_ok run [col] (sd_wf _ _ Ru)) as (ic & r' & Er' & P & _); [repeat constructor; intros []|discriminate| |].
    - intros x [<-|[]]. rewrite (sd_v _ _ Ru). apply nth_In. rewrite <- (wf_v _ W). auto.
    - rewrite Er in Er'. injection Er' as <-. apply P. }
  destruct Or as (R0 & R1 & R2 & R3 & Rc). destruct (iloc_dev_int_ok r 0 Wr) as (r2 & Er2 & Cr); [lia|]. cbn [Z.of_nat] in Er2. rewrite Er2. cbn [rbind].
  assert (Or2 : one_col t r2 (fun i o => cel run i c o 0)).
  { pose proof (cl_eq _ _ Cr) as X. unfold one_col. rewrite X. cbn [set_vdate set_dims sel_dev sel_tri sel_arr values ax0 ax1 ax2 ax3]. rewrite !seq_length. repeat (split; [auto; fail|]).
    intros i o Hi Ho. unfold cel at 1. cbn [set_vdate set_dims sel_dev sel_tri sel_arr values av]. rewrite !seq_nth by lia. cbn [nth Nat.add]. apply Rc; auto. }
  destruct (put_col t A0 A1 _ _ _ "Run Off 1"%string r2 (fun i o => cel run i c o 0) T4) as (p5 & g5 & E5 & T5 & H5); [cbn; intuition discriminate|exact Or2|]. rewrite E5. cbn [rbind]. clear E5.
  cbn [app] in T5.
  assert (Fin : forall p6 ns gs, tab t p6 ns gs -> wf (set_keys p6 (map (fun k => col :: name :: k) (kdims lat)) ("Measure" :: "Model" :: key_labels lat)%string)).
  { intros p6 ns gs T6. destruct T6. destruct tb_wf. constructor; cbn [set_keys kdims vdims odims ddims vdate values]; auto. rewrite map_length, af_k. congruence. }
  destruct ex as [e|]; cbn [rbind].
  - assert (Oe : exists e', (if ax1 (values e) =? 1 then Ok e else getitem_cols e [col]) = Ok e' /\ one_col t e' (fun i o => cel e i c o 0)).
    { destruct (Nat.eqb_spec (ax1 (values e)) 1) as [X|X].
      - exists e. split; auto. rewrite (sd_1 _ _ Hex) in X. assert (c = 0) by lia. subst c. destruct Hex. unfold one_col. repeat (split; [lia|]). auto.
      - destruct (side_col t W A0 A1 (proj2 U) _ c Hex Hc) as (e' & Ee & _ & Oe). eauto. }
    destruct Oe as (e' & Ee & Oe). rewrite Ee. cbn [rbind].
    destruct (put_col t A0 A1 _ _ _ "Apriori"%string e' (fun i o => cel e i c o 0) T5) as (p6 & g6 & E6 & T6 & H6); [cbn; intuition discriminate|exact Oe|]. rewrite E6. cbn [rbind].
    eexists. split; [reflexivity|]. split; [eapply Fin; eauto|]. cbn [app] in T6. pose proof T6 as T6'. destruct T6'. cbn [set_keys kdims key_labels vdims odims ddims vdate]. rewrite af_k, af_kl.
    split; [auto|]. split; [auto|]. split; [auto|]. split; [auto|]. split; [auto|]. split; [auto|].
    intros i k o Hi Hk Ho. change (amount (set_keys p6 _ _) i k o 0) with (nz (cel p6 i k o 0)). cbn in Hk. rewrite tb_cell by (auto; cbn; lia).
    cbn [app]. destruct k as [|[|[|[|[|[|[|k]]]]]]]; cbn [nth]; [..|exfalso; lia].
    + rewrite Cl, E3. reflexivity.
    + apply H1; auto.
    + rewrite H2 by auto. apply Cy; auto.
    + rewrite H3 by auto. reflexivity.
    + rewrite H4 by auto. reflexivity.
    + rewrite H5 by auto. reflexivity.
    + rewrite H6 by auto. reflexivity.
  - eexists. split; [reflexivity|]. split; [eapply Fin; eauto|]. pose proof T5 as T6'. destruct T6'. cbn [set_keys kdims key_labels vdims odims ddims vdate]. rewrite af_k, af_kl.
    split; [auto|]. split; [auto|]. split; [auto|]. split; [auto|]. split; [auto|]. split; [auto|].
    intros i k o Hi Hk Ho. change (amount (set_keys p5 _ _) i k o 0) with (nz (cel p5 i k o 0)). cbn in Hk. rewrite tb_cell by (auto; cbn; lia).
    cbn [app]. destruct k as [|[|[|[|[|[|k]]]]]]; cbn [nth]; [..|exfalso; lia].
    + rewrite Cl, E3. reflexivity.
    + apply H1; auto.
    + rewrite H2 by auto. apply Cy; auto.
    + rewrite H3 by auto. reflexivity.
    + rewrite H4 by auto. reflexivity.
    + rewrite H5 by auto. reflexivity.
Qed.
End Rows.
