(** Proofs about the summary of a fitted method: the rows of one column. *)
From Coq Require Import Lia.
From Verif Require Import P_Agg P_Select2 P_Select3 P_FullTri P_Filter SliceFacts TriFacts CatFacts SpecSelect SpecDiag.
Local Open Scope nat_scope.

Section Rows.
Variables (t : tri).
Hypothesis Wt : wf t.
Hypothesis A0 : 1 <= ax0 (values t).
Hypothesis A1 : 1 <= ax1 (values t).
Hypothesis Nv : NoDup (vdims t).

(** A triangle with one cell for each row, column and origin of [t]. *)
Record alike (v : tri) : Prop := {
  sd_wf : wf v; sd_v : vdims v = vdims t; sd_0 : ax0 (values v) = ax0 (values t); sd_1 : ax1 (values v) = ax1 (values t);
  sd_2 : ax2 (values v) = ax2 (values t); sd_3 : ax3 (values v) = 1 }.
Definition one_col (w : tri) (f : nat -> nat -> cell) : Prop :=
  ax0 (values w) = ax0 (values t) /\ ax1 (values w) = 1 /\ ax2 (values w) = ax2 (values t) /\ ax3 (values w) = 1 /\
  forall i o, i < ax0 (values t) -> o < ax2 (values t) -> cel w i 0 o 0 = f i o.

Lemma side_col v c : alike v -> c < ax1 (values t) -> exists w, getitem_cols v [nth c (vdims t) EmptyString] = Ok w /\
  taken v w (every (ax0 (values v))) [c] (every (ax2 (values v))) (every (ax3 (values v))) /\ one_col w (fun i o => cel v i c o 0).
Proof.
  intros S Hc. destruct S. destruct (cols_taken v [nth c (vdims t) EmptyString] [c]) as (w & E & T & _); auto; try lia; try discriminate.
  - rewrite sd_v0. auto.
  - repeat constructor. intros [].
  - constructor; [|constructor]. rewrite sd_v0. apply nth_error_nth'. rewrite <- (wf_v _ Wt). auto.
  - exists w. split; [exact E|]. split; [exact T|]. destruct T. unfold every in *. rewrite !seq_length in *. cbn [List.length] in *.
    split; [lia|]. split; [lia|]. split; [lia|]. split; [lia|]. intros i o Hi Ho. rewrite tk_cell by lia. rewrite !seq_nth by lia. reflexivity.
Qed.

(** A table: one named column after the other. *)
Record tab (out : tri) (names : list string) (fs : list (nat -> nat -> cell)) : Prop := {
  tb_wf : wf out; tb_k : kdims out = kdims t; tb_kl : key_labels out = key_labels t; tb_o : odims out = odims t; tb_d : ddims out = Vals [vdate t];
  tb_vd : vdate out = vdate t; tb_v : vdims out = names; tb_len : List.length fs = List.length names;
  tb_0 : ax0 (values out) = ax0 (values t); tb_2 : ax2 (values out) = ax2 (values t); tb_3 : ax3 (values out) = 1;
  tb_cell : forall i o k, i < ax0 (values t) -> o < ax2 (values t) -> k < List.length names -> cel out i k o 0 = nth k fs (fun _ _ => None) i o }.

Lemma tab_grow out names fs name b : tab out names fs -> ax0 b = ax0 (values t) -> ax1 b = 1 -> ax2 b = ax2 (values t) -> ax3 b = 1 ->
  tab (set_values (set_vdims out (vdims out ++ [name])) (cat2 1 (values out) b)) (names ++ [name]) (fs ++ [fun i o => av b i 0 o 0]).
Proof.
  intros T B0 B1 B2 B3. destruct T. pose proof (wf_v _ tb_wf0) as X1. constructor; try assumption.
  - destruct tb_wf0. constructor; try assumption. cbn. rewrite app_length. cbn. lia.
  - cbn. rewrite tb_v0. reflexivity.
  - rewrite !app_length, tb_len0. reflexivity.
  - intros i o k Hi Ho Hk. rewrite app_length in Hk. cbn in Hk. cbn [set_values values]. unfold cel. cbn [set_values set_vdims set_dims values cat2 av ax1].
    destruct (Nat.ltb_spec k (ax1 (values out))).
    + rewrite app_nth1 by (rewrite tb_len0, <- tb_v0; lia). apply tb_cell0; auto. rewrite <- tb_v0. lia.
    + assert (k = List.length names) by (rewrite <- tb_v0 in *; lia). subst k. rewrite app_nth2, tb_len0, Nat.sub_diag by lia. cbn [nth]. f_equal. rewrite X1, tb_v0. lia.
Qed.
Lemma put_col out names fs name w f : tab out names fs -> ~ In name names -> one_col w f ->
  exists out' g, diag_put out name (VTri w) = Ok out' /\ tab out' (names ++ [name]) (fs ++ [g]) /\ forall i o, i < ax0 (values t) -> o < ax2 (values t) -> g i o = f i o.
Proof.
  intros T Hn (W0 & W1 & W2 & W3 & C). pose proof (tb_v _ _ _ T) as V. unfold diag_put, setitem.
  destruct (mem_str name (vdims out)) eqn:M; [apply mem_str_spec in M; rewrite V in M; contradiction|].
  unfold side_by_side. cbn [set_vdims set_dims values]. rewrite cat_ok_1, W0, W2, W3, (tb_0 _ _ _ T), (tb_2 _ _ _ T), (tb_3 _ _ _ T), !Nat.eqb_refl. cbn [andb].
  eexists. eexists. split; [reflexivity|]. split; [apply tab_grow; auto|]. intros i o Hi Ho. apply C; auto.
Qed.
Lemma put_zero out names fs name : tab out names fs -> ~ In name names -> names <> [] ->
  exists out' g, diag_put out name (VNum 0%Qc) = Ok out' /\ tab out' (names ++ [name]) (fs ++ [g]) /\ forall i o, i < ax0 (values t) -> o < ax2 (values t) -> nz (g i o) = 0%Qc.
Proof.
  intros T Hn Hne. pose proof (tb_v _ _ _ T) as V. unfold diag_put, setitem.
  destruct (mem_str name (vdims out)) eqn:M; [apply mem_str_spec in M; rewrite V in M; contradiction|].
  pose proof (tb_wf _ _ _ T) as W. pose proof (tb_0 _ _ _ T) as T0. pose proof (tb_2 _ _ _ T) as T2. pose proof (tb_3 _ _ _ T) as T3.
  destruct (zero_column out [name] W) as (f & z & Ef & Ez & Wz & _ & _ & _ & _ & _ & _ & _ & _ & Z0 & Z1 & Z2 & Z3 & _ & _ & Hz & _); [lia| |].
  { rewrite (wf_v _ W), V. destruct names; [congruence|cbn; lia]. }
  unfold side_by_side. rewrite Ef. cbn [rbind]. rewrite Ez. cbn [rbind]. pose proof (wf_o1 _ W). pose proof (wf_d1 _ W).
  assert (B : bok (values z) (scalar_arr 0%Qc)) by (unfold bok; cbn [scalar_arr ax0 ax1 ax2 ax3]; lia).
  destruct (op_arr_ok OAdd z (scalar_arr 0%Qc) B) as (s & Es & R). cbn [op_arr] in Es. pose proof Es as Es'. rewrite Es. cbn [rbind].
  destruct R. cbn [scalar_arr ax0 ax1 ax2 ax3] in ar_0, ar_1, ar_2, ar_3. rewrite Nat.max_l in ar_0, ar_1, ar_2, ar_3 by lia.
  cbn [set_vdims set_dims values]. rewrite cat_ok_1, ar_0, ar_2, ar_3, Z0, Z2, Z3, !Nat.eqb_refl. cbn [andb].
  eexists. eexists. split; [reflexivity|]. split; [apply tab_grow; auto; lia|]. intros i o Hi Ho. cbv beta.
  fold (cel s i 0 o 0). rewrite ar_cell. cbn [cop]. rewrite bav_scalar, bav_in by lia. pose proof (Hz i 0 o 0) as Q. unfold cel in Q.
  unfold nz_add. rewrite Q, nz_n2n. cbn [cmul nz]. ring.
Qed.
End Rows.
