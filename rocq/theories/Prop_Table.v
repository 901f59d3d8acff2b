(** Property theorems: turning a triangle into a table. *)
From Coq Require Import Lia.
From Verif Require Import Ex ExLabel P_Json Table SpecTable P_Table.
Local Open Scope nat_scope.

(** C71. One index row and one column: origins down, ages across, every cell as it is, empty cells empty. *)
Theorem C71_single : forall t, wf t -> List.length (kdims t) = 1 -> List.length (vdims t) = 1 ->
  exists origins ages x, to_table t = Ok (Rect origins ages x) /\ names t 2 origins /\ names t 3 ages /\ forall o d, x o d = cel t 0 0 o d.
Proof.
  intros t W H0 H1. unfold to_table. rewrite !len_size by auto. cbn [size]. rewrite H0, H1. eexists. eexists. eexists. split; [reflexivity|].
  split; [apply labels_names; unfold an_axis; lia|]. split; [apply labels_names; unfold an_axis; lia|]. reflexivity.
Qed.
Print Assumptions C71_single.
Example C71_single_case : wf ex3 /\ List.length (kdims ex3) = 1 /\ List.length (vdims ex3) = 1.
Proof. split; [by_wfb|split; reflexivity]. Qed.

(** C71. Two axes [p] and [q] with more than one label, one of them the index or the columns: the labels of [p] down and of [q] across, and
    every amount of the triangle under its two labels, 0 where there is none. *)
Theorem C71_two : forall t p q, wf t -> more_than_one t -> an_axis q -> p < q -> several t p -> several t q ->
  (forall ax, an_axis ax -> several t ax -> ax = p \/ ax = q) ->
  exists down across x, to_table t = Ok (Rect down across x) /\ names t p down /\ names t q across /\
    forall i c o d, in_range t i c o d -> x (coord p i c o d) (coord q i c o d) = Some (amount t i c o d).
Proof.
  intros t p q W M A L S1 S2 U. apply more_wide in M; auto. apply several_long in S1, S2; auto. assert (U' : forall ax, an_axis ax -> long t ax -> ax = p \/ ax = q) by (intros; apply U; auto; apply several_long; auto).
  unfold to_table. rewrite not_one, none_empty by auto. rewrite (long_two t p q) by auto. eexists. eexists. eexists. split; [reflexivity|].
  split; [apply labels_names; unfold an_axis in *; lia|]. split; [apply labels_names; auto|]. intros i c o d R. cbv beta. rewrite squeezed_two by auto. apply fill0_nz.
Qed.
Print Assumptions C71_two.
(** Not vacuous: two lines of business and two origins at one age. *)
Definition ex_lines : tri := tri4 [["a"]; ["b"]]%string ["lob"]%string ["paid"]%string [y 2001; y 2002] (Ages [12]%Z) (dec 2002) [[[[Some 100]; [Some 120]]]; [[[Some 7]; [None]]]]%Z.
Example C71_two_case : wf ex_lines /\ more_than_one ex_lines /\ several ex_lines 0 /\ several ex_lines 2 /\ (forall ax, an_axis ax -> several ex_lines ax -> ax = 0 \/ ax = 2).
Proof.
  assert (L0 : size ex_lines 0 = 2) by reflexivity. assert (L1 : size ex_lines 1 = 1) by reflexivity. assert (L2 : size ex_lines 2 = 2) by reflexivity. assert (L3 : size ex_lines 3 = 1) by reflexivity.
  assert (Q : forall ax, an_axis ax -> ax = 0 \/ ax = 1 \/ ax = 2 \/ ax = 3) by (unfold an_axis; intros; lia). unfold more_than_one, several.
  split; [by_wfb|]. split; [split; [intros ax H; destruct (Q ax H) as [->|[->|[->| ->]]]; lia|left; lia]|]. split; [lia|]. split; [lia|].
  intros ax H S. destruct (Q ax H) as [->|[->|[->| ->]]]; lia.
Qed.

(** C71. Several index rows, or several columns, at one origin and age: a series of the amounts, 0 where there is none. *)
Theorem C71_line : forall t p, wf t -> more_than_one t -> an_axis p -> several t p -> (forall ax, an_axis ax -> several t ax -> ax = p) ->
  exists labels x, to_table t = Ok (Series labels x) /\ names t p labels /\ forall i c o d, in_range t i c o d -> x (coord p i c o d) = Some (amount t i c o d).
Proof.
  intros t p W M A S U. apply more_wide in M; auto. apply several_long in S; auto. assert (U' : forall ax, an_axis ax -> long t ax -> ax = p) by (intros; apply U; auto; apply several_long; auto).
  unfold to_table. rewrite not_one, none_empty by auto. rewrite (long_one t p) by auto. eexists. eexists. split; [reflexivity|].
  split; [apply labels_names; auto|]. intros i c o d R. cbv beta. rewrite squeezed_one by auto. apply fill0_nz.
Qed.
Print Assumptions C71_line.
Definition ex_cols : tri := tri4 [["a"]]%string ["lob"]%string ["paid"; "incurred"]%string [y 2001] (Ages [12]%Z) (dec 2001) [[[[Some 100]]; [[Some 120]]]]%Z.
Example C71_line_case : wf ex_cols /\ more_than_one ex_cols /\ several ex_cols 1 /\ (forall ax, an_axis ax -> several ex_cols ax -> ax = 1).
Proof.
  assert (L0 : size ex_cols 0 = 1) by reflexivity. assert (L1 : size ex_cols 1 = 2) by reflexivity. assert (L2 : size ex_cols 2 = 1) by reflexivity. assert (L3 : size ex_cols 3 = 1) by reflexivity.
  assert (Q : forall ax, an_axis ax -> ax = 0 \/ ax = 1 \/ ax = 2 \/ ax = 3) by (unfold an_axis; intros; lia). unfold more_than_one, several.
  split; [by_wfb|]. split; [split; [intros ax H; destruct (Q ax H) as [->|[->|[->| ->]]]; lia|right; lia]|]. split; [lia|].
  intros ax H S. destruct (Q ax H) as [->|[->|[->| ->]]]; lia.
Qed.

(** C71. Three or four axes: one row for each index key, origin and age at which some column has an amount, with the amounts of all columns;
    no such place is missing, none appears twice, and there are no other rows. *)
Theorem C71_long : forall t p q r, wf t -> NoDup (kdims t) -> is_val_tri t = false -> more_than_one t -> p < q -> q < r -> an_axis r -> several t p -> several t q -> several t r ->
  exists rows, to_table t = Ok (Long rows) /\ NoDup (map place rows) /\
    forall x, In x rows <-> exists i o d, i < size t 0 /\ o < size t 2 /\ d < size t 3 /\ (exists c, c < size t 1 /\ cel t i c o d <> None) /\ x = row_of t i o d.
Proof.
  intros t p q r W N V M L1 L2 A S1 S2 S3. apply more_wide in M; auto. apply several_long in S1, S2, S3; auto. unfold to_table. rewrite not_one by auto.
  destruct (long_more t p q r) as (a & b & c & l & E); auto; try (unfold an_axis in *; lia). rewrite E.
  assert (D : val_to_dev t = Ok t). { unfold val_to_dev. unfold is_val_tri in V. destruct (ddims t); [reflexivity|discriminate]. }
  rewrite (to_frame_eq t t D). cbn [rbind]. exists (frame t). split; [reflexivity|]. split; [apply frame_places; auto|].
  intros x. rewrite (frame_In t W N). unfold row_of, row_amounts. rewrite <- !len_size, <- (wf_v _ W) by auto. reflexivity.
Qed.
Print Assumptions C71_long.
Example C71_long_case : wf rowsA /\ NoDup (kdims rowsA) /\ is_val_tri rowsA = false /\ more_than_one rowsA /\ several rowsA 0 /\ several rowsA 2 /\ several rowsA 3.
Proof.
  assert (L0 : size rowsA 0 = 2) by reflexivity. assert (L1 : size rowsA 1 = 1) by reflexivity. assert (L2 : size rowsA 2 = 2) by reflexivity. assert (L3 : size rowsA 3 = 2) by reflexivity.
  assert (Q : forall ax, an_axis ax -> ax = 0 \/ ax = 1 \/ ax = 2 \/ ax = 3) by (unfold an_axis; intros; lia). unfold more_than_one, several.
  split; [by_wfb|]. split; [repeat constructor; cbn; intuition discriminate|]. split; [reflexivity|]. split; [split; [intros ax H; destruct (Q ax H) as [->|[->|[->| ->]]]; lia|left; lia]|]. repeat split; lia.
Qed.

(** C71. Violated: with two lines of business an amount after the valuation date is shown as 0, with one line it is empty. *)
Definition ex_future : tri := tri4 [["a"]; ["b"]]%string ["lob"]%string ["paid"]%string [y 2001] (Ages [12; 24]%Z) (dec 2001) [[[[Some 100; None]]]; [[[Some 7; None]]]]%Z.
Definition ex_future1 : tri := tri4 [["a"]]%string ["lob"]%string ["paid"]%string [y 2001] (Ages [12; 24]%Z) (dec 2001) [[[[Some 100; None]]]]%Z.
Theorem C71_zeros_refuted : exists t u x z l1 l2 l3 l4, wf t /\ wf u /\ future t 0 1 /\ future u 0 1 /\ cel t 0 0 0 1 = None /\ cel u 0 0 0 1 = None /\
  to_table t = Ok (Rect l1 l2 x) /\ x 0 1 = Some 0%Qc /\ to_table u = Ok (Rect l3 l4 z) /\ z 0 1 = None.
Proof.
  exists ex_future, ex_future1. eexists. eexists. eexists. eexists. eexists. eexists. split; [by_wfb|]. split; [by_wfb|]. split; [vm_compute; reflexivity|]. split; [vm_compute; reflexivity|].
  split; [reflexivity|]. split; [reflexivity|]. split; [reflexivity|]. split; [reflexivity|]. split; reflexivity.
Qed.
Print Assumptions C71_zeros_refuted.
(** C71. Violated: a triangle without index rows cannot be turned into a table. *)
Definition ex_norows : tri := Tri [] ["lob"]%string ["paid"]%string [y 2001; y 2002] (Ages [12; 24]%Z) (Arr 0 1 2 2 (fun _ _ _ _ => None)) (dec 2002) (Some true) false GY GY.
Theorem C71_no_rows_refuted : exists t, wf t /\ size t 0 = 0 /\ size t 2 = 2 /\ to_table t = Err ValueError.
Proof. exists ex_norows. split; [by_wfb|]. repeat split; reflexivity. Qed.
Print Assumptions C71_no_rows_refuted.
