(** C60: saving a triangle as JSON and reading it back. *)
From Coq Require Import Lia.
From Verif Require Import P_Json P_Json3 P_Sort Ex ExLabel P_Olf3 SpecJson.
Local Open Scope Z_scope.

(** C60. Reading what was saved gives the triangle back: the same labels, dates, grains and
    flags, the index rows in order, and every amount in its cell. *)
Theorem C60_round_trip : forall t o0 a0 h m, savable t o0 a0 h m ->
  exists j u, to_json t = Ok j /\ read_json j = Ok u /\ read_back t u.
Proof. exact json_round_trip. Qed.
Print Assumptions C60_round_trip.

(** C60. If the index is in order, nothing changes but that amounts of zero are missing. *)
Theorem C60_same_triangle : forall t o0 a0 h m, savable t o0 a0 h m -> StronglySorted (fun a b => key_leb a b = true) (kdims t) ->
  exists j u, to_json t = Ok j /\ read_json j = Ok u /\ same_frame t u /\ is_cumulative u = is_cumulative t /\ is_pattern u = is_pattern t /\
    forall i c o d, in_range t i c o d -> stores (cel u i c o d) (amount t i c o d).
Proof. exact json_same. Qed.
Print Assumptions C60_same_triangle.


(** ** The hypotheses can be met *)
Definition entryb (t : tri) (i c o d : nat) : bool :=
  (i <? ax0 (values t))%nat && (c <? ax1 (values t))%nat && (o <? ax2 (values t))%nat && (d <? ax3 (values t))%nat && negb (vdate t <? month_of t o d) &&
  match is_cumulative t, d with
  | Some true, S e => negb (Qc_eqb (amount t i c o d) (amount t i c o e))
  | _, _ => negb (is_nan (cel t i c o d))
  end.
Lemma entryb_ok t i c o d : entryb t i c o d = true <-> entry t i c o d.
Proof.
  unfold entryb, entry, in_range, future. rewrite !andb_true_iff, !Nat.ltb_lt, negb_true_iff, Z.ltb_ge.
  assert (E : (match is_cumulative t, d with Some true, S e => negb (Qc_eqb (amount t i c o d) (amount t i c o e)) | _, _ => negb (is_nan (cel t i c o d)) end = true) <->
    match is_cumulative t, d with Some true, S e => amount t i c o d <> amount t i c o e | _, _ => cel t i c o d <> None end).
  { assert (X : negb (is_nan (cel t i c o d)) = true <-> cel t i c o d <> None) by (destruct (cel t i c o d); cbn; split; congruence).
    destruct (is_cumulative t) as [[|]|]; auto. destruct d as [|e]; auto. destruct (Qc_eqb_spec (amount t i c o (S e)) (amount t i c o e)); cbn; split; congruence. }
  rewrite E. assert (L : vdate t >= month_of t o d <-> ~ vdate t < month_of t o d) by lia. split; [intros (((((? & ?) & ?) & ?) & ?) & ?)|intros ((? & ? & ? & ?) & ? & ?)]; repeat split; auto; lia.
Qed.
Lemma ten_int z : ten_decimals (qc z).
Proof. exists (z * 10 ^ 10). rewrite qcZ_mult. field. apply ten10. Qed.
Lemma ten_amounts t : (forall i c o d, exists z, amount t i c o d = qc z) -> forall i c o d, in_range t i c o d -> ten_decimals (amount t i c o d).
Proof. intros H i c o d _. destruct (H i c o d) as (z & ->). apply ten_int. Qed.
Lemma nz_int x : exists z, nz (option_map qc x) = qc z.
Proof. destruct x as [z|]; [exists z|exists 0]; reflexivity. Qed.

(** Two lines out of order, two columns, quarters by quarters, cumulative. *)
Definition exj : tri := Tri [["b"]; ["a"]]%string ["lob"%string] ["paid"; "incurred"]%string [y 2020; y 2020 + 3; y 2020 + 6] (Ages [3; 6; 9])
  (arr4 [[[[Some 10; Some 15; Some 15]; [Some 7; Some 9; None]; [Some 3; None; None]];
          [[Some 20; Some 25; Some 30]; [Some 8; Some 6; None]; [None; None; None]]];
         [[[None; None; Some 4]; [None; None; None]; [Some 1; None; None]];
          [[None; Some 2; Some 4]; [None; Some 5; None]; [Some 1; None; None]]]])
  (y 2020 + 8) (Some true) false GQ GQ.
Example C60_savable : savable exj (y 2020) 3 3 1.
Proof.
  constructor.
  - by_wfb.
  - reflexivity.
  - right. split; [reflexivity|]. left. vm_compute. lia.
  - split; [lia|]. split; [lia|]. split; [reflexivity|]. split; [reflexivity|]. split; [|split; reflexivity]. intros k Hk. change (k < 3)%nat in Hk. lia.
  - by_blankb.
  - split; [apply nodup_keysb_NoDup|apply nodup_strb_NoDup]; vm_compute; reflexivity.
  - lia.
  - reflexivity.
  - vm_compute. lia.
  - vm_compute. reflexivity.
  - reflexivity.
  - vm_compute. split; congruence.
  - right. vm_compute. congruence.
  - exists 0%nat, 0%nat. apply entryb_ok. vm_compute. reflexivity.
  - exists 0%nat, 0%nat, 2%nat, 0%nat. split; [apply entryb_ok; vm_compute; reflexivity|reflexivity].
  - intros [|[|i]] Hi; [exists 0%nat, 0%nat, 0%nat|exists 0%nat, 0%nat, 2%nat|change (S (S i) < 2)%nat in Hi; lia]; apply entryb_ok; vm_compute; reflexivity.
  - right. exists 0%nat, 0%nat, 1%nat, 0%nat. split; [apply entryb_ok; vm_compute; reflexivity|lia].
  - exists 0, 3%nat. split; [lia|]. intros z. split.
    + intros (i & c & o & d & ((_ & _ & Ho & _) & _) & <-). exists o. change (o < 3)%nat in Ho. split; auto. destruct o as [|[|[|o]]]; [reflexivity|reflexivity|reflexivity|lia].
    + intros (k & Hk & ->). exists 0%nat, 0%nat, k, 0%nat. destruct k as [|[|[|k]]]; try lia; (split; [apply entryb_ok; vm_compute; reflexivity|reflexivity]).
  - exists 2, 3%nat. split; [lia|]. intros z. split.
    + intros (i & c & o & d & ((_ & _ & Ho & Hd) & NF & _) & <-). change (o < 3)%nat in Ho. change (d < 3)%nat in Hd. unfold future in NF. exists (o + d)%nat.
      destruct o as [|[|[|o]]], d as [|[|[|d]]]; try lia; vm_compute in NF |- *; split; auto; try lia; exfalso; apply NF; reflexivity.
    + intros (k & Hk & ->). exists 0%nat, 1%nat, 0%nat, k. destruct k as [|[|[|k]]]; try lia; (split; [apply entryb_ok; vm_compute; reflexivity|reflexivity]).
  - apply ten_amounts. intros i c o d. apply nz_int.
Qed.
Definition back (t : tri) : tri := Ex.get exj (match to_json t with Ok j => read_json j | Err e => Err e end).
Definition reads (t : tri) : bool := okb (match to_json t with Ok j => read_json j | Err e => Err e end).
Lemma reads_ok t : reads t = true -> exists j, to_json t = Ok j /\ read_json j = Ok (back t).
Proof. unfold reads, back. destruct (to_json t) as [j|e]; [|discriminate]. intros H. exists j. split; auto. apply Ex.get_ok. auto. Qed.
Example C60_read : kdims (back exj) = [["a"]; ["b"]]%string /\ cel (back exj) 1 1 1 1 = Some (qc 6) /\ cel (back exj) 0 1 0 2 = Some (qc 4) /\ cel (back exj) 0 0 0 1 = None.
Proof. vm_compute. auto. Qed.

(** ** Where the conditions are needed *)
Definition sameb (t u : tri) : bool :=
  (ax0 (values t) =? ax0 (values u))%nat && (vdate t =? vdate u) && (List.length (odims t) =? List.length (odims u))%nat &&
  all4 (ax0 (values t)) (ax1 (values t)) (ax2 (values t)) (ax3 (values t)) (fun i c o d => cell_eqb (cel t i c o d) (cel u i c o d)).

(** C60. Refuted: a cumulative triangle with two ages cannot be saved, because its
    differences have an amount after the valuation date. *)
Theorem C60_two_ages_refuted : exists t, wf t /\ blank_future t /\ is_cumulative t = Some true /\ ax3 (values t) = 2%nat /\ to_json t = Err IndexError.
Proof.
  exists (tri_of [[Some 100; Some 150]; [Some 120; None]] [y 2001; y 2002] (Ages [12; 24]) (dec 2002) (Some true) false).
  split; [by_wfb|]. split; [by_blankb|]. vm_compute. auto.
Qed.
Print Assumptions C60_two_ages_refuted.

(** C60. Refuted: an index row without amounts does not come back. *)
Definition exj_empty : tri := tri4 [["a"]; ["b"]]%string ["lob"%string] ["paid"%string] [y 2001; y 2002; y 2003] (Ages [12; 24; 36]) (dec 2003)
  [[[[Some 100; Some 150; Some 160]; [Some 120; Some 130; None]; [Some 90; None; None]]]; [[[None; None; None]; [None; None; None]; [None; None; None]]]].
Theorem C60_empty_row_refuted : exists t j u, wf t /\ to_json t = Ok j /\ read_json j = Ok u /\ In ["b"]%string (kdims t) /\ ~ In ["b"]%string (kdims u).
Proof.
  destruct (reads_ok exj_empty) as (j & E1 & E2); [vm_compute; reflexivity|]. exists exj_empty, j, (back exj_empty). split; [by_wfb|]. split; [exact E1|]. split; [exact E2|].
  split; [right; left; reflexivity|]. vm_compute. intros [H|[]]. discriminate H.
Qed.
Print Assumptions C60_empty_row_refuted.

(** C60. Refuted: a triangle in which nothing happened in the latest period comes back with
    an earlier valuation date and without that period. *)
Definition exj_quiet : tri := tri_of [[Some 100; Some 150; Some 150]; [Some 120; Some 120; None]; [None; None; None]]
  [y 2001; y 2002; y 2003] (Ages [12; 24; 36]) (dec 2003) (Some true) false.
Theorem C60_quiet_period_refuted : exists t j u, wf t /\ to_json t = Ok j /\ read_json j = Ok u /\
  vdate t = dec 2003 /\ vdate u = dec 2002 /\ List.length (odims t) = 3%nat /\ List.length (odims u) = 2%nat.
Proof.
  destruct (reads_ok exj_quiet) as (j & E1 & E2); [vm_compute; reflexivity|]. exists exj_quiet, j, (back exj_quiet). split; [by_wfb|]. split; [exact E1|]. split; [exact E2|].
  vm_compute. auto.
Qed.
Print Assumptions C60_quiet_period_refuted.

(** C60. Refuted: a first origin without amounts does not come back. *)
Definition exj_late : tri := tri_of [[None; None; None]; [Some 120; Some 130; None]; [Some 90; None; None]]
  [y 2001; y 2002; y 2003] (Ages [12; 24; 36]) (dec 2003) (Some true) false.
Theorem C60_empty_origin_refuted : exists t j u, wf t /\ to_json t = Ok j /\ read_json j = Ok u /\ In (y 2001) (odims t) /\ ~ In (y 2001) (odims u).
Proof.
  destruct (reads_ok exj_late) as (j & E1 & E2); [vm_compute; reflexivity|]. exists exj_late, j, (back exj_late). split; [by_wfb|]. split; [exact E1|]. split; [exact E2|].
  split; [left; reflexivity|]. vm_compute. intros [H|[H|[]]]; discriminate H.
Qed.
Print Assumptions C60_empty_origin_refuted.

(** C60. Refuted: a triangle built without saying whether it is cumulative comes back as
    its differences. *)
Definition exj_unset : tri := tri_of [[Some 100; Some 150; Some 160]; [Some 120; Some 130; None]; [Some 90; None; None]] [y 2001; y 2002; y 2003] (Ages [12; 24; 36]) (dec 2003) None false.
Theorem C60_unset_refuted : exists t j u, wf t /\ to_json t = Ok j /\ read_json j = Ok u /\
  is_cumulative t = None /\ is_cumulative u = Some false /\ cel t 0 0 0 1 = Some (qc 150) /\ cel u 0 0 0 1 = Some (qc 50).
Proof.
  destruct (reads_ok exj_unset) as (j & E1 & E2); [vm_compute; reflexivity|]. exists exj_unset, j, (back exj_unset). split; [by_wfb|]. split; [exact E1|]. split; [exact E2|].
  vm_compute. auto.
Qed.
Print Assumptions C60_unset_refuted.

(** C60. Refuted: amounts are cut to ten decimals; a third does not come back. *)
Definition exj_third : tri := Tri [["Total"%string]] ["Total"%string] ["paid"%string] [y 2001; y 2002] (Ages [12; 24])
  (Arr 1 1 2 2 (fun _ _ o d => if (o + d <=? 1)%nat then Some (1 / qc 3)%Qc else None)) (dec 2002) (Some false) false GY GY.
Theorem C60_third_refuted : exists t j u, wf t /\ to_json t = Ok j /\ read_json j = Ok u /\
  cel t 0 0 0 0 = Some (1 / qc 3)%Qc /\ cel u 0 0 0 0 = Some (qc 3333333333 / qc 10000000000)%Qc.
Proof.
  destruct (reads_ok exj_third) as (j & E1 & E2); [vm_compute; reflexivity|]. exists exj_third, j, (back exj_third). split; [by_wfb|]. split; [exact E1|]. split; [exact E2|].
  vm_compute. auto.
Qed.
Print Assumptions C60_third_refuted.

(** C60. Refuted: quarters with amounts in only one quarter of the years come back as years. *)
Definition exj_quarter : tri := Tri [["Total"%string]] ["Total"%string] ["paid"%string] [y 2001; y 2001 + 3; y 2001 + 6; y 2001 + 9; y 2002] (Ages [3; 6; 9; 12; 15])
  (Arr 1 1 5 5 (fun _ _ o d => if (o =? 0)%nat && ((d =? 0)%nat || (d =? 4)%nat) then Some (qc 7) else if (o =? 4)%nat && (d =? 0)%nat then Some (qc 5) else None))
  (y 2002 + 2) (Some false) false GQ GQ.
Theorem C60_quarter_refuted : exists t j u, wf t /\ to_json t = Ok j /\ read_json j = Ok u /\
  ograin t = GQ /\ ograin u = GY /\ List.length (odims t) = 5%nat /\ List.length (odims u) = 2%nat.
Proof.
  destruct (reads_ok exj_quarter) as (j & E1 & E2); [vm_compute; reflexivity|]. exists exj_quarter, j, (back exj_quarter). split; [by_wfb|]. split; [exact E1|]. split; [exact E2|].
  vm_compute. auto.
Qed.
Print Assumptions C60_quarter_refuted.
