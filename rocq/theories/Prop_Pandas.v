(** Properties C18, C19, C42, C43: grouping, trimming, shifting and sorting. *)
From Coq Require Import Lia.
From Verif Require Import SpecPandas P_Group P_Sort P_Shift P_Dropna Ex.
Local Open Scope Z_scope.

(** C18. A group row is the sum of exactly its members; there is one row for each group. *)
Theorem C18_groups : forall t keys labels, wf t -> (1 <= ax0 (values t))%nat -> List.length keys = ax0 (values t) ->
  exists u, groupby_sum keys labels t = Ok u /\ grouped t keys labels u.
Proof. exact groupby_ok. Qed.
Print Assumptions C18_groups.

(** C18. The groups add up to the total over all rows. *)
Theorem C18_total : forall t keys labels u c o d, wf t -> (1 <= ax0 (values t))%nat -> List.length keys = ax0 (values t) ->
  groupby_sum keys labels t = Ok u -> (c < ax1 (values t))%nat -> (o < ax2 (values t))%nat -> (d < ax3 (values t))%nat ->
  sumn (ax0 (values u)) (fun p => amount u p c o d) = sumn (ax0 (values t)) (fun i => amount t i c o d).
Proof.
  intros t keys labels u c o d W A0 L E Hc Ho Hd. destruct (groupby_ok t keys labels W A0 L) as (u' & E' & G).
  rewrite E in E'. injection E' as <-. exact (grouped_total t keys labels u c o d L G Hc Ho Hd).
Qed.
Print Assumptions C18_total.

(** C18. Rows in another order give the same groups with the same cells. *)
Theorem C18_row_order : forall t t' keys labels p u u', wf t -> wf t' -> (1 <= ax0 (values t))%nat -> List.length keys = ax0 (values t) ->
  Permutation p (seq 0 (ax0 (values t))) -> same_but_rows t t' -> ax0 (values t') = ax0 (values t) ->
  (forall i c o d, in_range t i c o d -> cel t' i c o d = cel t (nth i p 0%nat) c o d) ->
  groupby_sum keys labels t = Ok u -> groupby_sum (map (fun i => nth i keys []) p) labels t' = Ok u' ->
  kdims u' = kdims u /\ key_labels u' = key_labels u /\ same_but_rows u u' /\
  forall i c o d, in_range u i c o d -> cel u' i c o d = cel u i c o d.
Proof.
  intros t t' keys labels p u u' W W' A0 L P S A C E E'.
  assert (Pl : List.length p = ax0 (values t)) by (pose proof (Permutation_length P) as X; rewrite seq_length in X; auto).
  destruct (groupby_ok t keys labels W A0 L) as (v & Ev & G). rewrite E in Ev. injection Ev as <-.
  destruct (groupby_ok t' (map (fun i => nth i keys []) p) labels W') as (v' & Ev' & G').
  { rewrite A; auto. } { rewrite map_length. congruence. }
  rewrite E' in Ev'. injection Ev' as <-.
  exact (grouped_order t t' keys _ labels p u u' L P eq_refl S A C G G').
Qed.
Print Assumptions C18_row_order.

(** Four rows, lines of business in two states, grouped by line. *)
Definition ex4r : tri :=
  Tri [["auto"; "NY"]; ["home"; "NY"]; ["auto"; "TX"]; ["home"; "TX"]]%string ["lob"; "state"]%string ["paid"]%string
    [y 2001; y 2002] (Ages [12; 24])
    (Arr 4 1 2 2 (fun i _ o d => if (2 <=? o + d)%nat then None else Some (qc (Z.of_nat (1 + i + 10 * o + 100 * d)))))
    (dec 2002) (Some true) false GY GY.
Example C18_example : wf ex4r /\ exists u, groupby_labels ["lob"]%string ex4r = Ok u /\
  kdims u = [["auto"]; ["home"]]%string /\
  cel u 0 0 0 1 = Some (qc 204) /\ cel u 1 0 1 0 = Some (qc 26) /\ cel u 1 0 1 1 = None.
Proof.
  split; [apply wfb_ok; vm_compute; reflexivity|].
  exists (Ex.get ex4r (groupby_labels ["lob"]%string ex4r)). split; [apply get_ok; vm_compute; reflexivity|].
  split; [vm_compute; reflexivity|]. repeat split; apply cell_eqb_eq; vm_compute; reflexivity.
Qed.

(** C19. [dropna] cuts the origins and the ages down to the range between the first and the
    last one with a total that is not zero, and changes nothing else. *)
Theorem C19_trims : forall t, wf t -> is_pattern t = false -> (2 <= ax2 (values t) \/ 2 <= ax3 (values t))%nat ->
  (exists o, (o < ax2 (values t))%nat /\ origin_total t o <> 0%Qc) ->
  (exists d, (d < ax3 (values t))%nat /\ age_total t d <> 0%Qc) ->
  exists u lo no dlo nd, dropna t = Ok u /\ block_of t u lo no dlo nd /\
    trims (origin_total t) (ax2 (values t)) lo no /\ trims (age_total t) (ax3 (values t)) dlo nd.
Proof. exact dropna_ok. Qed.
Print Assumptions C19_trims.

(** C19. When no amount is negative, every amount survives and no empty edge is left. *)
Theorem C19_nonnegative : forall t, wf t -> is_pattern t = false -> (2 <= ax2 (values t) \/ 2 <= ax3 (values t))%nat ->
  nonnegative t -> (exists i c o d, in_range t i c o d /\ amount t i c o d <> 0%Qc) ->
  exists u lo no dlo nd, dropna t = Ok u /\ block_of t u lo no dlo nd /\
    (forall i c o d, in_range t i c o d -> amount t i c o d <> 0%Qc -> (lo <= o < lo + no /\ dlo <= d < dlo + nd)%nat) /\
    (exists i c d, in_range t i c lo d /\ amount t i c lo d <> 0%Qc) /\
    (exists i c d, in_range t i c (lo + no - 1)%nat d /\ amount t i c (lo + no - 1)%nat d <> 0%Qc) /\
    (exists i c o, in_range t i c o dlo /\ amount t i c o dlo <> 0%Qc) /\
    (exists i c o, in_range t i c o (dlo + nd - 1)%nat /\ amount t i c o (dlo + nd - 1)%nat <> 0%Qc).
Proof. exact dropna_keeps. Qed.
Print Assumptions C19_nonnegative.

(** C19. A triangle with no amounts at all is refused. *)
Theorem C19_empty_rejected : forall t, is_pattern t = false -> (2 <= ax2 (values t) \/ 2 <= ax3 (values t))%nat ->
  (forall i c o d, in_range t i c o d -> amount t i c o d = 0%Qc) -> dropna t = Err ValueError.
Proof. exact dropna_zero. Qed.
Print Assumptions C19_empty_rejected.

(** An empty first origin and an empty last age. *)
Definition exedge : tri := tri_of
  [[N; N; N; N]; [Some 120; Some 180; Some 200; N]; [Some 90; Some 130; N; N]; [Some 70; N; N; N]]
  [y 2000; y 2001; y 2002; y 2003] (Ages [12; 24; 36; 48]) (dec 2003) (Some true) false.
Example C19_example : wf exedge /\ nonnegative exedge /\ exists u, dropna exedge = Ok u /\
  odims u = [y 2001; y 2002; y 2003] /\ ddims u = Ages [12; 24; 36] /\ cel u 0 0 0 2 = Some (qc 200).
Proof.
  split; [apply wfb_ok; vm_compute; reflexivity|]. split.
  - intros i c o d (Hi & Hc & Ho & Hd). cbn in Hi, Hc, Ho, Hd.
    assert (E : all4 1 1 4 4 (fun i c o d => Qle_bool 0 (this (amount exedge i c o d))) = true) by (vm_compute; reflexivity).
    apply Qle_bool_iff. exact (all4_ok _ _ _ _ _ E i c o d Hi Hc Ho Hd).
  - exists (Ex.get exedge (dropna exedge)). split; [apply get_ok; vm_compute; reflexivity|]. split; [vm_compute; reflexivity|]. split; [vm_compute; reflexivity|].
    apply cell_eqb_eq. vm_compute. reflexivity.
Qed.

(** Boundary of C19: amounts that cancel.  The first origin holds 50 and -50 and is
    dropped. *)
Definition excancel : tri := tri_of
  [[Some 50; Some (-50); Some 0]; [Some 120; Some 60; N]; [Some 90; N; N]]
  [y 2001; y 2002; y 2003] (Ages [12; 24; 36]) (dec 2003) (Some false) false.
Theorem C19_cancelling_amounts_refuted : exists t u i c o d, wf t /\ in_range t i c o d /\ dropna t = Ok u /\
  amount t i c o d <> 0%Qc /\ ~ In (nth o (odims t) 0) (odims u).
Proof.
  exists excancel, (Ex.get excancel (dropna excancel)), 0%nat, 0%nat, 0%nat, 0%nat.
  split; [apply wfb_ok; vm_compute; reflexivity|]. split; [repeat split; vm_compute; lia|].
  split; [apply get_ok; vm_compute; reflexivity|]. split; [vm_compute; discriminate|].
  vm_compute. intros [H|[H|[]]]; discriminate.
Qed.
Print Assumptions C19_cancelling_amounts_refuted.

(** C42. [shift(k)] puts the cell [k] positions further on at each position and empties the
    rest; labels stay. *)
Theorem C42_shift : forall ax t k, shiftable ax t -> exists u, Pandas.shift t k ax = Ok u /\ moved ax t u k.
Proof. exact shift_ok. Qed.
Print Assumptions C42_shift.

(** C42. Shifting by nothing returns the triangle; index and columns cannot be shifted. *)
Theorem C42_shift_0 : forall t ax, ax = AxOrigin \/ ax = AxDev -> Pandas.shift t 0 ax = Ok t.
Proof. intros t ax [-> | ->]; reflexivity. Qed.
Print Assumptions C42_shift_0.
Theorem C42_other_axes_rejected : forall t k ax, ax = AxIndex \/ ax = AxColumn -> Pandas.shift t k ax = Err AttributeError.
Proof. intros t k ax [-> | ->]; reflexivity. Qed.
Print Assumptions C42_other_axes_rejected.

Example C42_example : shiftable AxDev ex3 /\ shiftable AxOrigin ex3 /\
  cel (Ex.get ex3i (Pandas.shift ex3 2 AxDev)) 0 0 0 0 = Some (qc 175) /\
  cel (Ex.get ex3i (Pandas.shift ex3 2 AxDev)) 0 0 0 1 = Some (qc 0) /\
  cel (Ex.get ex3i (Pandas.shift ex3 (-1) AxOrigin)) 0 0 2 1 = Some (qc 180).
Proof.
  split; [|split].
  - repeat split; cbn; try lia. repeat constructor; cbn; intuition lia.
  - repeat split; cbn; try lia. repeat constructor; cbn; unfold y; intuition lia.
  - repeat split; apply cell_eqb_eq; vm_compute; reflexivity.
Qed.

(** C43. Sorting columns, origins or ages reorders labels and cells together; the labels
    come out in order. *)
Theorem C43_sort_axis : forall t ax, labelled t -> ax <> AxIndex -> (ax = AxDev -> is_val_tri t = false -> is_pattern t = false) ->
  exists u p, sort_axis t ax = Ok u /\ reordered ax t u p /\ in_order ax u /\ vdate u = vdate t.
Proof. exact sort_axis_ok. Qed.
Print Assumptions C43_sort_axis.

(** C43. The same for the index. *)
Theorem C43_sort_index : forall t, wf t -> (1 <= ax0 (values t))%nat ->
  exists u p, sort_axis t AxIndex = Ok u /\ reordered AxIndex t u p /\ in_order AxIndex u /\
    forall o d, (o < ax2 (values t))%nat -> (d < ax3 (values t))%nat -> (future u o d <-> future t o d).
Proof. exact sort_index_reordered. Qed.
Print Assumptions C43_sort_index.

(** Origins and ages out of order, as they come from appending triangles. *)
Definition exmixed : tri := tri_of
  [[Some 180; Some 120]; [Some 150; Some 100]] [y 2002; y 2001] (Ages [24; 12]) (dec 2003) (Some true) false.
Example C43_example : labelled exmixed /\ exists u, sort_axis exmixed AxDev = Ok u /\ ddims u = Ages [12; 24] /\
  cel u 0 0 0 0 = Some (qc 120) /\ wf ex4r /\ kdims (Ex.get ex4r (sort_axis ex4r AxIndex)) = [["auto"; "NY"]; ["auto"; "TX"]; ["home"; "NY"]; ["home"; "TX"]]%string.
Proof.
  split; [repeat split|]. eexists. split; [reflexivity|]. split; [reflexivity|].
  split; [apply cell_eqb_eq; vm_compute; reflexivity|]. split; [apply wfb_ok; vm_compute; reflexivity|vm_compute; reflexivity].
Qed.

(** Boundary of C43: the development labels of a pattern are text, so that a pattern with
    ages beyond 96 is put in text order: the factor from 108 to 120 comes first. *)
Definition expattern : tri := tri_of [[Some 9; Some 8; Some 7; Some 6; Some 5; Some 4; Some 3; Some 2; Some 1]] [y 2001]
  (Ages [12; 24; 36; 48; 60; 72; 84; 96; 108]) ULT_VAL (Some false) true.
Theorem C43_pattern_ages_refuted : exists t u, labelled t /\ is_pattern t = true /\ StronglySorted Z.lt (dlist (ddims t)) /\
  sort_axis t AxDev = Ok u /\ nth 0 (dlist (ddims u)) 0 = 108 /\ ~ in_order AxDev u.
Proof.
  exists expattern. eexists. split; [repeat split|]. split; [reflexivity|]. split; [apply sortedb_ok; reflexivity|].
  split; [reflexivity|]. split; [vm_compute; reflexivity|].
  intros H. cbn [in_order] in H. vm_compute in H. inversion H as [|a l H1 H2 E]. inversion H2 as [|b m H3 H4 E']. apply H3. reflexivity.
Qed.
Print Assumptions C43_pattern_ages_refuted.
