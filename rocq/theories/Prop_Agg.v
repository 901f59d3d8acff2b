(** Property C53: aggregating along an axis. *)
From Coq Require Import Lia Permutation Sorted.
From Verif Require Import P_Group P_Agg Ex SpecAgg.
Local Open Scope Z_scope.

(** C53. Every aggregate of every triangle along every axis: one position on the axis, all
    other axes and labels unchanged. *)
Theorem C53_frame : forall a ax t, reducing a -> exists u, aggregate a (Some ax) true t = Ok (AggTri u) /\ agg_frame t ax u.
Proof. intros a ax t R. exists (agg_axis a t ax). split; [exact (aggregate_ok a ax t R)|exact (agg_frame_ok a t ax)]. Qed.
Print Assumptions C53_frame.

(** C53. Each cell holds the aggregate of the known cells along the axis. *)
Theorem C53_cells : forall a ax t u i c o d, reducing a -> aggregate a (Some ax) true t = Ok (AggTri u) ->
  holds_aggregate a (axis_length t ax) (along t ax i c o d) (cel u i c o d).
Proof. intros a ax t u i c o d R E. rewrite (aggregate_ok a ax t R) in E. injection E as <-. exact (agg_cell_ok a t ax i c o d R). Qed.
Print Assumptions C53_cells.

(** C53. The specification leaves no choice: an aggregate of at least one known cell is unique. *)
Theorem C53_determined : forall a n f x y, (0 < n_known n f)%nat -> aggregate_of a n f x -> aggregate_of a n f y -> x = y.
Proof. exact aggregate_one. Qed.
Print Assumptions C53_determined.

(** C53. Another order of the positions on the axis gives the same aggregates. *)
Theorem C53_order : forall a ax t u p i c o d, reordered ax t u p -> in_range (agg_axis a t ax) i c o d ->
  cel (agg_axis a u ax) i c o d = cel (agg_axis a t ax) i c o d.
Proof. exact agg_reordered. Qed.
Print Assumptions C53_order.

(** C53. Sums along two axes can be taken in either order, and along all four they give the
    sum of all amounts. *)
Theorem C53_sum_order : forall t ax ax' i c o d,
  amount (agg_axis ASum (agg_axis ASum t ax) ax') i c o d = amount (agg_axis ASum (agg_axis ASum t ax') ax) i c o d.
Proof. exact agg_sum_order. Qed.
Print Assumptions C53_sum_order.
Theorem C53_grand_total : forall t,
  amount (agg_axis ASum (agg_axis ASum (agg_axis ASum (agg_axis ASum t AxIndex) AxColumn) AxOrigin) AxDev) 0 0 0 0
  = sumn (ax0 (values t)) (fun i => sumn (ax1 (values t)) (fun c => sumn (ax2 (values t)) (fun o => sumn (ax3 (values t)) (fun d => amount t i c o d)))).
Proof. exact agg_sum_all. Qed.
Print Assumptions C53_grand_total.

(** C53. Without [keepdims] the result is a number exactly if all other axes have length 1;
    it is the same aggregate. *)
Theorem C53_number : forall a ax t, reducing a ->
  let single := (match ax with AxIndex => True | _ => ax0 (values t) = 1%nat end) /\ (match ax with AxColumn => True | _ => ax1 (values t) = 1%nat end) /\
                (match ax with AxOrigin => True | _ => ax2 (values t) = 1%nat end) /\ (match ax with AxDev => True | _ => ax3 (values t) = 1%nat end) in
  (single -> exists x, aggregate a (Some ax) false t = Ok (AggNum x) /\ holds_aggregate a (axis_length t ax) (along t ax 0 0 0 0) x) /\
  (~ single -> aggregate a (Some ax) false t = aggregate a (Some ax) true t).
Proof.
  intros a ax t R. cbv zeta. split.
  - intros (H0 & H1 & H2 & H3). eexists. split; [exact (aggregate_number a ax t R H0 H1 H2 H3)|exact (agg_cell_ok a t ax 0 0 0 0 R)].
  - intros H. rewrite (aggregate_ok a ax t R). exact (aggregate_no_number a ax t R H).
Qed.
Print Assumptions C53_number.

(** C53. Without an axis: the first axis of more than one position, the index if there is none. *)
Theorem C53_default_axis : forall a k t ax,
  (forall ax', (axis_num ax' < axis_num ax)%nat -> axis_length t ax' = 1%nat) -> (1 < axis_length t ax)%nat ->
  aggregate a None k t = aggregate a (Some ax) k t.
Proof.
  intros a k t ax H H1. unfold aggregate. replace (default_axis t) with ax; [reflexivity|]. unfold default_axis.
  pose proof (H AxIndex) as A0. pose proof (H AxColumn) as A1. pose proof (H AxOrigin) as A2. unfold axis_length in *. cbn [axis_num axn] in *.
  destruct (Nat.eqb_spec (Nat.max (Nat.max (ax0 (values t)) (ax1 (values t))) (Nat.max (ax2 (values t)) (ax3 (values t)))) 1) as [E|E].
  - exfalso. destruct ax; cbn [axis_num axn] in H1; lia.
  - clear E. destruct ax; cbn [axis_num axn] in H1, A0, A1, A2; rewrite ?A0, ?A1, ?A2 by lia; cbn [Nat.eqb negb]; auto.
    all: match goal with |- context [negb (?n =? 1)%nat] => destruct (Nat.eqb_spec n 1) as [F|F]; [exfalso; lia|reflexivity] end.
Qed.
Print Assumptions C53_default_axis.

(** C53. Along index and columns, future cells stay empty (products: see below). *)
Theorem C53_future : forall a t ax, reducing a -> a <> AProd -> ax = AxIndex \/ ax = AxColumn -> blank_future t -> blank_future (agg_axis a t ax).
Proof. exact agg_blank. Qed.
Print Assumptions C53_future.

(** C53. Grouped aggregates: one row per group, each cell holds the aggregate of the
    group's rows. *)
Theorem C53_groups : forall a t keys labels, reducing a -> wf t -> (1 <= ax0 (values t))%nat -> List.length keys = ax0 (values t) ->
  exists u, groupby_agg a keys labels t = Ok u /\
    (forall g, In g (kdims u) <-> In g keys) /\ StronglySorted key_lt (kdims u) /\ key_labels u = labels /\ ax0 (values u) = List.length (kdims u) /\ same_but_rows t u /\
    (forall p c o d, in_range u p c o d ->
       holds_aggregate a (ax0 (values t)) (fun i => if key_dec (nth i keys []) (nth p (kdims u) []) then cel t i c o d else None) (cel u p c o d)).
Proof. exact groupby_agg_ok. Qed.
Print Assumptions C53_groups.

(** Three companies, two accident years. *)
Definition arr_rows (n : nat) (l : list (list (list (option Z)))) : arr :=
  Arr n 1 2 2 (fun i _ o d => option_map qc (nth d (nth o (nth i l []) []) None)).
Definition exagg : tri :=
  Tri [["A"]; ["B"]; ["C"]]%string ["co"]%string ["paid"]%string [y 2001; y 2002] (Ages [12; 24])
    (arr_rows 3 [[[Some 3; Some 4]; [None; None]]; [[Some (-2); Some 4]; [Some (-5); None]]; [[Some 5; Some 10]; [None; None]]])
    (dec 2002) (Some true) false GY GY.
Example C53_example : wf exagg /\ blank_future exagg /\ reducing AMedian /\
  cel (agg_axis AMax exagg AxIndex) 0 0 0 0 = Some (qc 5) /\ cel (agg_axis AMedian exagg AxIndex) 0 0 0 0 = Some (qc 3) /\
  cel (agg_axis AMean exagg AxIndex) 0 0 0 0 = Some (qc 2) /\ cel (agg_axis AVar exagg AxIndex) 0 0 0 1 = Some (qc 8) /\
  cel (agg_axis AMin exagg AxIndex) 0 0 1 0 = Some (qc (-5)) /\ cel (agg_axis AMean exagg AxIndex) 0 0 1 1 = None.
Proof.
  split; [apply wfb_ok; vm_compute; reflexivity|]. split; [apply blank_futureb_ok; vm_compute; reflexivity|]. split; [split; discriminate|].
  repeat split; apply cell_eqb_eq; vm_compute; reflexivity.
Qed.

(** C53 fails for future cells of products: the product over the index of a triangle with
    empty future cells has 1 there. *)
Theorem C53_product_refuted : exists t, wf t /\ blank_future t /\ ~ blank_future (agg_axis AProd t AxIndex).
Proof.
  exists exagg. split; [apply wfb_ok; vm_compute; reflexivity|]. split; [apply blank_futureb_ok; vm_compute; reflexivity|].
  intros B. assert (E : cel (agg_axis AProd exagg AxIndex) 0 0 1 1 = Some (qc 1)) by (apply cell_eqb_eq; vm_compute; reflexivity).
  rewrite (B 0%nat 0%nat 1%nat 1%nat) in E; [discriminate| |vm_compute; reflexivity]. repeat split; cbn; lia.
Qed.
Print Assumptions C53_product_refuted.

(** C53 fails for zero amounts: they are stored as missing, so the maximum of 0 and -5 is -5. *)
Theorem C53_zero_maximum_refuted : exists t i o, wf t /\ blank_future t /\ (i < ax0 (values t))%nat /\ ~ future t o 0 /\
  (amount (agg_axis AMax t AxIndex) 0 0 o 0 < amount t i 0 o 0)%Qc.
Proof.
  exists exagg, 0%nat, 1%nat. split; [apply wfb_ok; vm_compute; reflexivity|]. split; [apply blank_futureb_ok; vm_compute; reflexivity|].
  split; [cbn; lia|]. split; [unfold future; vm_compute; discriminate|]. vm_compute. reflexivity.
Qed.
Print Assumptions C53_zero_maximum_refuted.

(** C53 fails for [cumsum] and [diff]: they never return a result. *)
Theorem C53_cumsum_diff_refuted : forall ax k t, aggregate ACumsum ax k t = Err TypeError /\ aggregate ADiff ax k t = Err TypeError.
Proof. intros; split; reflexivity. Qed.
Print Assumptions C53_cumsum_diff_refuted.
