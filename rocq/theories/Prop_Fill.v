(** C67: filling gaps, dropping columns, first and last rows, minimum and maximum. *)
From Coq Require Import Lia.
From Verif Require Import ExLabel P_Fill P_Select2 SpecFill.
Local Open Scope nat_scope.

(** C67. [fillna] with a number: the empty cells that can hold data get the number, the others keep their amounts, nothing is written
    after the valuation date, and the labels stay. *)
Theorem C67_fill : forall t v, wf t -> 1 <= ax0 (values t) -> 1 <= ax1 (values t) -> exists u, fillna_num t v = Ok u /\ filled t u (fun _ _ _ _ => v).
Proof. intros. apply fill_num; auto. Qed.
Print Assumptions C67_fill.

(** C67. With a triangle that lies over it: each gap gets the amount that lies over it. *)
Theorem C67_fill_triangle : forall t v, wf t -> 1 <= ax0 (values t) -> 1 <= ax1 (values t) -> lies_over t v ->
  exists u, fillna_tri t v = Ok u /\ filled t u (amount_over v).
Proof. exact fill_tri. Qed.
Print Assumptions C67_fill_triangle.

(** C67. Filling a second time changes nothing. *)
Theorem C67_fill_again : forall t v u q, wf t -> 1 <= ax0 (values t) -> 1 <= ax1 (values t) -> v <> 0%Qc -> fillna_num t v = Ok u ->
  exists w, fillna_num u q = Ok w /\ w = set_values u (values w) /\ forall i c o d, in_range t i c o d -> cel w i c o d = cel u i c o d.
Proof.
  intros t v u q W H0 H1 V E. destruct (fill_num t W H0 H1 v) as (u' & E' & F). assert (u' = u) by congruence. subst u'.
  assert (L : like t u). { pose proof (fi_frame _ _ _ F) as X. constructor; try (rewrite X; reflexivity); apply F. }
  assert (Wu : wf u) by apply (lo_wf _ _ (self_over t W H0 H1 u L)).
  destruct (fill_num u Wu) with (v := q) as (w & Ew & G); [rewrite (lk_0 _ _ L); auto|rewrite (lk_1 _ _ L); auto|].
  exists w. split; [exact Ew|]. apply (filled_again t u w _ _ F ltac:(auto) G).
Qed.
Print Assumptions C67_fill_again.

(** C67. [drop]: the other columns stay, in their order with their amounts; labels that are no columns are ignored. *)
Theorem C67_drop : forall t labels, wf t -> NoDup (vdims t) -> 1 <= ax0 (values t) -> (exists c, In c (vdims t) /\ ~ In c labels) ->
  exists u, drop t labels (inl 1%Z) = Ok u /\ taken t u (every (ax0 (values t))) (staying t labels) (every (ax2 (values t))) (every (ax3 (values t))) /\
    (no_ultimate t -> latest_left t u (every (ax2 (values t))) (every (ax3 (values t)))).
Proof. exact drop_ok. Qed.
Print Assumptions C67_drop.
(** C67. Dropping every column, or along another axis, is refused. *)
Theorem C67_drop_refused : (forall t labels, (forall c, In c (vdims t) -> In c labels) -> drop t labels (inl 1%Z) = Err ValueError) /\
  (forall t labels ax, ax <> inl 1%Z -> drop t labels ax = Err NotImplementedError).
Proof.
  split; [exact drop_every|]. intros t labels [z|s] H; [|reflexivity]. destruct (Z.eq_dec z 1) as [->|N]; [congruence|].
  unfold drop. destruct z as [|[|[]|]|]; try reflexivity. congruence.
Qed.
Print Assumptions C67_drop_refused.

(** C67. [head] and [tail] have the first and the last rows. *)
Theorem C67_head : forall t n, wf t -> 1 <= ax1 (values t) -> head_rows (ax0 (values t)) n <> [] ->
  exists u, head t n = Ok u /\ taken t u (head_rows (ax0 (values t)) n) (every (ax1 (values t))) (every (ax2 (values t))) (every (ax3 (values t))) /\
    (no_ultimate t -> latest_left t u (every (ax2 (values t))) (every (ax3 (values t)))).
Proof. exact head_ok. Qed.
Print Assumptions C67_head.
Theorem C67_tail : forall t n, wf t -> 1 <= ax1 (values t) -> n <> 0%Z -> tail_rows (ax0 (values t)) n <> [] ->
  exists u, tail t n = Ok u /\ taken t u (tail_rows (ax0 (values t)) n) (every (ax1 (values t))) (every (ax2 (values t))) (every (ax3 (values t))) /\
    (no_ultimate t -> latest_left t u (every (ax2 (values t))) (every (ax3 (values t)))).
Proof. exact tail_rows_ok. Qed.
Print Assumptions C67_tail.

(** C67. [minimum] and [maximum] of triangles with the same labels: cell by cell, empty where either is. *)
Theorem C67_minimum : forall t u, twins t u -> exists w, minimum t u = Ok w /\ w = set_values t (values w) /\ forall i c o d, in_range t i c o d ->
  (cel t i c o d = None \/ cel u i c o d = None -> cel w i c o d = None) /\
  (forall a b, cel t i c o d = Some a -> cel u i c o d = Some b -> exists x, cel w i c o d = Some x /\ is_min x a b).
Proof.
  intros t u T. unfold minimum, minimum_arr. destruct (pairwise_ok cell_min t u T) as (v & E & _ & _ & _ & _ & C). rewrite E. cbn [rbind].
  eexists. split; [reflexivity|]. split; [reflexivity|]. intros i c o d H. change (cel (set_values t v) i c o d) with (av v i c o d). rewrite (C _ _ _ _ H). split.
  - intros [-> | ->]; [|destruct (cel t i c o d)]; reflexivity.
  - intros a b -> ->. apply cell_min_ok.
Qed.
Print Assumptions C67_minimum.
Theorem C67_maximum : forall t u, twins t u -> exists w, maximum t u = Ok w /\ w = set_values t (values w) /\ forall i c o d, in_range t i c o d ->
  (cel t i c o d = None \/ cel u i c o d = None -> cel w i c o d = None) /\
  (forall a b, cel t i c o d = Some a -> cel u i c o d = Some b -> exists x, cel w i c o d = Some x /\ is_max x a b).
Proof.
  intros t u T. unfold maximum, maximum_arr. destruct (pairwise_ok cell_max t u T) as (v & E & _ & _ & _ & _ & C). rewrite E. cbn [rbind].
  eexists. split; [reflexivity|]. split; [reflexivity|]. intros i c o d H. change (cel (set_values t v) i c o d) with (av v i c o d). rewrite (C _ _ _ _ H). split.
  - intros [-> | ->]; [|destruct (cel t i c o d)]; reflexivity.
  - intros a b -> ->. apply cell_max_ok.
Qed.
Print Assumptions C67_maximum.
(** C67. With a number: amounts are capped or floored, empty cells stay empty. *)
Theorem C67_cap_and_floor : forall t q, wf t -> 1 <= ax0 (values t) -> 1 <= ax1 (values t) ->
  exists w z, minimum_arr t (scalar_arr q) = Ok w /\ maximum_arr t (scalar_arr q) = Ok z /\ w = set_values t (values w) /\ z = set_values t (values z) /\
  forall i c o d, in_range t i c o d ->
    (cel t i c o d = None -> cel w i c o d = None /\ cel z i c o d = None) /\
    (forall a, cel t i c o d = Some a -> exists x y, cel w i c o d = Some x /\ is_min x a q /\ cel z i c o d = Some y /\ is_max y a q).
Proof.
  intros t q W H0 H1. unfold minimum_arr, maximum_arr. destruct (number_ok cell_min t q W H0 H1) as (v & E & _ & _ & _ & _ & C).
  destruct (number_ok cell_max t q W H0 H1) as (v' & E' & _ & _ & _ & _ & C'). rewrite E, E'. cbn [rbind].
  do 2 eexists. do 2 (split; [reflexivity|]). do 2 (split; [reflexivity|]). intros i c o d H.
  change (cel (set_values t v) i c o d) with (av v i c o d). change (cel (set_values t v') i c o d) with (av v' i c o d). rewrite (C _ _ _ _ H), (C' _ _ _ _ H). split.
  - intros ->. auto.
  - intros a ->. destruct (cell_min_ok a q) as (x & A & B). destruct (cell_max_ok a q) as (x' & A' & B'). exists x, x'. auto.
Qed.
Print Assumptions C67_cap_and_floor.

(** C67. Absolute values, a number less a triangle, and powers. *)
Theorem C67_absolute : forall t i c o d, abs_tri t = set_values t (values (abs_tri t)) /\
  (cel t i c o d = None -> cel (abs_tri t) i c o d = None) /\
  (forall a, cel t i c o d = Some a -> exists x, cel (abs_tri t) i c o d = Some x /\ is_max x a (- a)).
Proof.
  intros t i c o d. split; [reflexivity|]. change (cel (abs_tri t) i c o d) with (cell_abs (cel t i c o d)). split; [intros ->; reflexivity|].
  intros a ->. cbn [cell_abs]. eexists. split; [reflexivity|]. unfold is_max. destruct (NumFacts.Qc_ltb_spec a 0%Qc) as [L|L].
  - split; [auto|]. split; [|apply Qcle_refl]. apply Qclt_le_weak in L. apply (Qcle_trans _ 0); auto. replace 0%Qc with (- 0)%Qc by ring. apply Qcopp_le_compat. exact L.
  - apply Qcnot_lt_le in L. split; [auto|]. split; [apply Qcle_refl|]. apply (Qcle_trans _ 0); auto. replace 0%Qc with (- 0)%Qc by ring. apply Qcopp_le_compat. exact L.
Qed.
Print Assumptions C67_absolute.
Theorem C67_number_less : forall q t, wf t -> 1 <= ax0 (values t) -> 1 <= ax1 (values t) -> exists u, rsub_num q t = Ok u /\ u = set_values t (values u) /\
  forall i c o d, in_range t i c o d -> (fillable t o d -> stores (cel u i c o d) (q - amount t i c o d)%Qc) /\ (~ fillable t o d -> cel u i c o d = None).
Proof. exact rsub_ok. Qed.
Print Assumptions C67_number_less.
Theorem C67_power : forall t k i c o d, pow_num t k = set_values t (values (pow_num t k)) /\ amount (pow_num t k) i c o d = Qcpower (amount t i c o d) k /\
  (1 <= k -> amount t i c o d = 0%Qc -> amount (pow_num t k) i c o d = 0%Qc).
Proof.
  intros t k i c o d. split; [reflexivity|]. change (amount (pow_num t k) i c o d) with (Qcpower (amount t i c o d) k). split; [reflexivity|].
  intros K ->. destruct k as [|k]; [lia|]. cbn [Qcpower]. ring.
Qed.
Print Assumptions C67_power.

(** Two lines, an empty known cell in the first line, one open cell in each. *)
Definition gaps : tri := tri4 [["b"]; ["a"]]%string ["lob"]%string ["paid"; "case"]%string [y 2001; y 2002]%Z (Ages [12; 24]%Z) (dec 2002)
  [[[[Some 100%Z; None]; [Some 120%Z; None]]; [[Some 3%Z; Some 2%Z]; [Some 5%Z; None]]]; [[[Some 7%Z; Some 8%Z]; [Some (-9)%Z; None]]; [[Some 1%Z; Some 2%Z]; [Some 4%Z; None]]]].
(** One row for each line, valued at the same date. *)
Definition over_gaps : tri := tri4 [["b"]; ["a"]]%string ["lob"]%string ["paid"]%string [y 2001]%Z (Ages [12; 24]%Z) (dec 2002)
  [[[[Some 1%Z; Some 2%Z]]]; [[[Some 3%Z; Some 4%Z]]]].
Example C67_hyps : wf gaps /\ NoDup (vdims gaps) /\ fillable gaps 0 1 /\ ~ fillable gaps 1 1 /\ amount gaps 0 0 0 1 = 0%Qc /\ lies_over gaps over_gaps /\ amount_over over_gaps 0 1 0 1 = qc 2 /\
  staying gaps ["paid"; "x"]%string = [1] /\ head_rows 2 1 = [0] /\ tail_rows 2 1 = [1] /\ tail_rows 2 5 = [0; 1] /\ head_rows 2 (-1) = [0] /\ twins gaps gaps.
Proof.
  split; [by_wfb|]. split; [apply nodup_strb_NoDup; vm_compute; reflexivity|]. split; [right; right; unfold future; vm_compute; discriminate|].
  split; [unfold fillable, future; cbn [gaps tri4 values arr4 ax2 ax3 hd List.length]; intros [A|[A|A]]; [discriminate|discriminate|]; apply A; vm_compute; reflexivity|].
  split; [reflexivity|]. split; [|repeat split].
  constructor; [by_wfb|cbn; lia|cbn; lia|reflexivity|left; reflexivity|right; reflexivity|right; reflexivity|left; reflexivity|reflexivity|reflexivity|apply Z.le_refl].
Qed.

(** C67 (boundary). One origin: its cells after the valuation date are filled too. *)
Definition one_line : tri := tri_of [[Some 5; Some 6; None]]%Z [y 2001] (Ages [12; 24; 36]%Z) (dec 2002) (Some true) false.
Theorem C67_one_origin_refuted : exists t u, wf t /\ blank_future t /\ fillna_num t (qc 1) = Ok u /\ future t 0 2 /\ cel u 0 0 0 2 = Some (qc 1).
Proof.
  exists one_line, (Ex.get one_line (fillna_num one_line (qc 1))). split; [by_wfb|]. split; [by_blankb|]. split; [apply get_ok; vm_compute; reflexivity|].
  split; [vm_compute; reflexivity|apply cell_eqb_eq; vm_compute; reflexivity].
Qed.
Print Assumptions C67_one_origin_refuted.
(** C67 (boundary). Filling from a triangle valued later fills cells after the valuation date. *)
Definition later : tri := tri_of [[Some 1; Some 2]; [Some 3; Some 4]]%Z [y 2001; y 2002] (Ages [12; 24]%Z) (dec 2003) (Some true) false.
Theorem C67_later_refuted : exists t v u, wf t /\ wf v /\ blank_future t /\ odims v = odims t /\ ddims v = ddims t /\ fillna_tri t v = Ok u /\ vdate u = vdate t /\
  future u 1 1 /\ cel u 0 0 1 1 = Some (qc 4).
Proof.
  exists ex2, later, (Ex.get ex2 (fillna_tri ex2 later)). split; [by_wfb|]. split; [by_wfb|]. split; [by_blankb|]. split; [reflexivity|]. split; [reflexivity|].
  split; [apply get_ok; vm_compute; reflexivity|]. split; [vm_compute; reflexivity|]. split; [vm_compute; reflexivity|apply cell_eqb_eq; vm_compute; reflexivity].
Qed.
Print Assumptions C67_later_refuted.
(** C67 (boundary). Filling from a triangle with more index rows: the result has more rows of cells than index rows. *)
Definition one_row : tri := tri4 [["b"]]%string ["lob"]%string ["paid"]%string [y 2001; y 2002]%Z (Ages [12; 24]%Z) (dec 2002) [[[[Some 100%Z; None]; [Some 120%Z; None]]]].
Theorem C67_more_rows_refuted : exists t v u, wf t /\ wf v /\ fillna_tri t v = Ok u /\ List.length (kdims u) = 1 /\ ax0 (values u) = 2.
Proof.
  exists one_row, rowsA, (Ex.get one_row (fillna_tri one_row rowsA)). split; [by_wfb|]. split; [by_wfb|]. split; [apply get_ok; vm_compute; reflexivity|].
  split; vm_compute; reflexivity.
Qed.
Print Assumptions C67_more_rows_refuted.
(** C67 (boundary). The documented axis name 'columns' is refused. *)
Theorem C67_axis_name_refuted : exists t labels, wf t /\ (exists c, In c (vdims t) /\ ~ In c labels) /\ drop t labels (inr "columns"%string) = Err NotImplementedError.
Proof.
  exists gaps, ["paid"%string]. split; [by_wfb|]. split; [|reflexivity]. exists "case"%string. split; [right; left; reflexivity|]. intros [E|[]]. discriminate.
Qed.
Print Assumptions C67_axis_name_refuted.
(** C67 (boundary). [tail(0)] has all rows. *)
Theorem C67_tail_zero_refuted : forall t, wf t -> 1 <= ax0 (values t) -> 1 <= ax1 (values t) -> tail_rows (ax0 (values t)) 0 = [] /\
  exists u, tail t 0 = Ok u /\ taken t u (every (ax0 (values t))) (every (ax1 (values t))) (every (ax2 (values t))) (every (ax3 (values t))).
Proof. intros t W H0 H1. split; [|apply tail_zero; auto]. unfold tail_rows. cbn [Z.ltb Z.compare Z.to_nat Nat.min]. reflexivity. Qed.
Print Assumptions C67_tail_zero_refuted.
(** C67 (boundary). Unlike the operators, [minimum] pairs rows by position: the rows of the same line are not compared. *)
Theorem C67_by_position_refuted : exists t v u, wf t /\ wf v /\ (forall k, In k (kdims t) <-> In k (kdims v)) /\ minimum t v = Ok u /\
  amount_at t ["b"]%string "paid" (y 2001) 12 = qc 100 /\ amount_at v ["b"]%string "paid" (y 2001) 12 = qc 100 /\ amount_at u ["b"]%string "paid" (y 2001) 12 = qc 7.
Proof.
  set (v := tri4 [["a"]; ["b"]]%string ["lob"]%string ["paid"]%string [y 2001; y 2002]%Z (Ages [12; 24]%Z) (dec 2002)
    [[[[Some 7%Z; Some 8%Z]; [Some 9%Z; None]]]; [[[Some 100%Z; Some 150%Z]; [Some 120%Z; None]]]]).
  exists rowsA, v, (Ex.get rowsA (minimum rowsA v)). split; [by_wfb|]. split; [by_wfb|]. split; [cbn; tauto|]. split; [apply get_ok; vm_compute; reflexivity|].
  repeat split; apply qeqb; vm_compute; reflexivity.
Qed.
Print Assumptions C67_by_position_refuted.
(** C67 (boundary). An amount of 0 is an empty cell, which [maximum] does not raise. *)
Theorem C67_floor_refuted : exists t w, wf t /\ maximum_arr t (scalar_arr (qc 1)) = Ok w /\ ~ future t 0 1 /\ amount t 0 0 0 1 = 0%Qc /\ amount w 0 0 0 1 = 0%Qc.
Proof.
  exists gaps, (Ex.get gaps (maximum_arr gaps (scalar_arr (qc 1)))). split; [by_wfb|]. split; [apply get_ok; vm_compute; reflexivity|].
  split; [unfold future; vm_compute; discriminate|]. split; [reflexivity|apply qeqb; vm_compute; reflexivity].
Qed.
Print Assumptions C67_floor_refuted.
(** C67 (boundary). The power 0 puts 1 in cells after the valuation date. *)
Theorem C67_power_zero_refuted : exists t, wf t /\ blank_future t /\ future t 1 1 /\ cel (pow_num t 0) 0 0 1 1 = Some 1%Qc.
Proof. exists ex2. split; [by_wfb|]. split; [by_blankb|]. split; [vm_compute; reflexivity|reflexivity]. Qed.
Print Assumptions C67_power_zero_refuted.
