(** Statements: arithmetic between triangles, comparison, concatenation. *)
From Coq Require Import Lia.
From Verif Require Import P_Arith P_Align P_Align2 P_Align3 P_Compare CatFacts ExLabel.
Local Open Scope Z_scope.

(** C12. Addition and subtraction of triangles with the same axes, cell by cell:
    missing counts as zero, the result is valued at the later date and holds
    nothing after it. *)
Theorem C12_add_sub_cells : forall op x y,
  is_addsub op -> wf x -> wf y -> same_axes x y -> blank_future x -> blank_future y ->
  exists u, tri_op op x y = Ok u /\ same_axes x u /\ vdate u = Z.max (vdate x) (vdate y) /\ blank_future u /\
    forall i c o d, in_range x i c o d -> stores (cel u i c o d) (qop op (amount x i c o d) (amount y i c o d)).
Proof.
  intros op x y H1 H2 H3 H4 H5 H6. destruct (addsub_same op x y H1 H2 H3 H4 H5 H6) as (u & E & _ & J & S & B & C).
  exists u. unfold joint in J. intuition.
Qed.
Print Assumptions C12_add_sub_cells.
Theorem C12_add_commutes : forall x y,
  wf x -> wf y -> same_axes x y -> blank_future x -> blank_future y ->
  exists u v, tri_op OAdd x y = Ok u /\ tri_op OAdd y x = Ok v /\ same_content u v.
Proof. exact add_comm. Qed.
Print Assumptions C12_add_commutes.
Theorem C12_add_associates : forall x y z,
  wf x -> wf y -> wf z -> same_axes x y -> same_axes x z -> blank_future x -> blank_future y -> blank_future z ->
  exists xy l yz r, tri_op OAdd x y = Ok xy /\ tri_op OAdd xy z = Ok l /\
                    tri_op OAdd y z = Ok yz /\ tri_op OAdd x yz = Ok r /\ same_content l r.
Proof. exact add_assoc. Qed.
Print Assumptions C12_add_associates.
Theorem C12_sub_undoes_add : forall x y,
  wf x -> wf y -> same_axes x y -> blank_future x -> blank_future y ->
  exists u v, tri_op OAdd x y = Ok u /\ tri_op OSub u y = Ok v /\ same_axes x v /\ vdate v = Z.max (vdate x) (vdate y) /\
    forall i c o d, in_range x i c o d -> stores (cel v i c o d) (amount x i c o d).
Proof. exact add_sub_cancel. Qed.
Print Assumptions C12_sub_undoes_add.
Theorem C12_sub_self_empty : forall x, wf x -> blank_future x ->
  exists u, tri_op OSub x x = Ok u /\ same_axes x u /\ forall i c o d, in_range x i c o d -> cel u i c o d = None.
Proof. exact sub_self. Qed.
Print Assumptions C12_sub_self_empty.
(** Python's [sum] of a list of triangles is their cell-wise sum. *)
Theorem C12_sum_of_list : forall t l,
  wf t -> blank_future t -> Forall (fun u => wf u /\ blank_future u /\ same_axes t u) l ->
  exists s, py_sum (t :: l) = Ok s /\ same_axes t s /\ wf s /\ blank_future s /\ vdate s = zmaxl (map vdate l) (vdate t) /\
    forall i c o d, in_range t i c o d -> amount s i c o d = qsum (map (fun u => amount u i c o d) (t :: l)).
Proof. exact py_sum_ok. Qed.
Print Assumptions C12_sum_of_list.
Example C12_hyps : wf ex3 /\ wf ex3i /\ same_axes ex3 ex3i /\ blank_future ex3 /\ blank_future ex3i /\
  Forall (fun u => wf u /\ blank_future u /\ same_axes ex3 u) [ex3i; ex3] /\
  exists u, tri_op OAdd ex3 ex3i = Ok u /\ cell_eqb (cel u 0 0 0 1) (Some (qc 200)) = true.
Proof.
  assert (S : same_axes ex3 ex3i) by (constructor; reflexivity). assert (S' : same_axes ex3 ex3) by (constructor; reflexivity).
  split; [apply ex3_wf|]. split; [apply ex3i_wf|]. split; [auto|]. split; [apply ex3_blank|]. split; [apply ex3i_blank|]. split.
  { apply Forall_forall. intros u [<-|[<-|[]]]; (split; [|split]); auto using ex3_wf, ex3i_wf, ex3_blank, ex3i_blank. }
  exists (Ex.get ex3 (tri_op OAdd ex3 ex3i)). split; [apply get_ok; vm_compute; reflexivity|vm_compute; reflexivity].
Qed.

(** C13. Different origins and ages: the result carries the labels of either
    operand, and under each label the sum (difference) of the amounts the
    operands carry under that label. *)
Theorem C13_align_by_label : forall op g h x y,
  is_addsub op -> 0 < g -> 0 < h -> wf x -> wf y -> uniq_labels x ->
  kdims y = kdims x -> key_labels y = key_labels x -> vdims y = vdims x -> ograin y = ograin x -> dgrain y = dgrain x ->
  same_kind (ddims x) (ddims y) -> alignable g (odims x) (odims y) -> alignable h (dlist (ddims x)) (dlist (ddims y)) ->
  frame_fits x y -> blank_future x -> blank_future y ->
  exists u, tri_op op x y = Ok u /\ wf u /\ blank_future u /\
    kdims u = kdims x /\ key_labels u = key_labels x /\ vdims u = vdims x /\
    (forall o, In o (odims u) <-> In o (odims x) \/ In o (odims y)) /\
    same_kind (ddims x) (ddims u) /\
    (forall a, In a (dlist (ddims u)) <-> In a (dlist (ddims x)) \/ In a (dlist (ddims y))) /\
    vdate u = Z.max (vdate x) (vdate y) /\
    forall k v o a, amount_at u k v o a = qop op (amount_at x k v o a) (amount_at y k v o a).
Proof. exact addsub_align. Qed.
Print Assumptions C13_align_by_label.
Example C13_hyps : wf ageA /\ wf ageB /\ uniq_labels ageA /\ same_kind (ddims ageA) (ddims ageB) /\
  alignable 12 (odims ageA) (odims ageB) /\ alignable 12 (dlist (ddims ageA)) (dlist (ddims ageB)) /\
  frame_fits ageA ageB /\ blank_future ageA /\ blank_future ageB /\ odims ageA <> odims ageB /\
  exists u, tri_op OAdd ageA ageB = Ok u /\ odims u = [y 2001; y 2002; y 2003] /\
    Qc_eqb (amount_at u ["Total"%string] "paid" (y 2002) 12) (qc 121) = true.
Proof.
  split; [by_wfb|]. split; [by_wfb|]. split; [by_uniqb|]. split; [exact I|]. split.
  { right. split; [exists (y 2001); reflexivity|]. split; [exists (y 2002); reflexivity|]. split; [|cbn; lia].
    intros u v Hu Hv. cbn in Hu, Hv. unfold y in *. destruct Hu as [<-|[<-|[]]], Hv as [<-|[<-|[]]];
      [exists (-1)|exists (-2)|exists 0|exists (-1)]; reflexivity. }
  split.
  { right. split; [exists 12; reflexivity|]. split; [exists 12; reflexivity|]. split; [|cbn; lia].
    intros u v Hu Hv. cbn in Hu, Hv. destruct Hu as [<-|[<-|[]]], Hv as [<-|[<-|[<-|[]]]];
      [exists 0|exists (-1)|exists (-2)|exists 1|exists 0|exists (-1)]; reflexivity. }
  split.
  { intros o a Ho Ha _. cbn in Ho, Ha. unfold y, ULT_VAL in *. lia. }
  split; [by_blankb|]. split; [by_blankb|]. split; [discriminate|].
  exists (Ex.get ageA (tri_op OAdd ageA ageB)). split; [apply get_ok; vm_compute; reflexivity|]. split; [vm_compute; reflexivity|vm_compute; reflexivity].
Qed.
(** With gaps the alignment can be by position: the amount 2002 carries is added
    to the one 2003 carries. *)
Theorem C13_gaps_refuted : exists x y u,
  wf x /\ wf y /\ blank_future x /\ blank_future y /\ kdims y = kdims x /\ vdims y = vdims x /\ ddims y = ddims x /\
  tri_op OAdd x y = Ok u /\ In 24036 (odims y) /\ ~ In 24036 (odims x) /\ ~ In 24036 (odims u) /\ ~ In 24024 (odims y) /\
  amount_at x ["Total"%string] "paid" 24024 12 = qc 1 /\ amount_at u ["Total"%string] "paid" 24024 12 = qc 11.
Proof.
  exists gapA, gapB, (Ex.get gapA (tri_op OAdd gapA gapB)).
  split; [by_wfb|]. split; [by_wfb|]. split; [by_blankb|]. split; [by_blankb|]. do 3 (split; [reflexivity|]).
  split; [apply get_ok; vm_compute; reflexivity|]. split; [vm_compute; tauto|].
  assert (E : odims (Ex.get gapA (tri_op OAdd gapA gapB)) = [24012; 24024; 24048]) by (vm_compute; reflexivity).
  rewrite E. cbn. split; [unfold y; lia|]. split; [lia|]. split; [unfold y; lia|].
  split; apply qeqb; vm_compute; reflexivity.
Qed.
Print Assumptions C13_gaps_refuted.

(** C14. Different columns, at least two on each side, the right operand having
    one the left operand lacks. *)
Theorem C14_align_by_column : forall op x y,
  is_addsub op -> wf x -> wf y -> uniq_labels x -> uniq_labels y ->
  kdims y = kdims x -> key_labels y = key_labels x -> odims y = odims x -> ddims y = ddims x -> ograin y = ograin x -> dgrain y = dgrain x ->
  (2 <= List.length (vdims x))%nat -> (2 <= List.length (vdims y))%nat -> (exists c, In c (vdims y) /\ ~ In c (vdims x)) ->
  blank_future x -> blank_future y ->
  exists u, tri_op op x y = Ok u /\ wf u /\ blank_future u /\
    kdims u = kdims x /\ key_labels u = key_labels x /\ odims u = odims x /\ ddims u = ddims x /\
    NoDup (vdims u) /\ (forall c, In c (vdims u) <-> In c (vdims x) \/ In c (vdims y)) /\
    vdate u <= Z.max (vdate x) (vdate y) /\
    (forall o d, (o < ax2 (values x))%nat -> (d < ax3 (values x))%nat -> (future u o d <-> Z.max (vdate x) (vdate y) < month_of x o d)) /\
    forall k v o a, amount_at u k v o a = qop op (amount_at x k v o a) (amount_at y k v o a).
Proof. exact addsub_columns. Qed.
Print Assumptions C14_align_by_column.
(** If the left operand already has all the columns of the right one (but not
    the same list) every operator raises. *)
Theorem C14_contained_columns_raise : forall op x y,
  ograin y = ograin x -> dgrain y = dgrain x -> (2 <= List.length (vdims x))%nat -> (2 <= List.length (vdims y))%nat ->
  vdims y <> vdims x -> (forall c, In c (vdims y) -> In c (vdims x)) -> tri_op op x y = Err UnboundLocalError.
Proof. exact columns_unbound. Qed.
Print Assumptions C14_contained_columns_raise.
Example C14_hyps : wf colsA /\ wf colsB /\ uniq_labels colsA /\ uniq_labels colsB /\ blank_future colsA /\ blank_future colsB /\
  same_kind (ddims colsA) (ddims colsB) /\ (2 <= List.length (vdims colsA))%nat /\ (2 <= List.length (vdims colsB))%nat /\
  (exists c, In c (vdims colsB) /\ ~ In c (vdims colsA)) /\
  (exists u, tri_op OAdd colsA colsB = Ok u /\ vdims u = ["paid"; "incurred"; "case"]%string /\
     Qc_eqb (amount_at u ["t"%string] "incurred" (y 2001) 24) (qc 252) = true) /\
  (vdims colsAr <> vdims colsA /\ forall c, In c (vdims colsAr) -> In c (vdims colsA)).
Proof.
  split; [by_wfb|]. split; [by_wfb|]. split; [by_uniqb|]. split; [by_uniqb|]. split; [by_blankb|]. split; [by_blankb|].
  split; [exact I|]. split; [cbn; lia|]. split; [cbn; lia|]. split.
  - exists "case"%string. cbn. split; [tauto|]. intuition discriminate.
  - split.
    + exists (Ex.get colsA (tri_op OAdd colsA colsB)). split; [apply get_ok; vm_compute; reflexivity|]. split; vm_compute; reflexivity.
    + split; [discriminate|]. cbn. tauto.
Qed.

(** C15. Different index rows, at least two on each side: the result has the
    keys of either operand and under each key the sum of the rows with that key. *)
Theorem C15_align_by_key : forall op x y,
  is_addsub op -> wf x -> wf y -> uniq_labels x -> uniq_labels y -> full_keys x -> full_keys y ->
  key_labels y = key_labels x -> vdims y = vdims x -> odims y = odims x -> ddims y = ddims x -> ograin y = ograin x -> dgrain y = dgrain x ->
  (2 <= List.length (kdims x))%nat -> (2 <= List.length (kdims y))%nat -> blank_future x -> blank_future y ->
  exists u, tri_op op x y = Ok u /\ wf u /\ blank_future u /\ NoDup (kdims u) /\
   (forall k, In k (kdims u) <-> In k (kdims x) \/ In k (kdims y)) /\
   key_labels u = key_labels x /\ vdims u = vdims x /\ odims u = odims x /\ ddims u = ddims x /\ ograin u = ograin x /\ dgrain u = dgrain x /\
   is_cumulative u = is_cumulative x /\ vdate u <= Z.max (vdate x) (vdate y) /\
   (forall o d, (o < ax2 (values x))%nat -> (d < ax3 (values x))%nat -> (future u o d <-> future x o d /\ future y o d)) /\
   forall k v o m, amount_at u k v o m = qop op (amount_at x k v o m) (amount_at y k v o m).
Proof. exact addsub_index. Qed.
Print Assumptions C15_align_by_key.
Theorem C15_unrelated_labels_raise : forall op x y,
  wf x -> wf y -> vdims y = vdims x -> odims y = odims x -> ddims y = ddims x -> ograin y = ograin x -> dgrain y = dgrain x ->
  (2 <= List.length (kdims x))%nat -> (2 <= List.length (kdims y))%nat ->
  (exists l, In l (key_labels x) /\ ~ In l (key_labels y)) -> (exists l, In l (key_labels y) /\ ~ In l (key_labels x)) ->
  tri_op op x y = Err ValueError.
Proof. exact index_labels_raise. Qed.
Print Assumptions C15_unrelated_labels_raise.
Example C15_hyps : wf rowsA /\ wf rowsB /\ uniq_labels rowsA /\ uniq_labels rowsB /\ full_keys rowsA /\ full_keys rowsB /\
  blank_future rowsA /\ blank_future rowsB /\ kdims rowsA <> kdims rowsB /\
  exists u, tri_op OAdd rowsA rowsB = Ok u /\ kdims u = [["a"]; ["b"]; ["c"]]%string /\
    Qc_eqb (amount_at u ["b"%string] "paid" (y 2001) 24) (qc 170) = true.
Proof.
  split; [by_wfb|]. split; [by_wfb|]. split; [by_uniqb|]. split; [by_uniqb|]. split; [by_fullb|]. split; [by_fullb|].
  split; [by_blankb|]. split; [by_blankb|]. split; [discriminate|].
  exists (Ex.get rowsA (tri_op OAdd rowsA rowsB)). split; [apply get_ok; vm_compute; reflexivity|]. split; vm_compute; reflexivity.
Qed.
(** Two one-row triangles with different keys are added as if the keys agreed. *)
Theorem C15_single_rows_refuted : exists x y u,
  wf x /\ wf y /\ blank_future x /\ blank_future y /\ key_labels y = key_labels x /\ kdims x = [["a"%string]] /\ kdims y = [["b"%string]] /\
  tri_op OAdd x y = Ok u /\ kdims u = kdims x /\ amount_at x ["a"%string] "paid" 24012 12 = qc 100 /\ amount_at u ["a"%string] "paid" 24012 12 = qc 200.
Proof.
  exists (set_kdims ex2 [["a"%string]]), (set_kdims ex2 [["b"%string]]), (Ex.get ex2 (tri_op OAdd (set_kdims ex2 [["a"%string]]) (set_kdims ex2 [["b"%string]]))).
  split; [by_wfb|]. split; [by_wfb|]. split; [by_blankb|]. split; [by_blankb|]. do 3 (split; [reflexivity|]).
  split; [apply get_ok; vm_compute; reflexivity|]. split; [vm_compute; reflexivity|]. split; apply qeqb; vm_compute; reflexivity.
Qed.
Print Assumptions C15_single_rows_refuted.

(** C23. Concatenation along index, origin or development: the result carries
    the operands' labels in order, and each operand's cells at the positions of
    its labels; columns missing in an operand are empty. *)
Theorem C23_concat_cells : forall ax t0 rest cols,
  ax <> AxColumn -> (forall t, In t (t0 :: rest) -> wf t) -> cols_agree cols (t0 :: rest) ->
  (forall t, In t rest -> same_other ax t0 t) -> axis_unique ax (t0 :: rest) ->
  exists u, Tri.concat (t0 :: rest) ax = Ok u /\
    kdims u = match ax with AxIndex => List.concat (map kdims (t0 :: rest)) | _ => kdims t0 end /\
    key_labels u = key_labels t0 /\ vdims u = cols /\
    odims u = match ax with AxOrigin => List.concat (map odims (t0 :: rest)) | _ => odims t0 end /\
    same_kind (ddims t0) (ddims u) /\
    dlist (ddims u) = match ax with AxDev => List.concat (map (fun t => dlist (ddims t)) (t0 :: rest)) | _ => dlist (ddims t0) end /\
    vdate u = zmaxl (map vdate rest) (vdate t0) /\
    is_cumulative u = is_cumulative t0 /\ is_pattern u = is_pattern t0 /\ ograin u = ograin t0 /\ dgrain u = dgrain t0 /\
    ax0 (values u) = List.length (kdims u) /\ ax1 (values u) = List.length (vdims u) /\
    ax2 (values u) = List.length (odims u) /\ ax3 (values u) = List.length (dlist (ddims u)) /\
    forall pre t post i c o d, t0 :: rest = pre ++ t :: post ->
      (i < ax0 (values t))%nat -> (c < List.length cols)%nat -> (o < ax2 (values t))%nat -> (d < ax3 (values t))%nat ->
      avk (axis_num ax) (values u) (offset ax pre) i c o d =
        if (c <? List.length (vdims t))%nat then cel t i c o d else None.
Proof. exact concat_gen. Qed.
Print Assumptions C23_concat_cells.
(** By label: the amount under a label is the sum of what the operands carry there. *)
Theorem C23_concat_amounts : forall ax t0 rest cols,
  ax <> AxColumn -> (forall t, In t (t0 :: rest) -> wf t) -> cols_agree cols (t0 :: rest) ->
  (forall t, In t rest -> same_other ax t0 t) -> axis_unique ax (t0 :: rest) ->
  forall u, Tri.concat (t0 :: rest) ax = Ok u -> forall k v o a,
  amount_at u k v o a = qsum (map (fun t => amount_at t k v o a) (t0 :: rest)).
Proof. exact concat_amounts. Qed.
Print Assumptions C23_concat_amounts.
Theorem C23_concat_columns : forall t0 rest,
  (forall t, In t (t0 :: rest) -> wf t) ->
  (forall t, In t rest -> kdims t = kdims t0 /\ odims t = odims t0 /\ ddims t = ddims t0) -> axis_unique AxColumn (t0 :: rest) ->
  exists u, Tri.concat (t0 :: rest) AxColumn = Ok u /\ kdims u = kdims t0 /\ vdims u = List.concat (map vdims (t0 :: rest)) /\
    odims u = odims t0 /\ ddims u = ddims t0 /\ vdate u = zmaxl (map vdate rest) (vdate t0) /\
    forall k v o a, amount_at u k v o a = qsum (map (fun t => amount_at t k v o a) (t0 :: rest)).
Proof.
  intros t0 rest H1 H2 H3. destruct (concat_column t0 rest H1 H2 H3) as (u & E & A1 & _ & A2 & A3 & A4 & A5 & _).
  exists u. repeat (split; [auto|]). exact (concat_column_amounts t0 rest H1 H2 H3 u E).
Qed.
Print Assumptions C23_concat_columns.
Theorem C23_concat_rejects : forall ax t0 rest,
  (exists t, In t rest /\ other_differs ax t0 t) \/ ~ axis_unique ax (t0 :: rest) ->
  Tri.concat (t0 :: rest) ax = Err AssertionError.
Proof. exact concat_raises. Qed.
Print Assumptions C23_concat_rejects.
Definition rowsC : tri := set_kdims rowsB [["c"]; ["d"]]%string.
Example C23_hyps : (forall t, In t [rowsA; rowsC] -> wf t) /\ cols_agree ["paid"%string] [rowsA; rowsC] /\
  (forall t, In t [rowsC] -> same_other AxIndex rowsA t) /\ axis_unique AxIndex [rowsA; rowsC] /\ ~ axis_unique AxIndex [rowsA; rowsB].
Proof.
  split; [intros t [<-|[<-|[]]]; by_wfb|]. split.
  { split; [repeat constructor; intros []|]. split.
    - intros t [<-|[<-|[]]]; exists []; reflexivity.
    - intros c [<-|[]]. exists rowsA. cbn. tauto. }
  split; [intros t [<-|[]]; unfold same_other; cbn; split; [congruence|auto]|]. split.
  - apply nodup_keysb_NoDup. vm_compute. reflexivity.
  - intros H. apply nodup_keysb_NoDup in H. vm_compute in H. discriminate.
Qed.
(** When the operands list the same columns in different orders, amounts move
    to another column without an error. *)
Theorem C23_column_order_refuted : exists x y u,
  wf x /\ wf y /\ odims y = odims x /\ ddims y = ddims x /\ axis_unique AxIndex [x; y] /\
  (forall c, In c (vdims x) <-> In c (vdims y)) /\ Tri.concat [x; y] AxIndex = Ok u /\
  amount_at y ["u"%string] "paid" 24012 12 = qc 4 /\ amount_at u ["u"%string] "paid" 24012 12 = qc 1.
Proof.
  exists colsA, colsAr, (Ex.get colsA (Tri.concat [colsA; colsAr] AxIndex)).
  split; [by_wfb|]. split; [by_wfb|]. do 2 (split; [reflexivity|]). split; [apply nodup_keysb_NoDup; vm_compute; reflexivity|].
  split; [cbn; tauto|]. split; [apply get_ok; vm_compute; reflexivity|]. split; apply qeqb; vm_compute; reflexivity.
Qed.
Print Assumptions C23_column_order_refuted.

(** C24. [==] compares amounts (missing counts as zero) and nothing else. *)
Theorem C24_eq_compares_amounts : forall x y, same_shape x y ->
  exists b, tri_eq x y = Ok b /\ (b = true <-> forall i c o d, in_range x i c o d -> amount x i c o d = amount y i c o d).
Proof. exact tri_eq_iff. Qed.
Print Assumptions C24_eq_compares_amounts.
Theorem C24_eq_equivalence :
  (forall x, tri_eq x x = Ok true) /\
  (forall x y, same_shape x y -> tri_eq x y = tri_eq y x) /\
  (forall x y z, same_shape x y -> same_shape y z -> tri_eq x y = Ok true -> tri_eq y z = Ok true -> tri_eq x z = Ok true).
Proof. exact (conj tri_eq_refl (conj tri_eq_sym tri_eq_trans)). Qed.
Print Assumptions C24_eq_equivalence.
(** [<] compares amounts strictly, cell by cell. *)
Theorem C24_lt_cells : forall t b, same_shape_arr t b ->
  exists u, lt_arr t b = Ok u /\ same_frame t u /\
    forall i c o d, in_range t i c o d ->
      (cel u i c o d = Some 1%Qc <-> (amount t i c o d < nz (av b i c o d))%Qc) /\ (cel u i c o d = Some 1%Qc \/ cel u i c o d = Some 0%Qc).
Proof. exact lt_cells. Qed.
Print Assumptions C24_lt_cells.
(** [<=] is not reflexive: compared with its own amounts a triangle is "not
    less or equal" in every cell. *)
Theorem C24_le_refuted : forall t,
  exists u, le_arr t (values t) = Ok u /\ same_frame t u /\ forall i c o d, in_range t i c o d -> cel u i c o d = Some 0%Qc.
Proof. exact le_self_false. Qed.
Print Assumptions C24_le_refuted.
Example C24_hyps : same_shape ex3 ex3i /\ tri_eq ex3 ex3i = Ok false /\ same_shape ex2 (set_odims ex2 [5; 6]) /\ tri_eq ex2 (set_odims ex2 [5; 6]) = Ok true.
Proof. split; [unfold same_shape; auto|]. split; [vm_compute; reflexivity|]. split; [unfold same_shape; auto|vm_compute; reflexivity]. Qed.
