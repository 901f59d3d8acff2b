(** Property C21: sparse and dense storage. *)
From Coq Require Import Lia.
From Verif Require Import SpecSparse P_Sparse Ex.
Import ListNotations.
Local Open Scope string_scope.
Local Open Scope nat_scope.

(** C21. Converting to coordinates and back loses nothing. *)
Theorem C21_to_sparse_and_back : forall a, 1 <= ax3 a -> sound (sp_array a) /\ holds (sp_array a) a /\ same_arr (todense (sp_array a)) a.
Proof. exact to_sparse_and_back. Qed.
Print Assumptions C21_to_sparse_and_back.
Theorem C21_to_dense_and_back : forall c, 1 <= s3 c -> holds c (todense c) /\ sound (sp_array (todense c)) /\
  s0 (sp_array (todense c)) = s0 c /\ s1 (sp_array (todense c)) = s1 c /\ s2 (sp_array (todense c)) = s2 c /\ s3 (sp_array (todense c)) = s3 c /\
  forall i v o d, i < s0 c -> v < s1 c -> o < s2 c -> d < s3 c -> coo_get (sp_array (todense c)) (i, v, o, d) = coo_get c (i, v, o, d).
Proof. exact to_dense_and_back. Qed.
Print Assumptions C21_to_dense_and_back.

(** C21. Any composition of additions, subtractions, multiplications, divisions (by arrays or
    numbers), accumulations, sums along an axis, filters, selections of ages, concatenations
    and alignments has the same outcome on both storages: the same error or the same array. *)
Theorem C21_programs : forall e env env', (forall n, sound (env n) /\ holds (env n) (env' n)) -> agree (run_sparse env e) (run_dense env' e).
Proof. exact programs_agree. Qed.
Print Assumptions C21_programs.
(** The accumulation of a triangle is that of its coordinates. *)
Theorem C21_accumulation : forall t c, wf t -> is_cumulative t <> Some true -> is_pattern t = false -> sound c -> holds c (values t) ->
  agree (sp_incr_to_cum (nan_triangle t) c) (Ok (values (incr_to_cum t))).
Proof. exact tri_incr_to_cum_ok. Qed.
Print Assumptions C21_accumulation.

(** C21. Setting a cell to an amount and assigning a column of the same shape. *)
Theorem C21_set_cell : forall i v o d q c a, sound c -> holds c a -> entries c <> [] -> i < ax0 a -> v < ax1 a -> o < ax2 a -> d < ax3 a ->
  agree (sp_set_cell (i, v, o, d) (Some q) c) (Ok (set_cell (i, v, o, d) (Some q) a)).
Proof. exact set_cell_ok. Qed.
Print Assumptions C21_set_cell.
Theorem C21_set_column : forall k c2 c a b, sound c -> holds c a -> sound c2 -> holds c2 b -> k < ax1 a -> ax0 b = ax0 a -> ax1 b = 1 -> ax2 b = ax2 a -> ax3 b = ax3 a ->
  agree (Ok (sp_set_col k c2 c)) (set_col k b a).
Proof. exact set_col_ok. Qed.
Print Assumptions C21_set_column.

(** The storages differ: *)
Definition col (l : list cell) : arr := Arr 1 1 (List.length l) 1 (fun _ _ o _ => nth o l None).
Definition row (l : list cell) : arr := Arr 1 1 1 (List.length l) (fun _ _ _ d => nth d l None).
Definition first (r : result coo) : cell := match r with Ok c => coo_get c (0, 0, 0, 0) | Err _ => None end.
Definition at0 (a : arr) : cell := av a 0 0 0 0.
(** the mean does not count amounts of zero when stored sparse, *)
Theorem C21_mean_of_zeros_refuted : exists x y c a, sp_op OMul (fun _ _ => Some 1%Qc) (sp_array x) (sp_array y) = Ok c /\ bmap2 cmul x y = Ok a /\ sound c /\ holds c a /\
  first (sp_nanmean 2 c) = Some (qc 4) /\ at0 (dense_nanmean 2 a) = Some (qc 2).
Proof.
  exists (col [Some (qc 1); Some (qc 4)]), (col [Some (qc 0); Some (qc 1)]).
  destruct (sp_array_ok (col [Some (qc 1); Some (qc 4)]) (le_n 1)) as (S1 & H1), (sp_array_ok (col [Some (qc 0); Some (qc 1)]) (le_n 1)) as (S2 & H2).
  pose proof (op_ok OMul (fun _ _ => Some 1%Qc) _ _ _ _ S1 S2 H1 H2) as A.
  eexists _, _. split; [reflexivity|]. split; [reflexivity|]. split; [apply A|]. split; [apply A|]. split; apply cell_eqb_eq; vm_compute; reflexivity.
Qed.
Print Assumptions C21_mean_of_zeros_refuted.
(** cumulative factors lose their value where a factor is missing, *)
Theorem C21_missing_factor_refuted : exists t c, wf t /\ is_pattern t = true /\ sound c /\ holds c (values t) /\
  at0 (values (incr_to_cum t)) = Some (qc 2) /\ at0 (sp_ldf_to_cdf (nan_triangle t) c) = None.
Proof.
  set (a := row [None; Some (qc 2)]).
  set (t := Tri [["a"]] ["k"] ["x"] [y 2000] (Ages [12; 24]%Z) a (dec 2001) (Some false) true GY GY).
  exists t, (sp_array a). destruct (sp_array_ok a) as (S & H); [cbn; lia|]. split; [apply wfb_ok; vm_compute; reflexivity|]. split; [reflexivity|]. split; [exact S|]. split; [exact H|]. split; apply cell_eqb_eq; vm_compute; reflexivity.
Qed.
Print Assumptions C21_missing_factor_refuted.
(** setting a stored cell to missing leaves a stored missing value that later sums do not skip, *)
Theorem C21_stored_missing_refuted : exists c a c', sound c /\ holds c a /\ sp_set_cell (0, 0, 1, 0) None c = Ok c' /\ holds c' (set_cell (0, 0, 1, 0) None a) /\
  at0 (nansum_axis 2 (set_cell (0, 0, 1, 0) None a)) = Some (qc 1) /\ coo_get (sp_nansum 2 c') (0, 0, 0, 0) = None.
Proof.
  set (a := col [Some (qc 1); Some (qc 2)]). destruct (sp_array_ok a (le_n 1)) as (S & H).
  eexists _, a, _. split; [exact S|]. split; [exact H|]. split; [reflexivity|]. split.
  - constructor; auto. cbn [set_cell ax0 ax1 ax2 ax3 a col List.length]. intros i v o d Hi Hv Ho Hd. assert (i = 0 /\ v = 0 /\ d = 0) as (-> & -> & ->) by lia. destruct o as [|[|o]]; [| |lia]; vm_compute; reflexivity.
  - split; apply cell_eqb_eq; vm_compute; reflexivity.
Qed.
Print Assumptions C21_stored_missing_refuted.
(** no cell of an empty sparse triangle can be set, *)
Theorem C21_set_cell_of_empty_refuted : exists c a, sound c /\ holds c a /\ ax0 a = 1 /\ ax1 a = 1 /\ ax2 a = 1 /\ ax3 a = 1 /\ sp_set_cell (0, 0, 0, 0) (Some 1%Qc) c = Err ValueError.
Proof. exists (sp_array (col [None])), (col [None]). destruct (sp_array_ok (col [None]) (le_n 1)) as (S & H). auto 10. Qed.
Print Assumptions C21_set_cell_of_empty_refuted.
(** a one-row value assigned to a column reaches only the first row when stored sparse, *)
Theorem C21_set_column_by_one_row_refuted : exists c a c2 b r, sound c /\ holds c a /\ sound c2 /\ holds c2 b /\ ax0 b = 1 /\ set_col 0 b a = Ok r /\ av r 1 0 0 0 = Some (qc 5) /\ coo_get (sp_set_col 0 c2 c) (1, 0, 0, 0) = None.
Proof.
  set (a := Arr 2 1 1 1 (fun i _ _ _ => Some (qc (Z.of_nat i)))). set (b := Arr 1 1 1 1 (fun _ _ _ _ => Some (qc 5))).
  destruct (sp_array_ok a (le_n 1)) as (S & H), (sp_array_ok b (le_n 1)) as (S2 & H2).
  exists (sp_array a), a, (sp_array b), b. eexists. split; auto. split; auto. split; auto. split; auto. split; auto. split; [reflexivity|]. split; reflexivity.
Qed.
Print Assumptions C21_set_column_by_one_row_refuted.
(** and an operand whose origins have gaps is rejected when stored dense but put into the wrong
    origins when stored sparse: its second row (of three) goes where the gap is. *)
Theorem C21_gaps_refuted : exists c a, sound c /\ holds c a /\ ax2 a = 2 /\ place 1 1 3 1 0 3 0 1 a = Err ValueError /\
  coo_get (sp_place 3 1 0 0 c) (0, 0, 1, 0) = av a 0 0 1 0 /\ av a 0 0 1 0 = Some (qc 2) /\ coo_get (sp_place 3 1 0 0 c) (0, 0, 2, 0) = None.
Proof.
  set (a := col [Some (qc 1); Some (qc 2)]). destruct (sp_array_ok a (le_n 1)) as (S & H). exists (sp_array a), a. repeat (split; [first [exact S|exact H|reflexivity]|]). reflexivity.
Qed.
Print Assumptions C21_gaps_refuted.

(** Cases that meet the hypotheses. *)
Example C21_env : forall n : nat, sound (sp_array (values ex3i)) /\ holds (sp_array (values ex3i)) (values ex3i).
Proof. intros _. apply sp_array_ok. cbn. lia. Qed.
Definition C21_program : expr := EOp OSub (fun o d => 3 <=? o + d) (ECum (fun o d => 3 <=? o + d) (EVar 0)) (EIncr 3 (fun o d => 2 <=? o + d) (EVar 0)).
Example C21_program_runs : match run_dense (fun _ => values ex3i) C21_program with Ok a => forallb (fun d => negb (is_nan (av a 0 0 0 d))) [1; 2] | Err _ => false end = true.
Proof. vm_compute. reflexivity. Qed.
Example C21_accumulation_holds : exists c, agree (sp_incr_to_cum (nan_triangle ex3i) c) (Ok (values (incr_to_cum ex3i))).
Proof.
  exists (sp_array (values ex3i)). destruct (C21_env 0) as (S & H). apply C21_accumulation; auto; [apply wfb_ok; vm_compute; reflexivity|discriminate].
Qed.
