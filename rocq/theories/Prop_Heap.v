(** Properties C22 and C48: what operations change. *)
From Coq Require Import Lia.
From Verif Require Import SpecHeap P_Heap Ex.
Import ListNotations.
Local Open Scope string_scope.
Local Open Scope nat_scope.

(** C22. After any history of copies, conversions, arithmetic, slices, concatenations and
    in-place changes, under any naming, a triangle that no command was asked to modify (and
    that was not renamed, nor assigned sparse to a sparse triangle) has the same labels,
    dates, flags and amounts. *)
Theorem C22_amounts : forall h p r, memory h -> r < List.length (objs h) -> spares r h p -> observed (run h p) r = observed h r.
Proof. exact run_observed. Qed.
Print Assumptions C22_amounts.
(** C22. Separately built triangles form a memory, and every history keeps it one. *)
Theorem C22_memory : forall l p, memory (run (start l) p).
Proof. intros l p. apply run_memory, start_memory. Qed.
Print Assumptions C22_memory.
(** C22. Results of operations are new objects: with the above, changing a result later does not change an operand. *)
Theorem C22_results_are_new : forall h c y, memory h -> fresh_result c = Some y ->
  var y (vars (step h c)) = var y (vars h) \/ exists n, var y (vars (step h c)) = Some n /\ List.length (objs h) <= n.
Proof. exact result_fresh. Qed.
Print Assumptions C22_results_are_new.
(** C22. A copy holds what the triangle holds. *)
Theorem C22_copy : forall h y x r, memory h -> var x (vars h) = Some r ->
  exists n, var y (vars (step h (CCopy y x))) = Some n /\ List.length (objs h) <= n /\ observed (step h (CCopy y x)) n = observed h r /\ virtual_columns (step h (CCopy y x)) n = virtual_columns h r.
Proof. exact copy_content. Qed.
Print Assumptions C22_copy.
(** C22. A triangle without virtual columns, not sharing their dictionary, stays without; in
    general virtual columns change only through a triangle sharing the dictionary. *)
Theorem C22_no_virtual_columns : forall h p r, memory h -> r < List.length (objs h) -> spares r h p -> virtual_columns h r = Some [] -> (forall r', r' <> r -> ~ same_dict h r r') ->
  virtual_columns (run h p) r = Some [] /\ forall r', r' <> r -> ~ same_dict (run h p) r r'.
Proof. exact run_no_columns. Qed.
Print Assumptions C22_no_virtual_columns.
Theorem C22_virtual_columns : forall h p r, memory h -> r < List.length (objs h) -> spares r h p -> spares_columns r h p -> virtual_columns (run h p) r = virtual_columns h r.
Proof. exact run_columns. Qed.
Print Assumptions C22_virtual_columns.

(** A history that derives, adds, changes its results in place and spares the first triangle. *)
Definition one : heap := start [(ex3, Dense (values ex3), [])].
Definition busy : list cmd :=
  [CDerive 1 0 (converted (fun t => cum_to_incr t)); CInPlace 1 (converted (fun t => Ok (incr_to_cum t))); CCopy 2 0; CSetCell 2 (0, 0, 0, 0) (Some 0%Qc);
   CBinary 3 0 2 (fun x y => match snd x, snd y with Dense a, Dense b => do r <- bmap2 cadd a b; Ok (fst x, Dense r) | _, _ => Err OtherError end);
   CSetVirtual 3 "loss ratio" 7; CRename 2 2 (fun t => t); CSame 0 3; CSetCell 0 (0, 0, 0, 1) (Some (qc 5))].
Fixpoint sparesb (r : nat) (h : heap) (p : list cmd) : bool :=
  match p with
  | [] => true
  | c :: p =>
    let other x := match x with Some x => match var x (vars h) with Some r' => negb (r' =? r) | None => true end | None => true end in
    other (asked c) && other (exception h c) && sparesb r (step h c) p
  end.
Lemma sparesb_ok r h p : sparesb r h p = true -> spares r h p.
Proof.
  revert h. induction p as [|c p IH]; intros h H; cbn in *; auto. apply andb_prop in H as (H & H3). apply andb_prop in H as (H1 & H2).
  assert (K : forall x, (match x with Some x => match var x (vars h) with Some r' => negb (r' =? r) | None => true end | None => true end) = true -> ~ names h x r).
  { intros [x|] E N; [|exact N]. cbn in N. rewrite N, Nat.eqb_refl in E. discriminate. }
  split; [apply K, H1|]. split; [apply K, H2|auto].
Qed.
Example busy_spares : memory one /\ 0 < List.length (objs one) /\ spares 0 one busy /\ virtual_columns one 0 = Some [] /\ (forall r', r' <> 0 -> ~ same_dict one 0 r').
Proof.
  split; [apply start_memory|]. split; [cbn; lia|]. split; [apply sparesb_ok; vm_compute; reflexivity|]. split; [reflexivity|].
  intros [|r'] D (o & o' & _ & E & _); [auto|]. destruct r'; discriminate E.
Qed.
(** Violations.  Renaming a result's labels by [y = x.rename(...)] renames x. *)
Definition amount_at (h : heap) (r : nat) (p : pos) : cell :=
  match observed h r with Some (_, Sparse c) => coo_get c p | Some (_, Dense a) => let '(i, v, o, d) := p in av a i v o d | None => None end.
Example busy_changes : var 0 (vars (run one busy)) = Some 3 /\ amount_at (run one busy) 3 (0, 0, 0, 0) = Some (qc 100) /\ amount_at (run one busy) 3 (0, 0, 0, 1) = Some (qc 5).
Proof. split; [vm_compute; reflexivity|]. split; apply cell_eqb_eq; vm_compute; reflexivity. Qed.
Definition columns_of (h : heap) (r : nat) : list string := match observed h r with Some (f, _) => vdims f | None => [] end.
Definition relabel (l : list string) (t : tri) : tri := set_dims t (kdims t) l (odims t) (ddims t).
Theorem C22_rename_refuted : exists h, memory h /\ columns_of h 0 = ["paid"] /\ columns_of (run h [CRename 1 0 (relabel ["incurred"])]) 0 = ["incurred"].
Proof. exists one. split; [apply start_memory|]. split; reflexivity. Qed.
Print Assumptions C22_rename_refuted.
(** A virtual column added to a copy appears in the original, and a column assigned to the
    copy takes the virtual column of that name away from the original. *)
Definition with_virtual : heap := start [(ex3, Dense (values ex3), [("loss ratio", 1)])].
Theorem C22_virtual_column_of_copy_refuted : exists h, memory h /\ virtual_columns h 0 = Some [("loss ratio", 1)] /\
  virtual_columns (run h [CCopy 1 0; CSetVirtual 1 "severity" 2]) 0 = Some [("loss ratio", 1); ("severity", 2)] /\
  virtual_columns (run h [CCopy 1 0; CSetColumn 1 "loss ratio" 0]) 0 = Some [].
Proof. exists with_virtual. split; [apply start_memory|]. split; [reflexivity|]. split; vm_compute; reflexivity. Qed.
Print Assumptions C22_virtual_column_of_copy_refuted.
(** Assigning a sparse triangle to a column of another moves the amounts of the assigned triangle. *)
Definition ex_two : tri := Tri [["Total"]] ["Total"] ["paid"; "incurred"] [y 2001] (Ages [12]%Z) (Arr 1 2 1 1 (fun _ v _ _ => Some (qc (Z.of_nat (1 + v))))) (dec 2001) (Some true) false GY GY.
Definition ex_one : tri := Tri [["Total"]] ["Total"] ["case"] [y 2001] (Ages [12]%Z) (Arr 1 1 1 1 (fun _ _ _ _ => Some (qc 9))) (dec 2001) (Some true) false GY GY.
Definition two : heap := start [(ex_two, Sparse (sp_array (values ex_two)), []); (ex_one, Sparse (sp_array (values ex_one)), [])].
Theorem C22_assigned_sparse_column_refuted : exists h, memory h /\ amount_at h 1 (0, 0, 0, 0) = Some (qc 9) /\
  amount_at (run h [CSetColumn 0 "incurred" 1]) 1 (0, 0, 0, 0) = None /\ amount_at (run h [CSetColumn 0 "incurred" 1]) 0 (0, 1, 0, 0) = Some (qc 9).
Proof. exists two. split; [apply start_memory|]. split; [apply cell_eqb_eq; vm_compute; reflexivity|]. split; apply cell_eqb_eq; vm_compute; reflexivity. Qed.
Print Assumptions C22_assigned_sparse_column_refuted.
(** [+x], [0 + x], [1 * x] and [sum([x])] are x itself: changing the result changes x. *)
Theorem C22_same_object_refuted : exists h, memory h /\ amount_at h 0 (0, 0, 0, 0) = Some (qc 100) /\
  amount_at (run h [CSame 1 0; CSetCell 1 (0, 0, 0, 0) (Some (qc 7))]) 0 (0, 0, 0, 0) = Some (qc 7).
Proof. exists one. split; [apply start_memory|]. split; apply cell_eqb_eq; vm_compute; reflexivity. Qed.
Print Assumptions C22_same_object_refuted.

(** C48. An operation performed in place leaves its result in the triangle, and every other triangle as it was. *)
Theorem C48_in_place : forall h x f r t a, memory h -> var x (vars h) = Some r -> (forall fa, observed h r = Some fa -> f fa = Ok (t, a)) ->
  observed (step h (CInPlace x f)) r = Some (t, a) /\ forall r', r' < List.length (objs h) -> r' <> r -> observed (step h (CInPlace x f)) r' = observed h r'.
Proof.
  intros h x f r t a M V F. split; [apply inplace_content; auto|]. intros r' L D. apply (run_observed h [CInPlace x f] r' M L). cbn. rewrite V. split; [congruence|]. split; auto.
Qed.
Print Assumptions C48_in_place.
Example in_place_met : exists t a, (forall fa, observed (start [(ex3i, Dense (values ex3i), [])]) 0 = Some fa -> converted (fun t => Ok (incr_to_cum t)) fa = Ok (t, Dense a)) /\ is_cumulative t = Some true /\ av a 0 0 0 2 = Some (qc 175).
Proof. eexists _, _. split; [intros fa [= <-]; reflexivity|]. split; [reflexivity|apply cell_eqb_eq; vm_compute; reflexivity]. Qed.
(** Violated by [cum_to_incr(inplace=True)]: whatever it computes, a triangle of amounts is left as it was; *)
Theorem C48_cum_to_incr_no_effect : forall h y x f r fr a, memory h -> var x (vars h) = Some r -> observed h r = Some (fr, a) -> is_pattern fr = false ->
  observed (step h (CRebound y x f)) r = Some (fr, a).
Proof.
  intros h y x f r fr a M V O P. rewrite <- O. unfold observed in O. destruct (get_obj h r) as [o|] eqn:E; [|discriminate]. cbn in O. injection O as <- <-.
  apply keeps_observed; [apply (rebound_same h y x f r o); auto|]. apply (get_obj_lt _ _ _ E).
Qed.
Print Assumptions C48_cum_to_incr_no_effect.
Definition result_cumulative (r : result (tri * stored_arr)) : option bool := match r with Ok (t, _) => is_cumulative t | Err _ => None end.
Theorem C48_cum_to_incr_refuted : exists h, memory h /\ observed h 0 = Some (ex3, Dense (values ex3)) /\ result_cumulative (converted cum_to_incr (ex3, Dense (values ex3))) = Some false /\
  observed (step h (CRebound 1 0 (converted cum_to_incr))) 0 = Some (ex3, Dense (values ex3)) /\ is_cumulative ex3 = Some true.
Proof.
  exists one. split; [apply start_memory|]. split; [reflexivity|]. split; [vm_compute; reflexivity|]. split; [|reflexivity].
  apply C48_cum_to_incr_no_effect; auto. apply start_memory.
Qed.
Print Assumptions C48_cum_to_incr_refuted.
(** a pattern keeps its labels and flags, and its missing factors and zeros become 1. *)
Definition expat0 : tri := Tri [["Total"]] ["Total"] ["paid"] [y 2001] (Ages [12; 24]%Z) (Arr 1 1 1 2 (fun _ _ _ d => if d =? 0 then Some (qc 2) else None)) (dec 2002) (Some true) true GY GY.
Theorem C48_pattern_refuted : exists h, memory h /\ amount_at h 0 (0, 0, 0, 1) = None /\
  amount_at (step h (CRebound 1 0 (converted cum_to_incr))) 0 (0, 0, 0, 1) = Some 1%Qc /\ columns_of (step h (CRebound 1 0 (converted cum_to_incr))) 0 = columns_of h 0.
Proof. exists (start [(expat0, Dense (values expat0), [])]). split; [apply start_memory|]. split; [reflexivity|]. split; [apply cell_eqb_eq; vm_compute; reflexivity|vm_compute; reflexivity]. Qed.
Print Assumptions C48_pattern_refuted.
