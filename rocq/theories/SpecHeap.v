(** Specification of what operations may change. *)
From Verif Require Export Spec Heap.
Local Open Scope nat_scope.

(** What can be read from a triangle object: labels, dates and flags, and amounts. *)
Definition observed (h : heap) (r : nat) : option (tri * stored_arr) := option_map (content h) (get_obj h r).
Definition virtual_columns (h : heap) (r : nat) : option dict := option_map (fun o => get_dict h (o_columns o)) (get_obj h r).

(** The object a command is asked to modify: assignments to a cell or a column, attributes,
    and methods called with inplace=True. *)
Definition asked (c : cmd) : option nat :=
  match c with
  | CSetCell x _ _ | CSetColumn x _ _ | CSetVirtual x _ _ | CInPlace x _ | CRebound _ x _ => Some x
  | CSame _ _ | CCopy _ _ | CDerive _ _ _ | CBinary _ _ _ _ | CConcat _ _ _ | CRename _ _ _ => None
  end.
Definition is_sparse (h : heap) (x : nat) : bool :=
  match var x (vars h) with
  | Some r => match get_obj h r with Some o => match get_arr h (o_values o) with Sparse _ => true | Dense _ => false end | None => false end
  | None => false
  end.
(** The exceptions: renaming modifies the triangle it is called on; assigning a column modifies
    the assigned triangle if both are stored sparse. *)
Definition exception (h : heap) (c : cmd) : option nat :=
  match c with
  | CRename _ x _ => Some x
  | CSetColumn x _ z => if is_sparse h x && is_sparse h z then Some z else None
  | _ => None
  end.
Definition names (h : heap) (x : option nat) (r : nat) : Prop := match x with Some x => var x (vars h) = Some r | None => False end.
(** No command of the history is asked to modify [r], under whatever name, and none is an
    exception for it. *)
Fixpoint spares (r : nat) (h : heap) (p : list cmd) : Prop :=
  match p with [] => True | c :: p => ~ names h (asked c) r /\ ~ names h (exception h c) r /\ spares r (step h c) p end.
(** No command changes virtual columns through an object that shares the dictionary of [r]. *)
Definition edits_columns (c : cmd) : option nat := match c with CSetColumn x _ _ | CSetVirtual x _ _ => Some x | _ => None end.
Definition same_dict (h : heap) (r r' : nat) : Prop :=
  exists o o', get_obj h r = Some o /\ get_obj h r' = Some o' /\ o_columns o = o_columns o'.
Fixpoint spares_columns (r : nat) (h : heap) (p : list cmd) : Prop :=
  match p with [] => True | c :: p => (forall r', names h (edits_columns c) r' -> ~ same_dict h r r') /\ spares_columns r (step h c) p end.

(** A memory: references lead somewhere, and no two triangles have the same array. *)
Record memory (h : heap) : Prop := {
  me_arr : forall r o, get_obj h r = Some o -> o_values o < List.length (arrs h);
  me_dict : forall r o, get_obj h r = Some o -> o_columns o < List.length (dicts h);
  me_own : forall r r' o o', get_obj h r = Some o -> get_obj h r' = Some o' -> o_values o = o_values o' -> r = r';
  me_var : forall x r, var x (vars h) = Some r -> r < List.length (objs h) }.
(** The variable a command without modification binds its result to. *)
Definition fresh_result (c : cmd) : option nat :=
  match c with CCopy y _ | CDerive y _ _ | CBinary y _ _ _ | CConcat y _ _ | CRebound y _ _ => Some y | _ => None end.
(** Separately built triangles, named 0, 1, ... *)
Definition start (l : list (tri * stored_arr * dict)) : heap :=
  Heap (map (fun n => Obj (fst (fst (nth n l (Tri [] [] [] [] (Ages []) (Arr 0 0 0 0 (fun _ _ _ _ => None)) 0%Z None false GY GY, Sparse (Coo 0 0 0 0 None []), [])))) n n) (seq 0 (List.length l)))
       (map (fun e => snd (fst e)) l) (map snd l) (map (fun n => (n, n)) (seq 0 (List.length l))).
