(** Objects, arrays and dictionaries in memory: which operations of the library write into
    what they were given.  Definitions only.

    A triangle object refers to its array of amounts and to the dictionary of its virtual
    columns.  Labels, dates and flags are attributes: the library replaces them and never
    writes into them, so they are kept in the object.  What an operation computes is a
    parameter where it does not matter for memory. *)
From Verif Require Export Sparse.
Local Open Scope nat_scope.

Inductive stored_arr := Dense (a : arr) | Sparse (c : coo).
Definition shape1 (s : stored_arr) : nat := match s with Dense a => ax1 a | Sparse c => s1 c end.
(** [frame] holds every attribute except the amounts; its field [values] is not used. *)
Record obj := Obj { frame : tri; o_values : nat; o_columns : nat }.
(** Virtual columns: column name and function (its number). *)
Definition dict := list (string * nat).
Record heap := Heap { objs : list obj; arrs : list stored_arr; dicts : list dict; vars : list (nat * nat) }.

Definition get_obj (h : heap) (r : nat) : option obj := nth_error (objs h) r.
Definition get_arr (h : heap) (a : nat) : stored_arr := nth a (arrs h) (Dense (Arr 0 0 0 0 (fun _ _ _ _ => None))).
Definition get_dict (h : heap) (d : nat) : dict := nth d (dicts h) [].
Fixpoint replace {A} (n : nat) (x : A) (l : list A) : list A :=
  match l, n with [] , _ => [] | _ :: r, 0 => x :: r | y :: r, S n => y :: replace n x r end.
Fixpoint var (x : nat) (l : list (nat * nat)) : option nat := match l with [] => None | (y, r) :: l => if y =? x then Some r else var x l end.

Definition new_obj (h : heap) (o : obj) : heap * nat := (Heap (objs h ++ [o]) (arrs h) (dicts h) (vars h), List.length (objs h)).
Definition new_arr (h : heap) (a : stored_arr) : heap * nat := (Heap (objs h) (arrs h ++ [a]) (dicts h) (vars h), List.length (arrs h)).
Definition new_dict (h : heap) (d : dict) : heap * nat := (Heap (objs h) (arrs h) (dicts h ++ [d]) (vars h), List.length (dicts h)).
Definition put_obj (h : heap) (r : nat) (o : obj) : heap := Heap (replace r o (objs h)) (arrs h) (dicts h) (vars h).
Definition put_arr (h : heap) (r : nat) (a : stored_arr) : heap := Heap (objs h) (replace r a (arrs h)) (dicts h) (vars h).
Definition put_dict (h : heap) (r : nat) (d : dict) : heap := Heap (objs h) (arrs h) (replace r d (dicts h)) (vars h).
Definition bind_var (h : heap) (x r : nat) : heap := Heap (objs h) (arrs h) (dicts h) ((x, r) :: vars h).

(** slice.py 266-270 [_set_slicers], 329-332: the dictionary is kept unless it is empty. *)
Definition slicers (h : heap) (d : nat) : heap * nat := match get_dict h d with [] => new_dict h [] | _ => (h, d) end.
(** triangle.py 837-842. *)
Definition copy (h : heap) (o : obj) : heap * nat :=
  let '(h, d) := slicers h (o_columns o) in
  let '(h, a) := new_arr h (get_arr h (o_values o)) in
  new_obj h (Obj (frame o) a d).
(** [obj.values = ...; obj.vdims = ...]: attributes of one object are replaced. *)
Definition assign (h : heap) (r : nat) (f : tri) (a : stored_arr) : heap :=
  match get_obj h r with
  | None => h
  | Some o => let '(h, n) := new_arr h a in put_obj h r (Obj f n (o_columns o))
  end.

Definition content (h : heap) (o : obj) : tri * stored_arr := (frame o, get_arr h (o_values o)).

Inductive cmd :=
(* y = x; also y = +x, y = 0 + x, y = 1 * x, y = sum([x]) (dunders.py 254, 278, 303): the same object *)
| CSame (y x : nat)
(* y = x.copy() *)
| CCopy (y x : nat)
(* y = x.iloc[...], x.loc[...], x[...], -x, abs(x), round(x), x.incr_to_cum(), x.trend(...), x.sum(...),
   x.fillna(v), x.set_index(v), x.set_backend(b), x.drop(...), x.shift(...), ...:
   a copy whose attributes are replaced (slice.py 15-33, 245-264, triangle.py 427-518, pandas.py 163-209, 350-382) *)
| CDerive (y x : nat) (f : tri * stored_arr -> result (tri * stored_arr))
(* y = x + z and the other operators: both operands are copied by set_common_backend (utility_functions.py 266-271),
   the copies' attributes are replaced (dunders.py 20-46, 138-209, 242-343) *)
| CBinary (y x z : nat) (f : tri * stored_arr -> tri * stored_arr -> result (tri * stored_arr))
(* y = concat(...) : deep copies (utility_functions.py 274-351) *)
| CConcat (y : nat) (xs : list nat) (f : list (tri * stored_arr) -> result (tri * stored_arr))
(* x.iat[p] = v, x.at[...] = v, x.iloc[...] = v (slice.py 58-100, 270-327) *)
| CSetCell (x : nat) (p : pos) (v : cell)
(* x[name] = z (slice.py 204-243) *)
| CSetColumn (x : nat) (name : string) (z : nat)
(* x[name] = function (slice.py 207-215) *)
| CSetVirtual (x : nat) (name : string) (fn : nat)
(* x.incr_to_cum(inplace=True), x.fillna(v, inplace=True), x.set_index(v, inplace=True), x.set_backend(b, inplace=True),
   x.valuation_date = d, x.columns = l, ... *)
| CInPlace (x : nat) (f : tri * stored_arr -> result (tri * stored_arr))
(* y = x.rename(axis, labels) (pandas.py 273-299): the labels of x itself *)
| CRename (y x : nat) (f : tri -> tri)
(* y = x.cum_to_incr(inplace=True) (triangle.py 494-515): [self] is rebound to a new object, x keeps its own; for a
   pattern, the amounts of x first become numbers and its zeros 1 (498-500).  x.grain(g, inplace=True) (753-755),
   x.dev_to_val(inplace=True) and x.val_to_dev(inplace=True) (528-637) also return a new object: they are [CDerive]. *)
| CRebound (y x : nat) (f : tri * stored_arr -> result (tri * stored_arr)).

Definition pop (name : string) (d : dict) : dict := filter (fun e => negb (fst e =? name)%string) d.
Definition set_key (name : string) (fn : nat) (d : dict) : dict := pop name d ++ [(name, fn)].

(** slice.py 233-243 for dense arrays: an existing column is written in place, a new one makes a
    new array.  Simplified: a new column whose shape differs is rejected instead of aligned. *)
Definition cat_col (a b : arr) : result arr := if cat_ok 1 a b then Ok (cat2 1 a b) else Err ValueError.
Definition col_pos (t : tri) (name : string) : option nat := match find_str name (vdims t) with Ok k => Some k | Err _ => None end.
Definition add_vdim (t : tri) (name : string) : tri := set_dims t (kdims t) (vdims t ++ [name]) (odims t) (ddims t).
Definition set_column (h : heap) (rx : nat) (name : string) (rz : nat) : heap :=
  match get_obj h rx, get_obj h rz with
  | Some ox, Some oz =>
    let h := put_dict h (o_columns ox) (pop name (get_dict h (o_columns ox))) in
    match get_arr h (o_values ox), get_arr h (o_values oz) with
    | Dense a, vz =>
      let b := match vz with Dense b => b | Sparse c => todense c end in
      match col_pos (frame ox) name with
      | Some k => match set_col k b a with Ok r => put_arr h (o_values ox) (Dense r) | Err _ => h end
      | None => match cat_col a b with Ok r => assign h rx (add_vdim (frame ox) name) (Dense r) | Err _ => h end
      end
    | Sparse a, vz =>
      match col_pos (frame ox) name with
      | Some k =>
        match vz with
        | Dense b => assign h rx (frame ox) (Sparse (sp_set_col k (sp_array b) a))
        | Sparse c =>
          (* 226: the coordinates of the operand itself are overwritten *)
          let h := put_arr h (o_values oz) (Sparse (with_entries c (fill c) (map (fun e => let '(i, v, o, d) := fst e in ((i, k, o, d), snd e)) (entries c)))) in
          assign h rx (frame ox) (Sparse (sp_set_col k c a))
        end
      | None =>
        let c := match vz with Dense b => sp_array b | Sparse c => c end in
        match cat_col (todense a) (todense c) with Ok r => assign h rx (add_vdim (frame ox) name) (Sparse (sp_array r)) | Err _ => h end
      end
    end
  | _, _ => h
  end.
Definition set_virtual (h : heap) (rx : nat) (name : string) (fn : nat) : heap :=
  match get_obj h rx with
  | None => h
  | Some ox =>
    let h := put_dict h (o_columns ox) (set_key name fn (get_dict h (o_columns ox))) in
    match get_arr h (o_values ox), col_pos (frame ox) name with
    | Dense a, Some k => put_arr h (o_values ox) (Dense (Arr (ax0 a) (ax1 a) (ax2 a) (ax3 a) (fun i c o d => if c =? k then None else av a i c o d)))
    | Dense a, None => assign h rx (add_vdim (frame ox) name) (Dense (Arr (ax0 a) (ax1 a + 1) (ax2 a) (ax3 a) (fun i c o d => if c <? ax1 a then av a i c o d else None)))
    | Sparse _, Some _ => h
    | Sparse c, None => put_arr (put_obj h rx (Obj (add_vdim (frame ox) name) (o_values ox) (o_columns ox))) (o_values ox) (Sparse (Coo (s0 c) (s1 c + 1) (s2 c) (s3 c) (fill c) (entries c)))
    end
  end.
Definition set_one (h : heap) (rx : nat) (p : pos) (v : cell) : heap :=
  match get_obj h rx with
  | None => h
  | Some ox =>
    match get_arr h (o_values ox) with
    | Dense a => put_arr h (o_values ox) (Dense (set_cell p v a))
    | Sparse c => match sp_set_cell p v c with Ok c' => put_arr h (o_values ox) (Sparse c') | Err _ => h end
    end
  end.
(** A copy of [o] with replaced attributes; nothing if the operation raises. *)
Definition derived (h : heap) (y : nat) (o : obj) (r : result (tri * stored_arr)) : heap :=
  match r with
  | Err _ => h
  | Ok (f, a) => let '(h, n) := copy h o in bind_var (assign h n f a) y n
  end.
Fixpoint all_some {A} (l : list (option A)) : option (list A) :=
  match l with [] => Some [] | Some x :: r => option_map (cons x) (all_some r) | None :: _ => None end.

Definition step (h : heap) (c : cmd) : heap :=
  let of x := match var x (vars h) with Some r => option_map (fun o => (r, o)) (get_obj h r) | None => None end in
  match c with
  | CSame y x => match of x with Some (r, _) => bind_var h y r | None => h end
  | CCopy y x => match of x with Some (_, o) => let '(h, n) := copy h o in bind_var h y n | None => h end
  | CDerive y x f => match of x with Some (_, o) => derived h y o (f (content h o)) | None => h end
  | CBinary y x z f =>
    match of x, of z with
    | Some (_, ox), Some (_, oz) =>
      let r := f (content h ox) (content h oz) in
      let '(h, n) := copy h ox in let '(h, _) := copy h oz in
      match r with Ok (t, a) => bind_var (assign h n t a) y n | Err _ => h end
    | _, _ => h
    end
  | CConcat y xs f =>
    match all_some (map of xs) with
    | Some ((r, o) :: l) =>
      match f (map (fun e => content h (snd e)) ((r, o) :: l)) with
      | Ok (t, a) => let '(h, d) := new_dict h (get_dict h (o_columns o)) in let '(h, n) := new_arr h a in let '(h, m) := new_obj h (Obj t n d) in bind_var h y m
      | Err _ => h
      end
    | _ => h
    end
  | CSetCell x p v => match of x with Some (r, _) => set_one h r p v | None => h end
  | CSetColumn x name z => match of x, of z with Some (r, _), Some (r', _) => set_column h r name r' | _, _ => h end
  | CSetVirtual x name fn => match of x with Some (r, _) => set_virtual h r name fn | None => h end
  | CInPlace x f => match of x with Some (r, o) => match f (content h o) with Ok (t, a) => assign h r t a | Err _ => h end | None => h end
  | CRename y x f => match of x with Some (r, o) =>
      let '(h, d) := slicers h (o_columns o) in bind_var (put_obj h r (Obj (f (frame o)) (o_values o) d)) y r | None => h end
  | CRebound y x f =>
    match of x with
    | Some (r, o) =>
      let res := f (content h o) in
      let h := if is_pattern (frame o) then
                 match get_arr h (o_values o) with Dense a => assign h r (frame o) (Dense (map_arr (fun x => n2v 1%Qc (Some (nz x))) a)) | Sparse c => assign h r (frame o) (Sparse (sp_num_to_value (sp_nan_to_num c) (Some 1%Qc))) end
               else h in
      match get_obj h r with Some o => derived h y o res | None => h end
    | None => h
    end
  end.
Definition run (h : heap) (p : list cmd) : heap := fold_left step p h.
(** A conversion of triangles as a function of what an object holds; the storage stays. *)
Definition converted (g : tri -> result tri) (fa : tri * stored_arr) : result (tri * stored_arr) :=
  match snd fa with
  | Dense a => do t <- g (set_values (fst fa) a); Ok (t, Dense (values t))
  | Sparse c => do t <- g (set_values (fst fa) (todense c)); Ok (t, Sparse (sp_array (values t)))
  end.
