(** Specification of selection by label and of column assignment. *)
From Verif Require Export SpecLabel SpecLoc Select.
Local Open Scope Z_scope.

(** [ps] lists, in increasing order, the positions [p] with [P p]. *)
Definition positions_where (P : nat -> Prop) (ps : list nat) : Prop := StronglySorted lt ps /\ forall p, In p ps <-> P p.

(** The positions of an axis with labels [l] a label indexer asks for; [range a b p] says when
    a position belongs to the range [a:b]. *)
Definition labels_ask {A} (range : option A -> option A -> nat -> Prop) (l : list A) (k : lkey A) (ps : list nat) : Prop :=
  match k with
  | LAll => ps = seq 0 (List.length l)
  | LOne x => exists p, ps = [p] /\ nth_error l p = Some x
  | LList xs => Forall2 (fun x p => nth_error l p = Some x) xs ps
  | LRange a b => positions_where (range a b) ps
  | LMask m => List.length m = List.length l /\ positions_where (fun p => nth_error m p = Some true) ps
  end.
(** Dates and ages: every label from [a] to [b], both included. *)
Definition dates_from_to (l : list Z) (a b : option Z) (p : nat) : Prop :=
  exists x, nth_error l p = Some x /\ match a with Some z => z <= x | None => True end /\ match b with Some z => x <= z | None => True end.
(** Names: every position from that of [a] to that of [b], both included. *)
Definition names_from_to (l : list string) (a b : option string) (p : nat) : Prop :=
  (p < List.length l)%nat /\
  match a with Some x => exists q, nth_error l q = Some x /\ (q <= p)%nat | None => True end /\
  match b with Some x => exists q, nth_error l q = Some x /\ (p <= q)%nat | None => True end.
Definition are_labels (l : list string) (k : lkey string) : Prop :=
  match k with
  | LRange a b => (forall x, a = Some x -> In x l) /\ (forall x, b = Some x -> In x l)
  | _ => True
  end.
(** Dates and ages can be named unless the axis shows text instead. *)
Definition by_position {A} (k : lkey A) : Prop := match k with LAll | LMask _ => True | _ => False end.
Definition origins_named (t : tri) : Prop := is_pattern t = false \/ (2 <= ax2 (values t))%nat.
Definition ages_named (t : tri) : Prop := is_pattern t = false /\ match ddims t with Ages _ => True | Vals _ => False end.

Definition index_asks (ks : list (list string)) (k : ikey) (ps : list nat) : Prop :=
  match k with
  | IAll => ps = seq 0 (List.length ks)
  | IFirst x => positions_where (fun p => exists r, nth_error ks p = Some (x :: r)) ps
  | ILead xs => positions_where (fun p => exists r, nth_error ks p = Some (xs ++ r)) ps
  | IKeys l => Forall2 (fun k p => nth_error ks p = Some k) l ps
  | IMask m => List.length m = List.length ks /\ positions_where (fun p => nth_error m p = Some true) ps
  end.

(** More than one row, all with the same value of the first key label. *)
Definition first_shared (ks : list (list string)) : Prop :=
  (2 <= List.length ks)%nat /\ exists x, forall k, In k ks -> hd_error k = Some x.
(** [u] is [w], except that a first key label shared by all of several rows is dropped. *)
Record without_shared_label (w u : tri) : Prop := {
  ws_yes : first_shared (kdims w) -> kdims u = map (@tl string) (kdims w) /\ key_labels u = tl (key_labels w);
  ws_no : ~ first_shared (kdims w) -> kdims u = kdims w /\ key_labels u = key_labels w;
  ws_rest : u = set_keys w (kdims u) (key_labels u) }.
Definition named_rows (t : tri) : Prop := forall k, In k (kdims t) -> k <> [].

(** All positions of an axis. *)
Definition every (n : nat) : list nat := seq 0 n.

(** A filter of cells as an array, age by age (the order of [t.valuation]). *)
Definition age_by_age (t : tri) (key : nat -> nat -> bool) : list bool := flat_map (fun d => map (fun o => key o d) (seq 0 (ax2 (values t)))) (seq 0 (ax3 (values t))).

(** * Assignment of a column *)

(** The column called [name] of [u] holds what [f] says; every other column, every label,
    date and flag is as in [t]. *)
Record column_set (t u : tri) (name : string) (f : nat -> nat -> nat -> cell) : Prop := {
  cs_frame : kdims u = kdims t /\ key_labels u = key_labels t /\ odims u = odims t /\ ddims u = ddims t /\
    vdate u = vdate t /\ is_cumulative u = is_cumulative t /\ is_pattern u = is_pattern t /\ ograin u = ograin t /\ dgrain u = dgrain t;
  cs_names : vdims u = if in_dec string_dec name (vdims t) then vdims t else vdims t ++ [name];
  cs_dims : ax0 (values u) = ax0 (values t) /\ ax1 (values u) = List.length (vdims u) /\ ax2 (values u) = ax2 (values t) /\ ax3 (values u) = ax3 (values t);
  cs_cells : forall i c o d, (i < ax0 (values u))%nat -> (o < ax2 (values u))%nat -> (d < ax3 (values u))%nat ->
    (nth_error (vdims u) c = Some name -> cel u i c o d = f i o d) /\
    (forall m, nth_error (vdims u) c = Some m -> m <> name -> cel u i c o d = cel t i c o d) }.
(** One column, same rows, origins and ages. *)
Definition same_rows_one_column (t v : tri) : Prop :=
  kdims v = kdims t /\ odims v = odims t /\ ddims v = ddims t /\ List.length (vdims v) = 1%nat.
