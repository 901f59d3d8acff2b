(** Specification of positional indexing. *)
From Verif Require Export Spec Loc.
Local Open Scope Z_scope.

(** The position an integer stands for on an axis of length n: Python counts
    negative integers from the end. *)
Definition stands_for (n : nat) (z : Z) (p : nat) : Prop :=
  (p < n)%nat /\ (z = Z.of_nat p \/ z = Z.of_nat p - Z.of_nat n).
(** The positions an indexer asks for, in order.  For a slice these are
    the range given by [slice.indices(n)], Python's own meaning of it. *)
Definition asks_for (k : pkey) (n : nat) (ps : list nat) : Prop :=
  match k with
  | KInt z => exists p, ps = [p] /\ stands_for n z p
  | KList l => Forall2 (stands_for n) l ps
  | KSlice a b s => slice_positions a b s n = Ok ps
  end.
Definition progression (ps : list nat) : Prop :=
  exists a s, s <> 0 /\ forall k, (k < List.length ps)%nat -> Z.of_nat (nth k ps 0%nat) = a + s * Z.of_nat k.
(** Indexers that mean what Python says:
    - a list of at least two positions does not repeat a single position,
    - a slice over a whole axis has step 1, and a slice with a negative step does
      not start at position 0. *)
Definition plain_key (k : pkey) (n : nat) (ps : list nat) : Prop :=
  ps <> [] /\
  match k with
  | KInt _ => True
  | KList _ => List.length ps = 1%nat \/ exists i, (i < List.length ps)%nat /\ nth i ps 0%nat <> nth 0 ps 0%nat
  | KSlice a b s =>
    let st := match s with Some x => x | None => 1 end in
    st = 1 \/
    (0 < st /\ exists lo hi, slice_triple a b s n = Ok (lo, hi, st) /\ ~ (lo = 0 /\ hi = Z.of_nat n)) \/
    (st < 0 /\ nth 0 ps 0%nat <> 0%nat)
  end.
(** [u] holds the cells of [t] at the given positions, in the given order. *)
Record taken (t u : tri) (p0 p1 p2 p3 : list nat) : Prop := {
  tk_0 : ax0 (values u) = List.length p0; tk_1 : ax1 (values u) = List.length p1;
  tk_2 : ax2 (values u) = List.length p2; tk_3 : ax3 (values u) = List.length p3;
  tk_cell : forall i c o d, (i < List.length p0)%nat -> (c < List.length p1)%nat -> (o < List.length p2)%nat -> (d < List.length p3)%nat ->
    cel u i c o d = cel t (nth i p0 0%nat) (nth c p1 0%nat) (nth o p2 0%nat) (nth d p3 0%nat);
  tk_k : kdims u = map (fun p => nth p (kdims t) []) p0;
  tk_v : vdims u = map (fun p => nth p (vdims t) EmptyString) p1;
  tk_o : odims u = map (fun p => nth p (odims t) 0) p2;
  tk_d : match ddims t, ddims u with
         | Ages a, Ages b | Vals a, Vals b => b = map (fun p => nth p a 0) p3
         | _, _ => False end;
  tk_kl : key_labels u = key_labels t; tk_cum : is_cumulative u = is_cumulative t; tk_pat : is_pattern u = is_pattern t;
  tk_og : ograin u = ograin t; tk_dg : dgrain u = dgrain t }.
(** The valuation date becomes the latest valuation that is left, if that is earlier. *)
Definition latest_left (t u : tri) (p2 p3 : list nat) : Prop :=
  (vdate u = vdate t \/ exists o d, In o p2 /\ In d p3 /\ vdate u = month_of t o d) /\
  vdate u <= vdate t /\
  forall o d, In o p2 -> In d p3 -> month_of t o d <= vdate t -> month_of t o d <= vdate u.
(** Lists of origins or ages must be evenly spaced. *)
Definition even_key (k : pkey) (ps : list nat) : Prop :=
  match k with KList _ => progression ps | _ => True end.
Definition no_ultimate (t : tri) : Prop :=
  match ddims t with Ages l => ~ In 9999 l | Vals _ => True end.
