(** Selection by label, boolean filters and column assignment (core/slice.py).
    Definitions only. *)
From Verif Require Export Arith Loc.
From Verif Require Import Pandas.
Local Open Scope Z_scope.

(** A label indexer of one axis: [:], one label, a list of labels, a range of labels
    [a:b], or a boolean array. *)
Inductive lkey (A : Type) := LAll | LOne (x : A) | LList (l : list A) | LRange (a b : option A) | LMask (m : list bool).
Arguments LAll {A}. Arguments LOne {A} x. Arguments LList {A} l. Arguments LRange {A} a b. Arguments LMask {A} m.

(** numpy's [np.where(m)[0]]. *)
Definition where_true (m : list bool) : list nat := filter (fun p => nth p m false) (seq 0 (List.length m)).

Section Axis.
Context {A : Type} (eqb ltb : A -> A -> bool).
(** Positions that carry the label [x]. *)
Definition at_label (l : list A) (x : A) : list nat :=
  filter (fun p => match nth_error l p with Some z => eqb z x | None => false end) (seq 0 (List.length l)).
Fixpoint increasing (l : list A) : bool :=
  match l with x :: ((z :: _) as r) => ltb x z && increasing r | _ => true end.
Definition below (l : list A) (x : A) : nat := List.length (filter (fun z => ltb z x) l).
(** pandas label slices include both ends.  A bound that is no label is placed by order
    if the labels are in increasing order, and raises KeyError otherwise.  Labels are taken
    to be distinct. *)
Definition left_end (l : list A) (a : option A) : result nat :=
  match a with
  | None => Ok 0%nat
  | Some x => match at_label l x with
              | p :: _ => Ok p
              | [] => if increasing l then Ok (below l x) else Err KeyError end
  end.
Definition right_end (l : list A) (b : option A) : result nat :=
  match b with
  | None => Ok (List.length l)
  | Some x => match at_label l x with
              | p :: _ => Ok (S p)
              | [] => if increasing l then Ok (below l x) else Err KeyError end
  end.
(** core/slice.py 146-157 [other_key], followed by 35-56 [_contig_slice].  A label that
    occurs more than once is not modelled. *)
Definition other_key (l : list A) (k : lkey A) : result slicer :=
  match k with
  | LMask m => contig_slice (map Z.of_nat (where_true m))
  | LAll => Ok all_slice
  | LRange a b => do lo <- left_end l a; do hi <- right_end l b; contig_slice (map Z.of_nat (seq lo (hi - lo)))
  | LList xs => do ps <- mapm (fun x => match at_label l x with [] => Err KeyError | ps => Ok ps end) xs;
                contig_slice (map Z.of_nat (List.concat ps))
  | LOne x => match at_label l x with
              | [] => Err KeyError
              | [p] => contig_slice [Z.of_nat p]
              | _ => Err OtherError end
  end.
End Axis.

(** Indexers of the index: [:], a value of the first key label, a tuple of leading key
    values, a list of whole keys, or a boolean series. *)
Inductive ikey := IAll | IFirst (x : string) | ILead (xs : list string) | IKeys (l : list (list string)) | IMask (m : list bool).
Fixpoint leads (xs k : list string) : bool :=
  match xs, k with
  | [], _ => true
  | x :: xs, z :: k => String.eqb x z && leads xs k
  | _, [] => false
  end.
(** core/slice.py 131-144 [index_key].  Ranges of keys and lists of incomplete keys are
    not modelled. *)
Definition index_key (t : tri) (k : ikey) : result (list nat) :=
  let n := List.length (kdims t) in
  match k with
  | IAll => Ok (seq 0 n)
  | IFirst x => Ok (filter (fun i => String.eqb (hd EmptyString (row_key t i)) x) (seq 0 n))
  | ILead xs => match filter (fun i => leads xs (row_key t i)) (seq 0 n) with [] => Err KeyError | l => Ok l end
  | IKeys ks => do ps <- mapm (fun k => match rows_with t k with [] => Err KeyError | l => Ok l end) ks; Ok (List.concat ps)
  | IMask m => Ok (where_true m)
  end.
Definition str_ltb (a b : string) : bool := match String.compare a b with Lt => true | _ => false end.
(** core/slice.py 156-167: origins and ages by their numeric labels.  The labels of a
    pattern's ages ('12-24') and of a valuation axis ('2003') are text: on those axes, and on
    the single '(All)' origin of a pattern, only [:] and boolean arrays are modelled. *)
Definition origin_key (t : tri) (k : lkey Z) : result slicer :=
  match k with
  | LAll | LMask _ => other_key Z.eqb Z.ltb (odims t) k
  | _ => if is_pattern t && (List.length (odims t) =? 1)%nat then Err NotImplementedError
         else other_key Z.eqb Z.ltb (odims t) k
  end.
Definition dev_key (t : tri) (k : lkey Z) : result slicer :=
  match k, ddims t with
  | LAll, d | LMask _, d => other_key Z.eqb Z.ltb (dlist d) k
  | _, Ages l => if is_pattern t then Err NotImplementedError else other_key Z.eqb Z.ltb l k
  | _, Vals _ => Err NotImplementedError
  end.

(** core/slice.py 108-109: the first key label is dropped if more than one row is left and
    they all share it. *)
Definition shared_first (ks : list (list string)) : bool :=
  match ks with
  | k :: (_ :: _) as r => forallb (fun k' => String.eqb (hd EmptyString k') (hd EmptyString k)) r
  | _ => false
  end.
Definition drop_first (t : tri) : tri :=
  if shared_first (kdims t) then set_keys t (map (@tl string) (kdims t)) (tl (key_labels t)) else t.
(** core/slice.py 106-110 [loc[ki, kc, ko, kd]]. *)
Definition loc (t : tri) (ki : ikey) (kc : lkey string) (ko kd : lkey Z) : result tri :=
  do ps <- index_key t ki;
  do s1 <- other_key String.eqb str_ltb (vdims t) kc;
  do s2 <- origin_key t ko;
  do s3 <- dev_key t kd;
  do s0 <- contig_slice (map Z.of_nat ps);
  do u <- get_idx t s0 s1 s2 s3;
  Ok (drop_first u).

(** * [t[key]] (core/slice.py 183-202) *)

Inductive got := GotTri (t : tri) | GotIndex (l : list string).
Fixpoint pos_of (c : string) (l : list string) : nat :=
  match l with [] => 0%nat | x :: r => if String.eqb c x then 0%nat else S (pos_of c r) end.
(** core/slice.py 193-202: a key label first, then a column (virtual columns are not
    modelled). *)
Definition getitem_name (t : tri) (name : string) : result got :=
  if mem_str name (key_labels t) then Ok (GotIndex (map (fun k => nth (pos_of name (key_labels t)) k EmptyString) (kdims t)))
  else do u <- getitem_cols t [name]; Ok (GotTri u).
(** core/slice.py 191-192: a boolean series over the index; its length must be right. *)
Definition getitem_index (t : tri) (m : list bool) : result tri :=
  if negb (List.length m =? List.length (kdims t))%nat then Err IndexError
  else iloc_rows t (where_true m).
(** core/slice.py 187-190: a numpy array is a valuation filter (in column order) if it has
    one entry per cell and there is more than one age, and an origin filter otherwise. *)
Definition getitem_array (t : tri) (m : list bool) : result tri :=
  let no := ax2 (values t) in
  if ((List.length m =? no * ax3 (values t)) && (1 <? ax3 (values t)))%nat
  then slice_valuation t (fun o d => nth (d * no + o)%nat m false)
  else if negb (List.length m =? no)%nat then Err IndexError
  else slice_origin t (fun o => nth o m false).
(** core/slice.py 185-186: a series named 'development'. *)
Definition getitem_dev (t : tri) (m : list bool) : result tri :=
  if negb (List.length m =? ax3 (values t))%nat then Err IndexError
  else slice_dev t (fun d => nth d m false).

(** * [t[name] = value] (core/slice.py 204-243), dense backend, no virtual columns *)

Inductive newval := VTri (v : tri) | VNum (q : Qc).
(** numpy's [a[:, i:i+1] = b]: b must broadcast to the slice. *)
Definition put_column (a : arr) (i : nat) (b : arr) : result arr :=
  if fits (ax0 b) (ax0 a) && fits (ax1 b) 1 && fits (ax2 b) (ax2 a) && fits (ax3 b) (ax3 a)
  then Ok (Arr (ax0 a) (ax1 a) (ax2 a) (ax3 a) (fun k c o d =>
         if (c =? i)%nat then av b (bidx (ax0 b) k) 0%nat (bidx (ax2 b) o) (bidx (ax3 b) d) else av a k c o d))
  else Err ValueError.
(** core/slice.py 238-243: the value next to the columns if the shapes allow it; otherwise
    the value added to zero times the first column. *)
Definition side_by_side (t : tri) (v : newval) : result arr :=
  let again :=
    do f <- iloc t (KSlice None None None) (KInt 0) (KSlice None None None) (KSlice None None None);
    do z <- mul_arr f (scalar_arr 0%Qc);
    do s <- match v with VTri v => tri_op OAdd z v | VNum q => add_arr z (scalar_arr q) end;
    if cat_ok 1 (values t) (values s) then Ok (cat2 1 (values t) (values s)) else Err ValueError in
  match v with
  | VTri v => if cat_ok 1 (values t) (values v) then Ok (cat2 1 (values t) (values v)) else again
  | VNum _ => again
  end.
(** The triangle after the statement, and the exception it raised. *)
Definition setitem (t : tri) (name : string) (v : newval) : tri * option exn :=
  if mem_str name (vdims t) then
    match put_column (values t) (pos_of name (vdims t)) (match v with VTri v => values v | VNum q => scalar_arr q end) with
    | Ok a => (set_values t a, None)
    | Err e => (t, Some e)
    end
  else
    let t1 := set_vdims t (vdims t ++ [name]) in
    match side_by_side t1 v with
    | Ok a => (set_values t1 a, None)
    | Err e => (t1, Some e)
    end.
