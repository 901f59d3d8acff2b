(** Aggregating a triangle along an axis.  Definitions only. *)
From Verif Require Export Pandas.
Local Open Scope nat_scope.

(** The methods core/pandas.py 488-496 adds to triangles.  [std] and [quantile] are not
    modelled. *)
Inductive agg := ASum | AMean | AMedian | AMax | AMin | AProd | AVar | ACumsum | ADiff.

(** The numbers among some cells; numpy's [nan...] functions see only these. *)
Definition present (l : list cell) : list Qc := flat_map (fun x => match x with Some q => [q] | None => [] end) l.
Definition qmax (a b : Qc) : Qc := if Qc_leb a b then b else a.
Definition qmin (a b : Qc) : Qc := if Qc_leb a b then a else b.
Definition qlen (l : list Qc) : Qc := qc (Z.of_nat (List.length l)).
(** numpy [nanmean]: missing if there is no number. *)
Definition mean_of (l : list Qc) : cell := match l with [] => None | _ => Some (qsum l / qlen l)%Qc end.
(** numpy [nanvar] with the default [ddof=0]. *)
Definition var_of (l : list Qc) : cell :=
  match mean_of l with None => None | Some m => mean_of (map (fun x => (x - m) * (x - m))%Qc l) end.
Fixpoint qinsert (x : Qc) (l : list Qc) : list Qc :=
  match l with [] => [x] | y :: r => if Qc_leb x y then x :: l else y :: qinsert x r end.
Definition qsort (l : list Qc) : list Qc := fold_right qinsert [] l.
(** numpy [nanmedian]: the middle number or the mean of the two middle ones. *)
Definition median_of (l : list Qc) : cell :=
  let s := qsort l in let n := List.length l in
  match l with [] => None | _ => Some ((nth ((n - 1) / 2) s 0 + nth (n / 2) s 0) / qc 2)%Qc end.
(** One line of cells; [nanprod] and [nansum] of no number are 1 and 0. *)
Definition agg_line (f : agg) (l : list cell) : cell :=
  let v := present l in
  match f with
  | ASum => Some (qsum v)
  | AMean => mean_of v
  | AMedian => median_of v
  | AMax => match v with [] => None | x :: r => Some (fold_left qmax r x) end
  | AMin => match v with [] => None | x :: r => Some (fold_left qmin r x) end
  | AProd => Some (qprod v)
  | AVar => var_of v
  | ACumsum | ADiff => None
  end.

(** The cells along an axis through a position. *)
Definition line (k : nat) (a : arr) (i c o d : nat) : list cell :=
  match k with
  | 0 => map (fun j => av a j c o d) (seq 0 (ax0 a))
  | 1 => map (fun j => av a i j o d) (seq 0 (ax1 a))
  | 2 => map (fun j => av a i c j d) (seq 0 (ax2 a))
  | _ => map (fun j => av a i c o j) (seq 0 (ax3 a))
  end.
(** [func(values, axis, keepdims=True)] *)
Definition reduce_arr (f : agg) (k : nat) (a : arr) : arr :=
  let one j n := if k =? j then 1 else n in
  Arr (one 0 (ax0 a)) (one 1 (ax1 a)) (one 2 (ax2 a)) (if k <=? 2 then ax3 a else 1) (fun i c o d => agg_line f (line k a i c o d)).

(** core/pandas.py 363-379: values and labels.  [_auto_sparse] only changes the storage. *)
Definition agg_axis (f : agg) (t : tri) (ax : axis) : tri :=
  let t1 := set_values t (map_arr n2n (reduce_arr f (axis_num ax) (values t))) in
  match ax with
  | AxIndex => if 1 <? List.length (kdims t) then set_kdims t1 [map (fun _ => all_label) (key_labels t)] else t1
  | AxColumn => if 1 <? List.length (vdims t) then set_vdims t1 ["0"%string] else t1
  | AxOrigin => if 1 <? List.length (odims t) then set_odims t1 (firstn 1 (odims t)) else t1
  | AxDev => if 1 <? List.length (dlist (ddims t)) then set_ddims t1 (Vals [vdate t]) else t1
  end.

(** core/pandas.py 354-360: without an axis, the first axis of length other than 1. *)
Definition default_axis (t : tri) : axis :=
  let a := values t in
  if Nat.max (Nat.max (ax0 a) (ax1 a)) (Nat.max (ax2 a) (ax3 a)) =? 1 then AxIndex
  else if negb (ax0 a =? 1) then AxIndex else if negb (ax1 a =? 1) then AxColumn
  else if negb (ax2 a =? 1) then AxOrigin else AxDev.

(** A triangle, or the number in its only cell. *)
Inductive aggregated := AggTri (t : tri) | AggNum (x : cell).
(** core/pandas.py 350-383.  [nancumsum] and [diff] do not know the argument [keepdims]
    they are given. *)
Definition aggregate (f : agg) (ax : option axis) (keepdims : bool) (t : tri) : result aggregated :=
  let ax := match ax with Some ax => ax | None => default_axis t end in
  match f with
  | ACumsum | ADiff => Err TypeError
  | _ =>
    let u := agg_axis f t ax in let a := values u in
    if negb keepdims && ((ax0 a =? 1) && (ax1 a =? 1) && (ax2 a =? 1) && (ax3 a =? 1))
    then Ok (AggNum (av a 0 0 0 0)) else Ok (AggTri u)
  end.

(** [t.groupby(by).max()] etc.: as [groupby_sum] with another aggregate per group. *)
Definition groupby_agg (f : agg) (keys : list (list string)) (labels : list string) (t : tri) : result tri :=
  do parts <- mapm (fun g => do s <- iloc_rows t (members keys g);
                             match f with ACumsum | ADiff => Err TypeError | _ => Ok (agg_axis f s AxIndex) end) (group_index keys);
  do r <- concat_ignore parts;
  Ok (set_keys r (group_index keys) labels).
