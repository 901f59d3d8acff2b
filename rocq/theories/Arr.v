(** 4-dimensional arrays (index x column x origin x development) and the numpy
    primitives used by chainladder.  Definitions only. *)
From Verif Require Export Num.
Local Open Scope nat_scope.

(** An array is its shape and an index function; entries outside the shape are
    never observed. *)
Record arr := Arr {
  ax0 : nat; ax1 : nat; ax2 : nat; ax3 : nat;
  av : nat -> nat -> nat -> nat -> cell }.

Definition map_arr (f : cell -> cell) (a : arr) : arr :=
  Arr (ax0 a) (ax1 a) (ax2 a) (ax3 a) (fun i c o d => f (av a i c o d)).

(** numpy broadcasting of one axis. *)
Definition bdim (m n : nat) : result nat :=
  if m =? n then Ok m else if m =? 1 then Ok n else if n =? 1 then Ok m
  else Err ValueError.
Definition bidx (n i : nat) : nat := if n =? 1 then 0 else i.

(** numpy binary ufunc with broadcasting; incompatible shapes raise ValueError. *)
Definition bmap2 (f : cell -> cell -> cell) (a b : arr) : result arr :=
  do n0 <- bdim (ax0 a) (ax0 b);
  do n1 <- bdim (ax1 a) (ax1 b);
  do n2 <- bdim (ax2 a) (ax2 b);
  do n3 <- bdim (ax3 a) (ax3 b);
  Ok (Arr n0 n1 n2 n3 (fun i c o d =>
        f (av a (bidx (ax0 a) i) (bidx (ax1 a) c) (bidx (ax2 a) o) (bidx (ax3 a) d))
          (av b (bidx (ax0 b) i) (bidx (ax1 b) c) (bidx (ax2 b) o) (bidx (ax3 b) d)))).

(** numpy [concatenate] of two arrays along an axis; [cat_ok] is the shape test. *)
Definition cat_ok (axis : nat) (a b : arr) : bool :=
  ((axis =? 0) || (ax0 a =? ax0 b)) && ((axis =? 1) || (ax1 a =? ax1 b)) &&
  ((axis =? 2) || (ax2 a =? ax2 b)) && ((axis =? 3) || (ax3 a =? ax3 b)).
Definition cat2 (axis : nat) (a b : arr) : arr :=
  match axis with
  | 0 => Arr (ax0 a + ax0 b) (ax1 a) (ax2 a) (ax3 a)
           (fun i c o d => if i <? ax0 a then av a i c o d else av b (i - ax0 a) c o d)
  | 1 => Arr (ax0 a) (ax1 a + ax1 b) (ax2 a) (ax3 a)
           (fun i c o d => if c <? ax1 a then av a i c o d else av b i (c - ax1 a) o d)
  | 2 => Arr (ax0 a) (ax1 a) (ax2 a + ax2 b) (ax3 a)
           (fun i c o d => if o <? ax2 a then av a i c o d else av b i c (o - ax2 a) d)
  | _ => Arr (ax0 a) (ax1 a) (ax2 a) (ax3 a + ax3 b)
           (fun i c o d => if d <? ax3 a then av a i c o d else av b i c o (d - ax3 a))
  end.
Fixpoint cat_all (axis : nat) (a : arr) (l : list arr) : result arr :=
  match l with
  | [] => Ok a
  | b :: l => do r <- cat_all axis b l;
              if cat_ok axis a r then Ok (cat2 axis a r) else Err ValueError
  end.

(** Selecting positions on every axis: [a[ix_(ik, ic, io, id)]]. *)
Definition sel_arr (ik ic io id : list nat) (a : arr) : arr :=
  Arr (List.length ik) (List.length ic) (List.length io) (List.length id)
      (fun i c o d => av a (nth i ik 0) (nth c ic 0) (nth o io 0) (nth d id 0)).

(** numpy [cumsum(nan_to_num(.), axis=3)]. *)
Definition cumsum3 (a : arr) : arr :=
  Arr (ax0 a) (ax1 a) (ax2 a) (ax3 a)
      (fun i c o d => Some (nansum (S d) (fun k => av a i c o k))).

(** numpy [nansum(., axis, keepdims=True)]. *)
Definition nansum_axis (axis : nat) (a : arr) : arr :=
  match axis with
  | 0 => Arr 1 (ax1 a) (ax2 a) (ax3 a) (fun _ c o d => Some (nansum (ax0 a) (fun k => av a k c o d)))
  | 1 => Arr (ax0 a) 1 (ax2 a) (ax3 a) (fun i _ o d => Some (nansum (ax1 a) (fun k => av a i k o d)))
  | 2 => Arr (ax0 a) (ax1 a) 1 (ax3 a) (fun i c _ d => Some (nansum (ax2 a) (fun k => av a i c k d)))
  | _ => Arr (ax0 a) (ax1 a) (ax2 a) 1 (fun i c o _ => Some (nansum (ax3 a) (fun k => av a i c o k)))
  end.

(** Python [range(start, stop, step)] for step <> 0. *)
Definition py_range (start stop step : Z) : list Z :=
  let count :=
    if (0 <? step)%Z then ((stop - start + step - 1) / step)%Z
    else ((start - stop - step - 1) / (- step))%Z in
  map (fun i => start + step * Z.of_nat i)%Z (seq 0 (Z.to_nat count)).

(** Python [slice(start, stop, step).indices(n)]; a zero step raises ValueError. *)
Definition slice_bound (v : option Z) (dflt lower upper n : Z) : Z :=
  match v with
  | None => dflt
  | Some x => if (x <? 0)%Z then Z.max (x + n) lower else Z.min x upper
  end.
Definition slice_triple (start stop step : option Z) (n : nat) : result (Z * Z * Z) :=
  let st := match step with None => 1%Z | Some s => s end in
  let N := Z.of_nat n in
  if (st =? 0)%Z then Err ValueError
  else if (0 <? st)%Z
       then Ok (slice_bound start 0 0 N N, slice_bound stop N 0 N N, st)
       else Ok (slice_bound start (N - 1) (-1) (N - 1) N, slice_bound stop (-1) (-1) (N - 1) N, st).
Definition slice_positions (start stop step : option Z) (n : nat) : result (list nat) :=
  do t <- slice_triple start stop step n;
  let '(a, b, s) := t in Ok (map Z.to_nat (py_range a b s)).
