(** Turning a triangle into a table (core/pandas.py 40-143, core/display.py 77-96).  Definitions only. *)
From Verif Require Export Json.
Local Open Scope nat_scope.

(** Row and column labels of a table.  [LAll] is the single origin of a pattern (core/triangle.py 330-331).  The texts that
    pandas shows for origins, valuations and the ages of patterns are not modelled. *)
Inductive label := LKey (k : list string) | LCol (c : string) | LOrigin (o : Z) | LDev (a : Z) | LAll.
(** The kinds of result: a series, a rectangular table, or a long table with one row per index key, origin and age. *)
Inductive table := Series (idx : list label) (x : nat -> cell) | Rect (idx cols : list label) (x : nat -> nat -> cell) | Long (rows : list rec).

(** core/triangle.py 329-344, 357-376. *)
Definition axis_labels (t : tri) (ax : nat) : list label :=
  match ax with
  | 0 => map LKey (kdims t)
  | 1 => map LCol (vdims t)
  | 2 => if is_pattern t && (List.length (odims t) =? 1) then [LAll] else map LOrigin (odims t)
  | _ => map LDev (dlist (ddims t))
  end.
Definition axis_len (t : tri) (ax : nat) : nat :=
  match ax with 0 => ax0 (values t) | 1 => ax1 (values t) | 2 => ax2 (values t) | _ => ax3 (values t) end.
(** core/pandas.py 60: the axes with more than one label. *)
Definition long_axes (t : tri) : list nat := filter (fun ax => 1 <? axis_len t ax) [0; 1; 2; 3].
(** [np.squeeze] of the values: the position on the axes that are left; on the others it is the first. *)
Fixpoint on_axis (l : list (nat * nat)) (ax : nat) : nat :=
  match l with [] => 0 | (p, n) :: r => if p =? ax then n else on_axis r ax end.
Definition squeezed (t : tri) (l : list (nat * nat)) : cell := av (values t) (on_axis l 0) (on_axis l 1) (on_axis l 2) (on_axis l 3).
(** [fillna(0)]. *)
Definition fill0 (x : cell) : cell := match x with Some q => Some q | None => Some 0%Qc end.
(** [to_frame()] with [keepdims=False].  An axis without labels is not squeezed, and pandas refuses values of too many dimensions. *)
Definition to_table (t : tri) : result table :=
  if (axis_len t 0 =? 1) && (axis_len t 1 =? 1) then Ok (Rect (axis_labels t 2) (axis_labels t 3) (fun o d => av (values t) 0 0 o d))
  else
    let none := existsb (fun ax => axis_len t ax =? 0) [0; 1; 2; 3] in
    match long_axes t with
    | [p] => if none then Err ValueError else Ok (Series (axis_labels t p) (fun n => fill0 (squeezed t [(p, n)])))
    | [p; q] => if none then Err ValueError else Ok (Rect (axis_labels t p) (axis_labels t q) (fun n m => fill0 (squeezed t [(p, n); (q, m)])))
    | _ => do rows <- to_frame t; Ok (Long rows)
    end.
