(** Specification of the table of a triangle. *)
From Verif Require Import Spec Table.
Local Open Scope nat_scope.

(** The position of a cell on an axis: 0 index, 1 columns, 2 origins, 3 development. *)
Definition coord (ax i c o d : nat) : nat := match ax with 0 => i | 1 => c | 2 => o | _ => d end.
Definition an_axis (ax : nat) : Prop := ax < 4.
(** The number of labels of an axis. *)
Definition size (t : tri) (ax : nat) : nat :=
  match ax with 0 => List.length (kdims t) | 1 => List.length (vdims t) | 2 => List.length (odims t) | _ => List.length (dlist (ddims t)) end.
Definition several (t : tri) (ax : nat) : Prop := 1 < size t ax.
(** No axis is empty, and there is more than one index row or column. *)
Definition more_than_one (t : tri) : Prop := (forall ax, an_axis ax -> 0 < size t ax) /\ (several t 0 \/ several t 1).
(** The labels of an axis; the single origin of a pattern stands for all. *)
Inductive names (t : tri) : nat -> list label -> Prop :=
| nm_index : names t 0 (map LKey (kdims t))
| nm_columns : names t 1 (map LCol (vdims t))
| nm_origins : is_pattern t = false \/ List.length (odims t) <> 1 -> names t 2 (map LOrigin (odims t))
| nm_all : is_pattern t = true -> List.length (odims t) = 1 -> names t 2 [LAll]
| nm_ages : names t 3 (map LDev (dlist (ddims t))).
(** A row of the long table: the amounts of all columns for one index key, origin and valuation. *)
Definition row_of (t : tri) (i o d : nat) : rec :=
  Rec (nth i (kdims t) []) (Date (nth o (odims t) 0%Z) true) (Date (month_of t o d) false) (map (fun c => cel t i c o d) (seq 0 (List.length (vdims t)))).
Definition place (r : rec) : list string * date * date := (r_key r, r_o r, r_d r).
