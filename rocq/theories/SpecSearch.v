(** Specification of the grid search. *)
From Coq Require Export Sorting.Permutation Sorting.Sorted.
From Verif Require Export Search.
Import ListNotations.
Local Open Scope nat_scope.

Section Spec.
Context {V M : Type}.
(** A dictionary has each key once. *)
Definition keys {A} (d : list (string * A)) : list string := map fst d.
(** Number of combinations of the listed values. *)
Definition combos (p : list (string * list V)) : nat := fold_right (fun x n => List.length (snd x) * n) 1 p.
(** A choice: for every key the position of one of its values. *)
Definition choice (p : list (string * list V)) (ix : list nat) : Prop := Forall2 (fun x i => i < List.length (snd x)) p ix.
(** Choices are counted with the last key changing fastest. *)
Fixpoint row_number (p : list (string * list V)) (ix : list nat) : nat :=
  match p, ix with x :: r, i :: is => i * combos r + row_number r is | _, _ => 0 end.
(** The parameters of a choice. *)
Definition chosen (p : list (string * list V)) (ix : list nat) (d : dictionary V) : Prop :=
  keys d = keys p /\ Forall2 (fun xi kv => nth_error (snd (fst xi)) (snd xi) = Some (snd kv)) (combine p ix) d.

(** [e] is the estimator [est] with the parameters of [item] set. *)
Definition configured (est item e : dictionary V) : Prop :=
  keys e = keys est /\ (forall k, In k (keys item) -> In k (keys est)) /\
  forall k, dget e k = match dget item k with Some v => Some v | None => dget est k end.
Fixpoint scorer (s : scorers V M) (k : string) : option (M -> result V) :=
  match s with [] => None | (k', f) :: r => if String.eqb k k' then Some f else scorer r k end.
(** The row of results for [item]: its parameters, and every score of the model fitted with
    exactly these parameters. *)
Definition row_of (fit : dictionary V -> result M) (est : dictionary V) (s : scorers V M) (item row : dictionary V) : Prop :=
  exists e m, configured est item e /\ fit e = Ok m /\
    (forall k f, scorer s k = Some f -> exists x, f m = Ok x /\ dget row k = Some x) /\
    (forall k, scorer s k = None -> dget row k = dget item k).
End Spec.
