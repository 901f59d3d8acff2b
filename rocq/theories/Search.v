(** Grid search (workflow/gridsearch.py).  Definitions only. *)
From Coq Require Import List String Bool PeanoNat.
From Verif Require Export Num.
Import ListNotations.
Local Open Scope string_scope.

(** A Python dictionary: keys in insertion order. *)
Notation dictionary V := (list (string * V)).
Section Search.
(** Parameter values and scores, and fitted models. *)
Context {V M : Type}.

Fixpoint dget (d : dictionary V) (k : string) : option V :=
  match d with [] => None | (k', v) :: r => if String.eqb k k' then Some v else dget r k end.
Fixpoint dset (d : dictionary V) (k : string) (v : V) : dictionary V :=
  match d with [] => [(k, v)] | (k', w) :: r => if String.eqb k k' then (k', v) :: r else (k', w) :: dset r k v end.

(** sklearn's ParameterGrid, gridsearch.py 85: the keys in sorted order, then every
    combination of the listed values, the last key changing fastest. *)
Fixpoint insert_key (x : string * list V) (l : list (string * list V)) :=
  match l with [] => [x] | y :: r => if String.leb (fst x) (fst y) then x :: l else y :: insert_key x r end.
Definition sort_keys (p : list (string * list V)) := fold_right insert_key [] p.
Fixpoint product (p : list (string * list V)) : list (dictionary V) :=
  match p with
  | [] => [[]]
  | (k, vs) :: r => flat_map (fun v => map (fun d => (k, v) :: d) (product r)) vs
  end.
Definition no_values (x : string * list V) : bool := match snd x with [] => true | _ => false end.
Definition parameter_grid (ps : list (list (string * list V))) : result (list (dictionary V)) :=
  if existsb (existsb no_values) ps then Err ValueError else Ok (flat_map (fun p => product (sort_keys p)) ps).

(** sklearn's set_params on a clone of the estimator, gridsearch.py 88; parameters of
    nested estimators are treated as parameters of their own names. *)
Fixpoint set_params (est item : dictionary V) : result (dictionary V) :=
  match item with
  | [] => Ok est
  | (k, v) :: r => match dget est k with Some _ => set_params (dset est k v) r | None => Err ValueError end
  end.

Variable fit : dictionary V -> result M.
(** The scoring functions by name; gridsearch.py 81-84: a single function is called "score". *)
Definition scorers : Type := list (string * (M -> result V)).
Definition single_scorer (f : M -> result V) : scorers := [("score", f)].
(** gridsearch.py 90-92. *)
Fixpoint add_scores (m : M) (s : scorers) (item : dictionary V) : result (dictionary V) :=
  match s with
  | [] => Ok item
  | (k, f) :: r => do x <- f m; add_scores m r (dset item k x)
  end.
(** gridsearch.py 87-92. *)
Definition fit_single (est : dictionary V) (s : scorers) (item : dictionary V) : result (dictionary V) :=
  do e <- set_params est item; do m <- fit e; add_scores m s item.

Fixpoint all_ok {A B} (f : A -> result B) (l : list A) : result (list B) :=
  match l with [] => Ok [] | a :: r => do b <- f a; do bs <- all_ok f r; Ok (b :: bs) end.
(** gridsearch.py 94-98, one job after the other. *)
Definition grid_search (est : dictionary V) (ps : list (list (string * list V))) (s : scorers) : result (list (dictionary V)) :=
  do g <- parameter_grid ps; all_ok (fit_single est s) g.

(** gridsearch.py 94-97 with several jobs: they finish in the order [order] and each leaves
    its row in its own place; the first error that occurs is raised. *)
Fixpoint run_jobs (est : dictionary V) (s : scorers) (g : list (dictionary V)) (order : list nat) (done : nat -> option (dictionary V)) : result (nat -> option (dictionary V)) :=
  match order with
  | [] => Ok done
  | j :: r => do row <- fit_single est s (nth j g []); run_jobs est s g r (fun i => if Nat.eqb i j then Some row else done i)
  end.
Definition parallel_search (est : dictionary V) (ps : list (list (string * list V))) (s : scorers) (order : list nat) : result (list (option (dictionary V))) :=
  do g <- parameter_grid ps; do f <- run_jobs est s g order (fun _ => None); Ok (map f (seq 0 (List.length g))).
(** gridsearch.py 98: a column of the table of results; None is a missing entry. *)
Definition column (rows : list (dictionary V)) (k : string) : list (option V) := map (fun r => dget r k) rows.
End Search.
Arguments scorers : clear implicits.
