(** Pipelines: fitting and predicting through several steps (workflow/gridsearch.py and scikit-learn's Pipeline).  Definitions only. *)
From Coq Require Import List String Ascii.
From Verif Require Export Num.
Import ListNotations.
Local Open Scope string_scope.

(** [T] is the type of triangles, [P] of what a method's [predict] returns. *)
(** A fitted estimator.  Development, tail and adjustment estimators have no [predict]. *)
Record fitted (T P : Type) := Fitted { m_transform : T -> result T; m_predict : option (T -> option T -> result P) }.
Arguments Fitted {T P}. Arguments m_transform {T P}. Arguments m_predict {T P}.
(** An estimator: fit(X, y, sample_weight), the signature of all estimators of the library. *)
Definition est (T P : Type) : Type := T -> option T -> option T -> result (fitted T P).
(** A step of a pipeline: an estimator, None or "passthrough"; the last two leave the data alone. *)
Inductive step (A : Type) := SEst (e : A) | SNone | SPass.
Arguments SEst {A}. Arguments SNone {A}. Arguments SPass {A}.
Definition keywords (T : Type) : Type := list (string * T).

Fixpoint lookup {A} (k : string) (l : list (string * A)) : option A :=
  match l with [] => None | (k', v) :: r => if String.eqb k k' then Some v else lookup k r end.
(** A dictionary entry is written: d[k] = v. *)
Fixpoint put {A} (k : string) (v : A) (l : list (string * A)) : list (string * A) :=
  match l with [] => [(k, v)] | (k', v') :: r => if String.eqb k k' then (k, v) :: r else (k', v') :: put k v r end.
(** Python's k.split("__", 1) where there are two parts. *)
Fixpoint split (k : string) : option (string * string) :=
  match k with
  | EmptyString => None
  | String c r =>
    match (if Ascii.eqb c "_" then match r with String c' r' => if Ascii.eqb c' "_" then Some r' else None | EmptyString => None end else None) with
    | Some r' => Some ("", r')
    | None => match split r with Some (a, b) => Some (String c a, b) | None => None end
    end
  end.
(** Keyword arguments other than sample_weight are refused by [fit] and [predict]. *)
Definition only_weight {T} (kw : keywords T) : result (option T) :=
  if forallb (fun x => String.eqb (fst x) "sample_weight") kw then Ok (lookup "sample_weight" kw) else Err TypeError.

(** scikit-learn's [_validate_names]: unique, not the name of a parameter of Pipeline, without "__". *)
Fixpoint unique (l : list string) : bool :=
  match l with [] => true | x :: r => negb (existsb (String.eqb x) r) && unique r end.
Definition valid_names (l : list string) : bool :=
  unique l && forallb (fun n => negb (existsb (String.eqb n) ["memory"; "steps"; "verbose"]) && match split n with None => true | Some _ => false end) l.
(** scikit-learn's [_check_fit_params]: each parameter goes to its step; a step None takes none. *)
Definition known_step {A} (steps : list (string * step A)) (n : string) : bool :=
  existsb (fun s => String.eqb n (fst s) && match snd s with SNone => false | _ => true end) steps.
Fixpoint check_params {A T} (steps : list (string * step A)) (params : keywords T) : result (list (string * (string * T))) :=
  match params with
  | [] => Ok []
  | (k, v) :: r =>
    match split k with
    | None => Err ValueError
    | Some (s, p) => if known_step steps s then do l <- check_params steps r; Ok ((s, (p, v)) :: l) else Err KeyError
    end
  end.
Definition params_of {T} (l : list (string * (string * T))) (n : string) : keywords T :=
  map snd (filter (fun x => String.eqb (fst x) n) l).

(** scikit-learn's [_fit] and [fit]: every step but the last is fitted and transforms the data, the last is fitted. *)
Fixpoint fit_steps {T P} (steps : list (string * step (est T P))) (params : list (string * (string * T))) (X : T) (y : option T)
  : result (list (step (fitted T P))) :=
  match steps with
  | [] => Ok []
  | [(n, SEst e)] => do w <- only_weight (params_of params n); do m <- e X y w; Ok [SEst m]
  | (n, SEst e) :: r =>
    do w <- only_weight (params_of params n); do m <- e X y w; do X' <- m_transform m X;
    do ms <- fit_steps r params X' y; Ok (SEst m :: ms)
  | (n, SNone) :: r => do ms <- fit_steps r params X y; Ok (SNone :: ms)
  | (n, SPass) :: r => do ms <- fit_steps r params X y; Ok (SPass :: ms)
  end.
Definition super_fit {T P} (steps : list (string * step (est T P))) (X : T) (y : option T) (params : keywords T) : result (list (step (fitted T P))) :=
  do ps <- check_params steps params;
  if valid_names (map fst steps) then fit_steps steps ps X y else Err ValueError.
(** gridsearch.py 144-149: the weight is given to every step.  (A triangle counts as true: it has at least one index row.) *)
Definition pipe_fit {T P} (steps : list (string * step (est T P))) (X : T) (y w : option T) (params : keywords T) : result (list (step (fitted T P))) :=
  super_fit steps X y (match w with Some w => fold_left (fun ps s => put (fst s ++ "__sample_weight") w ps) steps params | None => params end).

(** scikit-learn's [predict]. *)
Fixpoint predict_steps {T P} (ms : list (step (fitted T P))) (X : T) (params : keywords T) : result P :=
  match ms with
  | [] => Err IndexError
  | [SEst m] => match m_predict m with None => Err AttributeError | Some f => do w <- only_weight params; f X w end
  | [SNone] => Err AttributeError
  | [SPass] => Err AttributeError
  | SEst m :: r => do X' <- m_transform m X; predict_steps r X' params
  | SNone :: r => predict_steps r X params
  | SPass :: r => predict_steps r X params
  end.
(** gridsearch.py 151-155. *)
Definition pipe_predict {T P} (ms : list (step (fitted T P))) (X : T) (w : option T) (params : keywords T) : result P :=
  predict_steps ms X (match w with Some w => put "sample_weight" w params | None => params end).
(** gridsearch.py 157-159: the parameters of the steps' [fit] are passed to [predict] as well. *)
Definition pipe_fit_predict {T P} (steps : list (string * step (est T P))) (X : T) (y w : option T) (params : keywords T) : result P :=
  do ms <- pipe_fit steps X y w params; pipe_predict ms X w params.
