(** Specification of pipelines: the same by hand. *)
From Coq Require Import List String.
From Verif Require Import Pipe.
Import ListNotations.
Local Open Scope string_scope.

(** Names of steps: all different, none is the name of a parameter of Pipeline, none contains two underscores in a row or ends in one. *)
Definition plain_name (n : string) : Prop :=
  ~ In n ["memory"; "steps"; "verbose"] /\ (forall a b, n <> a ++ "__" ++ b) /\ (forall a, n <> a ++ "_").
Definition plain_names (l : list string) : Prop := NoDup l /\ Forall plain_name l.

(** Fitting by hand: each estimator is fitted to what the one before it made of the data, with the weight of its own name; the last need not
    transform.  Steps None and "passthrough" do nothing. *)
Inductive by_hand {T P : Type} (y : option T) (weight : string -> option T) : list (string * step (est T P)) -> T -> list (step (fitted T P)) -> Prop :=
| bh_last n (e : est T P) X m : e X y (weight n) = Ok m -> by_hand y weight [(n, SEst e)] X [SEst m]
| bh_step n (e : est T P) r X m X' ms : r <> [] -> e X y (weight n) = Ok m -> m_transform m X = Ok X' -> by_hand y weight r X' ms ->
  by_hand y weight ((n, SEst e) :: r) X (SEst m :: ms)
| bh_none n r X ms : by_hand y weight r X ms -> by_hand y weight ((n, SNone) :: r) X (SNone :: ms)
| bh_pass n r X ms : by_hand y weight r X ms -> by_hand y weight ((n, SPass) :: r) X (SPass :: ms).
(** Predicting by hand: the data passes through all but the last, and the last predicts. *)
Inductive predicts {T P : Type} (w : option T) : list (step (fitted T P)) -> T -> P -> Prop :=
| pr_last m f X v : m_predict m = Some f -> f X w = Ok v -> predicts w [SEst m] X v
| pr_step m r X X' v : r <> [] -> m_transform m X = Ok X' -> predicts w r X' v -> predicts w (SEst m :: r) X v
| pr_none r X v : predicts w r X v -> predicts w (SNone :: r) X v
| pr_pass r X v : predicts w r X v -> predicts w (SPass :: r) X v.
Definition ends_in_estimator {A} (steps : list (string * step A)) : Prop := exists init n e, steps = (init ++ [(n, SEst e)])%list.
(** The weight a step is fitted with: that of the call if there is one, else the one given for the step. *)
Definition weight_of {T} (w : option T) (own : list (string * T)) (n : string) : option T :=
  match w with Some w => Some w | None => option_map snd (find (fun x => if string_dec (fst x) n then true else false) own) end.
(** Weights given for single steps, as keyword arguments. *)
Definition step_weights {T} (own : list (string * T)) : list (string * T) := map (fun x => (fst x ++ "__sample_weight", snd x)) own.
(** Each of them belongs to one step that is not None. *)
Definition weights_fit {A T} (steps : list (string * step A)) (own : list (string * T)) : Prop :=
  NoDup (map fst own) /\ forall n, In n (map fst own) -> exists s, In (n, s) steps /\ s <> SNone.
