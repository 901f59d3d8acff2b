(** Specification of external development patterns. *)
From Verif Require Export SpecMethods Const.
Local Open Scope Z_scope.

(** The number given for a row and an age.  With one dictionary per row, an age that a row
    leaves out counts as 1 if another row has it. *)
Definition given (p : patterns) (ks : list (list string)) (k : list string) (a : Z) (q : Qc) : Prop :=
  match p with
  | PDict f => f a = Some q
  | PRows f => (exists k' x, In k' ks /\ f k' a = Some x) /\ (f k a = Some q \/ f k a = None /\ q = 1%Qc)
  end.
(** Every age of [t] but the oldest is given a number for every row. *)
Definition all_given (p : patterns) (t : tri) (g : list string -> Z -> Qc) : Prop :=
  forall k a, In k (kdims t) -> In a (removelast (dlist (ddims t))) -> given p (kdims t) k a (g k a).
(** The number for row [i] and age number [d]. *)
Definition number (t : tri) (g : list string -> Z -> Qc) (i d : nat) : Qc := g (nth i (kdims t) []) (nth d (dlist (ddims t)) 0).
