(** Specification of the automatic choice of storage. *)
From Coq Require Import List ZArith.
From Verif Require Import AutoSparse.
Import ListNotations.
Local Open Scope Z_scope.

(** The cells an array holds, position by position. *)
Definition size (s : store) : nat := match s with Dense l => List.length l | Sparse n _ => n end.
Definition cell_at (s : store) (i : nat) : option Qc :=
  match s with
  | Dense l => nth i l None
  | Sparse n e => if (i <? n)%nat then match find (fun x => Nat.eqb (fst x) i) e with Some x => snd x | None => None end else None
  end.
(** The number of positions with an amount. *)
Definition known (s : store) : nat := List.length (filter (fun i => match cell_at s i with Some _ => true | None => false end) (seq 0 (size s))).
(** No missing value is stored and no position twice: as many cells are stored as there are amounts. *)
Definition clean (s : store) : Prop := match s with Dense _ => True | Sparse n e => List.length e = known s end.
Definition is_sparse (s : store) : Prop := match s with Sparse _ _ => True | Dense _ => False end.
(** More than 30 million bytes and fewer than a fifth of the cells known. *)
Definition worth_it (s : store) : Prop := 30000000 < 8 * Z.of_nat (size s) /\ 5 * Z.of_nat (known s) < Z.of_nat (size s).
