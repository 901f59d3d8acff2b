(** The automatic choice between dense and sparse storage (core/base.py, core/common.py, utils/sparse.py).  Definitions only. *)
From Coq Require Import List ZArith.
From Verif Require Export Num.
Import ListNotations.
Local Open Scope Z_scope.

(** The values of a triangle, all axes in one list: dense, or as a size and the stored cells with their positions; what is not stored is
    missing.  The sparse package may store missing values. *)
Inductive store := Dense (l : list (option Qc)) | Sparse (n : nat) (e : list (nat * option Qc)).
Definition stored (i : nat) (e : list (nat * option Qc)) : option Qc :=
  match find (fun x => Nat.eqb (fst x) i) e with Some x => snd x | None => None end.
(** [todense]. *)
Definition todense (n : nat) (e : list (nat * option Qc)) : list (option Qc) := map (fun i => stored i e) (seq 0 n).
(** utils/sparse.py [sp.array]: the known cells are stored. *)
Definition entries (l : list (option Qc)) : list (nat * option Qc) :=
  filter (fun x => match snd x with None => false | Some _ => true end) (combine (seq 0 (List.length l)) l).
Definition to_sparse (l : list (option Qc)) : store := Sparse (List.length l) (entries l).
Definition missing (l : list (option Qc)) : Z :=
  Z.of_nat (List.length (filter (fun c => match c with None => true | Some _ => false end) l)).
(** core/base.py 354 and 357: more than 30 million bytes at 8 bytes for a cell. *)
Definition big (n : nat) : bool := 30 * 1000000 <? 8 * Z.of_nat n.
(** core/base.py 350-367 [_auto_sparse].  A density below 0.2: five times the number of cells counted is less than the size; in a sparse
    array the stored cells are counted.  Rounding of the floating point numbers is not modelled. *)
Definition auto_sparse (option_on : bool) (s : store) : store :=
  if negb option_on then s else
  let s := match s with
    | Dense l => if big (List.length l) && (5 * (Z.of_nat (List.length l) - missing l) <? Z.of_nat (List.length l)) then to_sparse l else s
    | Sparse _ _ => s end in
  match s with
  | Sparse n e => if negb ((5 * Z.of_nat (List.length e) <? Z.of_nat n) && big n) then Dense (todense n e) else s
  | Dense _ => s
  end.
