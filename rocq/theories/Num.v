(** Cells, NaN-aware arithmetic, finite sums.  Definitions only.

    A cell of a chainladder array is a float.  It is idealised as an exact
    rational ([Qc]) or NaN ([None]).  Rounding, infinities and overflow are not
    modelled; a division by a stored zero is [None] (numpy gives inf or nan). *)
From Coq Require Export List Arith ZArith QArith Qcanon Bool String.
Export ListNotations.
Close Scope Q_scope.

Definition cell := option Qc.

(** numpy [nan_to_num] on one cell (NaN becomes 0). Used throughout, e.g.
    core/dunders.py 251, core/triangle.py 459. *)
Definition nz (c : cell) : Qc := match c with Some q => q | None => 0%Qc end.

Definition Qc_eqb (x y : Qc) : bool := Qeq_bool x y.
Definition Qc_leb (x y : Qc) : bool := Qle_bool x y.
Definition Qc_ltb (x y : Qc) : bool := negb (Qle_bool y x).

(** utils/utility_functions.py 354-378 [num_to_nan] on one cell of a dense
    array: [arr[arr == 0] = nan]. *)
Definition n2n (c : cell) : cell :=
  match c with Some q => if Qc_eqb q 0%Qc then None else Some q | None => None end.

(** utils/utility_functions.py 354-369 [num_to_value] on one dense cell. *)
Definition n2v (v : Qc) (c : cell) : cell :=
  match c with Some q => if Qc_eqb q 0%Qc then Some v else Some q | None => None end.

(** numpy elementwise arithmetic: NaN propagates. *)
Definition cadd (a b : cell) : cell :=
  match a, b with Some x, Some y => Some (x + y)%Qc | _, _ => None end.
Definition csub (a b : cell) : cell :=
  match a, b with Some x, Some y => Some (x - y)%Qc | _, _ => None end.
Definition cmul (a b : cell) : cell :=
  match a, b with Some x, Some y => Some (x * y)%Qc | _, _ => None end.
Definition cdiv (a b : cell) : cell :=
  match a, b with
  | Some x, Some y => if Qc_eqb y 0%Qc then None else Some (x / y)%Qc
  | _, _ => None
  end.
Definition copp (a : cell) : cell := option_map Qcopp a.
Definition is_nan (a : cell) : bool := match a with None => true | _ => false end.

(** [sumn n f] is f 0 + ... + f (n-1); [prodn] likewise. *)
Fixpoint sumn (n : nat) (f : nat -> Qc) : Qc :=
  match n with O => 0%Qc | S k => (sumn k f + f k)%Qc end.
Fixpoint prodn (n : nat) (f : nat -> Qc) : Qc :=
  match n with O => 1%Qc | S k => (prodn k f * f k)%Qc end.
Definition qsum (l : list Qc) : Qc := fold_right Qcplus 0%Qc l.
Definition qprod (l : list Qc) : Qc := fold_right Qcmult 1%Qc l.

Fixpoint Qcpow (x : Qc) (n : nat) : Qc :=
  match n with O => 1%Qc | S k => (x * Qcpow x k)%Qc end.

(** numpy [nansum] of the first n cells. *)
Definition nansum (n : nat) (f : nat -> cell) : Qc := sumn n (fun k => nz (f k)).

(** A rational literal a/b; used in examples. *)
Definition qc (z : Z) : Qc := Q2Qc (inject_Z z).
Definition qcf (a : Z) (b : positive) : Qc := Q2Qc (Qmake a b).

(** Python exceptions as values. *)
Inductive exn :=
| ValueError | IndexError | KeyError | TypeError | AttributeError
| AssertionError | UnboundLocalError | NotImplementedError | OtherError.
Inductive result (A : Type) := Ok (a : A) | Err (e : exn).
Arguments Ok {A} a.
Arguments Err {A} e.
Definition rbind {A B} (r : result A) (f : A -> result B) : result B :=
  match r with Ok a => f a | Err e => Err e end.
Definition rmap {A B} (f : A -> B) (r : result A) : result B :=
  match r with Ok a => Ok (f a) | Err e => Err e end.
Notation "'do' x <- e ; k" := (rbind e (fun x => k))
  (at level 200, x name, e at level 100, k at level 200, right associativity).
