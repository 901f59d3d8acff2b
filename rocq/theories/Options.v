(** The options of the library (chainladder/__init__.py).  Definitions only. *)
From Coq Require Import List String.
From Verif Require Export Num.
Import ListNotations.
Local Open Scope string_scope.

(** Values of options. *)
Inductive oval := VText (s : string) | VBool (b : bool) | VNames (l : list string).
(** The attributes of the class Options and those of its only instance, [options]. *)
Record opts := Opts { of_class : list (string * oval); of_instance : list (string * oval) }.
Fixpoint oget (k : string) (l : list (string * oval)) : option oval :=
  match l with [] => None | (k', v) :: r => if String.eqb k k' then Some v else oget k r end.
Fixpoint oset (k : string) (v : oval) (l : list (string * oval)) : list (string * oval) :=
  match l with [] => [(k, v)] | (k', v') :: r => if String.eqb k k' then (k, v) :: r else (k', v') :: oset k v r end.
(** 4-7. *)
Definition initial : opts :=
  Opts [("ARRAY_BACKEND", VText "numpy"); ("AUTO_SPARSE", VBool true); ("ARRAY_PRIORITY", VNames ["dask"; "sparse"; "cupy"; "numpy"]);
        ("ULT_VAL", VText "2261-12-31 23:59:59.999999999")] [].
(** 9-11 [get_option]: a class method, which sees the attributes of the class only. *)
Definition get_option (o : opts) (k : string) : result oval := match oget k (of_class o) with Some v => Ok v | None => Err AttributeError end.
(** options.NAME, as the rest of the library reads options: an attribute of the instance hides that of the class. *)
Definition attribute (o : opts) (k : string) : result oval := match oget k (of_instance o) with Some v => Ok v | None => get_option o k end.
(** 13-15 [set_option]. *)
Definition set_option (o : opts) (k : string) (v : oval) : opts := Opts (oset k v (of_class o)) (of_instance o).
(** options.NAME = value. *)
Definition assign (o : opts) (k : string) (v : oval) : opts := Opts (of_class o) (oset k v (of_instance o)).
(** 17-21 [reset_option]. *)
Definition reset_option (o : opts) : opts :=
  let o := set_option o "ARRAY_BACKEND" (VText "numpy") in
  let o := set_option o "AUTO_SPARSE" (VBool true) in
  let o := set_option o "ARRAY_PRIORITY" (VNames ["dask"; "sparse"; "cupy"; "numpy"]) in
  set_option o "ULT_VAL" (VText "2261-12-31 23:59:59.999999999").
(** 28-34 [array_backend], [auto_sparse]. *)
Definition array_backend (o : opts) (s : string) : opts := set_option o "ARRAY_BACKEND" (VText s).
Definition auto_sparse (o : opts) (b : bool) : opts := set_option o "AUTO_SPARSE" (VBool b).

(** A history of calls. *)
Inductive call := CSet (k : string) (v : oval) | CReset | CBackend (s : string) | CSparse (b : bool) | CAssign (k : string) (v : oval).
Definition do_call (o : opts) (c : call) : opts :=
  match c with
  | CSet k v => set_option o k v | CReset => reset_option o | CBackend s => array_backend o s | CSparse b => auto_sparse o b
  | CAssign k v => assign o k v
  end.
Definition after (h : list call) : opts := fold_left do_call h initial.
