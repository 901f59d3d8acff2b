(** Fitted triangles of the regression estimators DevelopmentML, TweedieGLM and BarnettZehnwirth (development/learning.py).  Definitions only. *)
From Coq Require Import List String ZArith.
From Verif Require Export Tri.
Import ListNotations.
Local Open Scope Z_scope.

(** A cell with an amount as [to_frame] lists it: index key, origin, age in months and valuation. *)
Record known := Known { k_key : list string; k_origin : Z; k_age : Z; k_val : Z }.
(** The same as the regression sees it: origin and valuation as numbers (years).  The amounts of the other columns, which may be features as
    well, and autoregressive features are not modelled. *)
Record feat := Feat { f_key : list string; f_origin : Qc; f_age : Z; f_val : Qc }.

(** learning.py 94-95. *)
Definition months (g : grain) : Z := match g with GY => 12 | GQ => 3 | GM => 1 | GS => 6 end.
Definition per_year (g : grain) : Z := match g with GY => 1 | GQ => 4 | GM => 12 | GS => 6 end.
(** 163-170: the encoders: the rank of a date among the origins, or among the valuations of all cells, over the periods of a year. *)
Definition encoder (g : grain) (dates : list Z) : list (Z * Qc) :=
  combine dates (map (fun i => (qc (Z.of_nat i) / qc (per_year g))%Qc) (seq 0 (List.length dates))).
Definition encode (e : list (Z * Qc)) (z : Z) : Qc :=
  match find (fun x => fst x =? z) e with Some x => snd x | None => 0%Qc end.
Definition decode (e : list (Z * Qc)) (q : Qc) : option Z :=
  match find (fun x => if Qc_eq_dec (snd x) q then true else false) e with Some x => Some (fst x) | None => None end.
(** 122-142 [_prep_X_ml]; every origin and valuation of the triangle has a code. *)
Definition prep (eo ev : list (Z * Qc)) (rows : list known) : list feat :=
  map (fun r => Feat (k_key r) (encode eo (k_origin r)) (k_age r) (encode ev (k_val r))) rows.

(** 96-97: the rows of the latest diagonal are those at which this number is largest. *)
Definition diagonal (og dg : grain) (r : feat) : Qc := ((f_origin r + 1) * qc (per_year og) + qc (f_age r - months dg) / qc (months dg))%Qc.
Definition latest (og dg : grain) (df : list feat) : list feat :=
  filter (fun r => forallb (fun r' => if Qclt_le_dec (diagonal og dg r) (diagonal og dg r') then false else true) df) df.
(** 102-103. *)
Definition move (dg : grain) (r : feat) : feat := Feat (f_key r) (f_origin r) (f_age r + months dg) (f_val r + qc (months dg) / qc 12)%Qc.
(** 101-115: the diagonal is moved on one age at a time; rows beyond the oldest age of the data are dropped. *)
Fixpoint project (dg : grain) (df : list feat) (n : nat) (out : list feat) : list feat :=
  match n with
  | O => []
  | S n => let next := filter (fun r => existsb (fun r' => f_age r <=? f_age r') df) (map (move dg) out) in next ++ project dg df n next
  end.
Definition all_rows (og dg : grain) (df : list feat) : list feat :=
  df ++ project dg df (List.length (nodup Z.eq_dec (map f_age df)) - 1) (latest og dg df).
(** 88-125 [_get_triangle_ml]: the table the fitted triangle is built from.  [pred] is the fitted regression. *)
Definition fitted_table (og dg : grain) (origins vals : list Z) (pred : feat -> Qc) (rows : list known) : list (list string * option Z * option Z * Qc) :=
  let eo := encoder og origins in
  let ev := encoder dg vals in
  map (fun r => (f_key r, decode eo (f_origin r), decode ev (f_val r), pred r)) (all_rows og dg (prep eo ev rows)).
