(** Specification: which parameters survive being saved as JSON, and what is read back. *)
From Coq Require Import List String.
From Verif Require Import Store.
Import ListNotations.
Local Open Scope string_scope.

(** [reads_as v w]: the value [v], once written and read, is [w].  Tuples come back as lists and the keys of dictionaries as texts. *)
Inductive reads_as : pv -> pv -> Prop :=
| ra_none : reads_as PNone PNone
| ra_bool b : reads_as (PBool b) (PBool b)
| ra_int z : reads_as (PInt z) (PInt z)
| ra_float q : reads_as (PFloat q) (PFloat q)
| ra_inf p : reads_as (PInf p) (PInf p)
| ra_text s : reads_as (PText s) (PText s)
| ra_list l m : Forall2 reads_as l m -> reads_as (PList l) (PList m)
| ra_tuple l m : Forall2 reads_as l m -> reads_as (PTuple l) (PList m)
| ra_dict l m : NoDup (map fst m) -> Forall2 (fun x y => reads_key (fst x) (fst y) /\ reads_as (snd x) (snd y)) l m -> reads_as (PDict l) (PDict m)
with reads_key : dkey -> dkey -> Prop :=
| rk_text s : reads_key (DText s) (DText s)
| rk_int z : reads_key (DInt z) (DText (DecimalString.NilZero.string_of_int (Z.to_int z))).

(** Values made of nothing, truth values, numbers, texts, lists of such and dictionaries from distinct texts to such. *)
Inductive plain : pv -> Prop :=
| pl_none : plain PNone
| pl_bool b : plain (PBool b)
| pl_int z : plain (PInt z)
| pl_float q : plain (PFloat q)
| pl_inf p : plain (PInf p)
| pl_text s : plain (PText s)
| pl_list l : Forall plain l -> plain (PList l)
| pl_dict l : NoDup (map fst l) -> Forall (fun x => (exists s, fst x = DText s) /\ plain (snd x)) l -> plain (PDict l).

Definition is_text (v : pv) : Prop := exists s, v = PText s.

(** Estimators that can be saved: every parameter of the class is given, in the order of their names, and is plain.  The Berquist-Sherman
    adjustment may hold another such estimator. *)
Inductive savable : pv -> Prop :=
| sv_plain c d ps : class_new c = Ok d -> c <> "BerquistSherman" -> map fst ps = map fst d -> Forall (fun x => plain (snd x)) ps -> savable (PEst c ps)
| sv_berq cc ia pa rc e tr : Forall plain [cc; ia; pa; rc; e; tr] -> ~ is_text e ->
    savable (PEst "BerquistSherman" [("closed_count", cc); ("incurred_amount", ia); ("paid_amount", pa); ("reported_count", rc); ("reported_count_estimator", e); ("trend", tr)])
| sv_nested cc ia pa rc e tr : Forall plain [cc; ia; pa; rc; tr] -> savable e ->
    savable (PEst "BerquistSherman" [("closed_count", cc); ("incurred_amount", ia); ("paid_amount", pa); ("reported_count", rc); ("reported_count_estimator", e); ("trend", tr)]).

(** A function, a triangle, a data frame or an estimator of another library, at any depth inside a value. *)
Inductive holds_object : pv -> Prop :=
| ho_obj : holds_object PObj
| ho_foreign : holds_object PForeign
| ho_list l x : In x l -> holds_object x -> holds_object (PList l)
| ho_tuple l x : In x l -> holds_object x -> holds_object (PTuple l)
| ho_dict l k x : In (k, x) l -> holds_object x -> holds_object (PDict l)
| ho_est c l k x : In (k, x) l -> holds_object x -> holds_object (PEst c l).
(** A step of a pipeline that can be saved: an estimator with plain parameters only. *)
Definition step_savable (s : step) : Prop := savable (PEst (fst (snd s)) (snd (snd s))) /\ Forall (fun x => plain (snd x)) (snd (snd s)).
(** The value under a name. *)
Inductive under {A} (k : string) (v : A) : list (string * A) -> Prop :=
| un_here l : under k v ((k, v) :: l)
| un_later k' w l : k <> k' -> under k v l -> under k v ((k', w) :: l).
