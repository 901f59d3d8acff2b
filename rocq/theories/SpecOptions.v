(** Specification of options: what was set last counts, since the last reset. *)
From Coq Require Import List String.
From Verif Require Import Options.
Import ListNotations.
Local Open Scope string_scope.

(** The documented defaults. *)
Inductive default : string -> oval -> Prop :=
| d_backend : default "ARRAY_BACKEND" (VText "numpy")
| d_sparse : default "AUTO_SPARSE" (VBool true)
| d_priority : default "ARRAY_PRIORITY" (VNames ["dask"; "sparse"; "cupy"; "numpy"])
| d_ult : default "ULT_VAL" (VText "2261-12-31 23:59:59.999999999").
(** A call gives option [k] the value [v]. *)
Inductive gives : call -> string -> oval -> Prop :=
| g_set k v : gives (CSet k v) k v
| g_backend s : gives (CBackend s) "ARRAY_BACKEND" (VText s)
| g_sparse b : gives (CSparse b) "AUTO_SPARSE" (VBool b)
| g_reset k v : default k v -> gives CReset k v.
(** The value of [k] after a history: that of the last call that gave it one; the default if there was none. *)
Definition value_after (h : list call) (k : string) (v : oval) : Prop :=
  (exists h1 c h2, h = (h1 ++ c :: h2)%list /\ gives c k v /\ forall c' v', In c' h2 -> ~ gives c' k v') \/
  (default k v /\ forall c v', In c h -> ~ gives c k v').
Definition no_assignment (h : list call) : Prop := forall k v, ~ In (CAssign k v) h.
