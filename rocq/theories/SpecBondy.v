(** Specification of Bondy tails. *)
From Verif Require Export SpecCurve Bondy.
Local Open Scope R_scope.

(** The triangle and its factors, one for each age but the last. *)
Record bondy_input (t l : tri) : Prop := {
  bi_wf : wf t; bi_view : is_val_tri t = false; bi_factors : factors_for t l; bi_ages : S (ax3 (values l)) = ax3 (values t) }.
(** [j] is the position of the earliest age and [k] that of the attachment age: as given, by default the last factor.
    An earliest age is looked up by counting periods. *)
Record bondy_at (t : tri) (ea aa : option Z) (j k : nat) : Prop := {
  ba_early : match ea with None => S (S j) = ax3 (values t) | Some a => a = factor_age (dgrain t) j /\ nth j (dlist (ddims t)) 0%Z = a end;
  ba_attach : match aa with None => S (S k) = ax3 (values t) | Some a => ea <> None /\ nth k (dlist (ddims t)) 0%Z = a end;
  ba_order : (j <= k)%nat /\ (S (S k) <= ax3 (values t))%nat }.
(** The Bondy factor [j] periods after the factor [f]: each logarithm is [b] times the one before. *)
Definition bondy_factor (f b : R) (j : nat) : R := Rpower f (b ^ j).
(** The product of infinitely many Bondy factors, from the [j]-th on, is [v]. *)
Definition product_to_infinity (f b : R) (j : nat) (v : R) : Prop :=
  Un_cv (fun n => rprod_from j (j + n) (bondy_factor f b)) v.
(** [b] and [e] fit the logarithms [data] best. *)
Definition best_bondy (n : nat) (data : nat -> R) (b e : R) : Prop :=
  forall b' e', bondy_loss n data b e <= bondy_loss n data b' e'.
(** The logarithms of the factors from position [j] on. *)
Definition log_factors (l : tri) (i c j m : nat) : R := ln (rv (nz (cel l i c 0 (j + m)))).
