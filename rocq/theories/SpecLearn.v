(** Specification of the fitted triangle of a regression: every cell of the square once. *)
From Coq Require Import List String ZArith.
From Verif Require Import Learn.
Import ListNotations.
Local Open Scope Z_scope.

(** Origins [h] months apart from [o0], ages that are multiples of [h]; the valuation is the last month of an age. *)
Definition origin_at (o0 h : Z) (i : nat) : Z := o0 + h * Z.of_nat i.
Definition age_at (h : Z) (d : nat) : Z := h * Z.of_nat (d + 1).
Definition valuation_at (o0 h : Z) (j : nat) : Z := o0 + h * Z.of_nat (j + 1) - 1.
Definition same_grain (g : grain) (h periods : Z) : Prop := (g = GY /\ h = 12 /\ periods = 1) \/ (g = GQ /\ h = 3 /\ periods = 4) \/ (g = GM /\ h = 1 /\ periods = 12).
(** The cells of a triangle with [n] origins up to the latest diagonal, for each index key, once each and in any order. *)
Definition known_cells (keys : list (list string)) (o0 h : Z) (n : nat) (rows : list known) : Prop :=
  NoDup rows /\
  forall r, In r rows <-> exists k i d, In k keys /\ (i + d < n)%nat /\ r = Known k (origin_at o0 h i) (age_at h d) (valuation_at o0 h (i + d)).
(** What the regression is given for a cell: the time of its origin and of its valuation, in years from the first, and its age. *)
Definition features (k : list string) (h periods : Z) (i d : nat) : feat :=
  Feat k (qc (Z.of_nat i) / qc periods)%Qc (age_at h d) (qc (Z.of_nat (i + d)) / qc periods)%Qc.
