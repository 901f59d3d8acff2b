(** Specification of the full expectation and the full triangle. *)
From Verif Require Export SpecMethods SpecLabel.
Local Open Scope Qc_scope.

(** The ages of the factors are proper ages and end before the last representable date for every origin. *)
Definition projectable (t l : tri) : Prop :=
  forall ages, ddims l = Ages ages -> (forall a, In a ages -> (a < 9999)%Z) /\ forall o a, In o (odims t) -> In a ages -> (o + a - 1 < ULT_VAL)%Z.
(** A triangle with the rows, columns and origins of [t], one column for each age of the factors
    and a last column 9999 for the ultimate. *)
Record runoff_frame (t l r : tri) (cumulative : bool) : Prop := {
  rn_k : kdims r = kdims t; rn_kl : key_labels r = key_labels t; rn_v : vdims r = vdims t; rn_o : odims r = odims t;
  rn_d : ddims r = Ages (dlist (ddims l) ++ [9999%Z]); rn_vd : vdate r = ULT_VAL;
  rn_cum : is_cumulative r = Some cumulative; rn_pat : is_pattern r = false; rn_og : ograin r = ograin t; rn_dg : dgrain r = dgrain t;
  rn_0 : ax0 (values r) = ax0 (values t); rn_1 : ax1 (values r) = ax1 (values t);
  rn_2 : ax2 (values r) = ax2 (values t); rn_3 : ax3 (values r) = S (ax3 (values l)) }.
(** The ages of the factors are one development period apart. *)
Definition even_ages (t l : tri) : Prop :=
  forall ages d, ddims l = Ages ages -> (S d < List.length ages)%nat -> nth (S d) ages 0%Z = (nth d ages 0 + grain_months (dgrain t))%Z.
(** Enough history: the oldest origin has at least three known ages and the next at least two. *)
Definition enough_history (t : tri) (lat : nat -> nat) : Prop :=
  (2 <= ax2 (values t) /\ 2 <= lat 0 /\ 1 <= lat 1)%nat.
(** Every factor is present and not 0. *)
Definition factors_present (l : tri) (i c : nat) : Prop :=
  forall d, (d < ax3 (values l))%nat -> cel l i c 0 d = Some (factor (cel l i c 0 d)).
(** Product of the factors from age number [a] up to, but not including, age number [b]. *)
Definition growth (l : tri) (i c a b : nat) : Qc := prodn (b - a) (fun k => factor (cel l i c 0 (a + k))).
(** Share of the remaining development that has emerged at age number [d], for an origin whose latest age number is [a]. *)
Definition emerged (l : tri) (i c a d : nat) : Qc := ((growth l i c a d - 1) / (to_ultimate l i c a - 1))%Qc.

(** What the full triangle is built from: data, factors at evenly spaced ages, an ultimate for each origin,
    and the latest age number of each origin. *)
Record runoff_input (t l u : tri) (lat : nat -> nat) : Prop := {
  ci_mi : method_input t; ci_pf : pattern_for t l; ci_uf : ultimate_frame t u; ci_pj : projectable t l; ci_ul : uniq_labels t;
  ci_la : latest_ages t lat; ci_eh : enough_history t lat; ci_ea : even_ages t l }.
(** No factor from age number [a] on is below 1. *)
Definition growing (l : tri) (i c a : nat) : Prop := forall d, (a <= d < ax3 (values l))%nat -> 1 <= factor (cel l i c 0 d).
