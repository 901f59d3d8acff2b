(** Specification of filling gaps, dropping columns, first and last rows, minimum and maximum. *)
From Verif Require Export Spec SpecLoc SpecSelect Fill.
Local Open Scope nat_scope.

(** Cells that can hold data: those not after the valuation date.  (A triangle of one origin or of one development period has no
    others.) *)
Definition fillable (t : tri) (o d : nat) : Prop := ax2 (values t) = 1 \/ ax3 (values t) = 1 \/ ~ future t o d.
(** [u] is [t] with [x i c o d] in the empty cells that can hold data, and nothing in those that cannot. *)
Record filled (t u : tri) (x : nat -> nat -> nat -> nat -> Qc) : Prop := {
  fi_frame : u = set_values t (values u);
  fi_0 : ax0 (values u) = ax0 (values t); fi_1 : ax1 (values u) = ax1 (values t);
  fi_2 : ax2 (values u) = ax2 (values t); fi_3 : ax3 (values u) = ax3 (values t);
  fi_cell : forall i c o d, in_range t i c o d -> fillable t o d ->
    (amount t i c o d <> 0%Qc -> cel u i c o d = Some (amount t i c o d)) /\ (amount t i c o d = 0%Qc -> stores (cel u i c o d) (x i c o d));
  fi_future : forall i c o d, in_range t i c o d -> ~ fillable t o d -> cel u i c o d = None }.
(** [v] can be laid over [t]: on each axis it has the labels of [t], or a single one; it is not valued later. *)
Record lies_over (t v : tri) : Prop := {
  lo_wf : wf v; lo_0 : 1 <= ax0 (values v); lo_1 : 1 <= ax1 (values v);
  lo_kl : key_labels v = key_labels t;
  lo_k : kdims v = kdims t \/ List.length (kdims v) = 1; lo_v : vdims v = vdims t \/ List.length (vdims v) = 1;
  lo_o : odims v = odims t \/ List.length (odims v) = 1; lo_d : ddims v = ddims t \/ List.length (dlist (ddims v)) = 1;
  lo_og : ograin v = ograin t; lo_dg : dgrain v = dgrain t;
  lo_vd : (vdate v <= vdate t)%Z }.
(** The amount of [v] that lies over a cell. *)
Definition amount_over (v : tri) (i c o d : nat) : Qc :=
  let at_ n k := if n =? 1 then 0 else k in
  amount v (at_ (ax0 (values v)) i) (at_ (ax1 (values v)) c) (at_ (ax2 (values v)) o) (at_ (ax3 (values v)) d).

(** The positions of the columns that stay. *)
Definition staying (t : tri) (labels : list string) : list nat :=
  filter (fun p => negb (if in_dec string_dec (nth p (vdims t) EmptyString) labels then true else false)) (seq 0 (List.length (vdims t))).

(** Same labels. *)
Record twins (t u : tri) : Prop := {
  tw_k : kdims u = kdims t; tw_v : vdims u = vdims t; tw_o : odims u = odims t; tw_d : ddims u = ddims t;
  tw_0 : ax0 (values u) = ax0 (values t); tw_1 : ax1 (values u) = ax1 (values t);
  tw_2 : ax2 (values u) = ax2 (values t); tw_3 : ax3 (values u) = ax3 (values t) }.
(** The smaller and the larger of two numbers. *)
Definition is_min (x a b : Qc) : Prop := (x = a \/ x = b) /\ (x <= a)%Qc /\ (x <= b)%Qc.
Definition is_max (x a b : Qc) : Prop := (x = a \/ x = b) /\ (a <= x)%Qc /\ (b <= x)%Qc.
(** pandas: [head(n)] has the first n of N rows, or for a negative n all but the last -n; [tail(n)] the last n, or all but the first -n. *)
Definition head_rows (N : nat) (n : Z) : list nat := seq 0 (if (n <? 0)%Z then N - Z.to_nat (- n) else Nat.min (Z.to_nat n) N).
Definition tail_rows (N : nat) (n : Z) : list nat :=
  let k := if (n <? 0)%Z then N - Z.to_nat (- n) else Nat.min (Z.to_nat n) N in seq (N - k) k.
