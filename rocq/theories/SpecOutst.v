(** Specification of the development of outstanding amounts. *)
From Verif Require Export SpecCorr SpecDev Outst.
Local Open Scope nat_scope.

(** The triangles considered: cumulative, [n] origins at [n] ages, paid amounts in column [p], incurred amounts in column [q].
    The triangle has an end: no month or age reached by the completed triangle is taken for the ultimate. *)
Record os_input (nm : os_names) (t : tri) (n p q : nat) : Prop := {
  oi_wf : wf t; oi_blank : blank_future t; oi_n : 3 <= n; oi_0 : 1 <= ax0 (values t);
  oi_square : exists o0 a0 h, square t n o0 a0 h /\ grain_months (dgrain t) = Z.of_nat h /\ grain_months (ograin t) = Z.of_nat h /\
    (o0 + a0 + Z.of_nat (h * (3 * n)) < 12 * 2261)%Z /\ (a0 + Z.of_nat (h * (2 * n)) < 9999)%Z;
  oi_cum : is_cumulative t = Some true; oi_pat : is_pattern t = false;
  oi_keys : NoDup (kdims t); oi_cols : NoDup (vdims t); oi_ne : p <> q;
  oi_p : nth_error (vdims t) p = Some (on_paid nm); oi_q : nth_error (vdims t) q = Some (on_incurred nm);
  oi_pl : ~ In (on_paid nm) (key_labels t); oi_ql : ~ In (on_incurred nm) (key_labels t) }.

Section Amounts.
Variables (t : tri) (n p q : nat).
(** All columns and index rows together. *)
Definition all_rows (o d : nat) : Qc := sumn (ax1 (values t)) (fun c => sumn (ax0 (values t)) (fun i => amount t i c o d)).
(** Outstanding amounts, and payments between two ages. *)
Definition held (i o d : nat) : Qc := (amount t i q o d - amount t i p o d)%Qc.
Definition paid_in (i o d : nat) : Qc := (amount t i p o (S d) - amount t i p o d)%Qc.
Definition latest_held (i o : nat) : Qc := held i o (n - 1 - o).
Definition total_held (i : nat) : Qc := sumn n (latest_held i).
(** The step from age [d] to the next is known and among the last [N] diagonals; all of them if [N] is less than 1. *)
Definition used (N : Z) (o d : nat) : bool := (o + S d <? n) && ((N <? 1)%Z || (Z.of_nat (n - 1 - (o + d)) <=? N)%Z).
(** [x] as a ratio to [y], if neither is 0. *)
Definition share (x y : Qc) : option Qc := if Qc_eqb x 0%Qc || Qc_eqb y 0%Qc then None else Some (x / y)%Qc.
Definition held_share (N : Z) (i o d : nat) : option Qc := if used N o d then share (held i o (S d)) (held i o d) else None.
Definition paid_share (N : Z) (i o d : nat) : option Qc := if used N o d then share (paid_in i o d) (held i o d) else None.
(** The mean of those that there are; none if it is 0. *)
Definition mean_share (f : nat -> option Qc) : option Qc :=
  let k := List.length (filter (fun o => match f o with Some _ => true | None => false end) (seq 0 n)) in
  n2n (if k =? 0 then None else Some (sumn n (fun o => nz (f o)) / qc (Z.of_nat k))%Qc).
End Amounts.

(** Enough data for a fit: no diagonal cell of the whole is 0, and some origin other than the oldest has an outstanding amount. *)
Record os_data (t : tri) (n p q : nat) : Prop := {
  od_all : forall o d, o + d < n -> all_rows t o d <> 0%Qc;
  od_held : exists i o, i < ax0 (values t) /\ 1 <= o < n /\ latest_held t n p q i o <> 0%Qc }.
(** A triangle with the same index, origins and ages. *)
Record alike (t u : tri) : Prop := {
  al_k : kdims u = kdims t; al_kl : key_labels u = key_labels t; al_o : odims u = odims t; al_d : ddims u = ddims t;
  al_og : ograin u = ograin t; al_dg : dgrain u = dgrain t }.
(** Every age has a selected ratio. *)
Definition selected_all (l : tri) (n i : nat) : Prop := forall d, d < n - 1 -> cel l i 0 0 d <> None.

(** Paid or incurred amounts of all origins at all ages, by the name of the column. *)
Definition completed (nm : os_names) (u : tri) (n q : nat) (s : outstanding) (name : string) (i o d : nat) : Qc :=
  if String.eqb name (on_paid nm) then amount (os_paid_ s) i 0 o d
  else if o + d <? n then amount u i q o d else (amount (os_case_ s) i 0 o d + amount (os_paid_ s) i 0 o d)%Qc.

(** The pattern fitted to [t] used for [u], which may be [t] itself. *)
Record applied (nm : os_names) (pn cn : Z) (t u : tri) (n p q p' q' : nat) (r : os_fitted) (s : outstanding) : Prop := {
  ap_t : os_input nm t n p q; ap_data : os_data t n p q; ap_fit : os_fit nm pn cn t = Ok r;
  ap_u : os_input nm u n p' q'; ap_alike : alike t u; ap_held : exists i o, i < ax0 (values u) /\ 1 <= o < n /\ latest_held u n p' q' i o <> 0%Qc;
  ap_set : os_set_ldf nm (of_case_ldf r) (of_paid_ldf r) u = Ok s }.
