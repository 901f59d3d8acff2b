(** Specification of saving and reading back a triangle. *)
From Coq Require Export Sorting.Permutation.
From Verif Require Export SpecBuild SpecView Json.
Local Open Scope Z_scope.

(** Something happened in the cell's own period: an incremental triangle has an entry, a
    cumulative one a first entry or a change of the amount. *)
Definition entry (t : tri) (i c o d : nat) : Prop :=
  in_range t i c o d /\ ~ future t o d /\
  match is_cumulative t, d with
  | Some true, S e => amount t i c o d <> amount t i c o e
  | _, _ => cel t i c o d <> None
  end.

(** A multiple of 10^-10. *)
Definition ten_decimals (q : Qc) : Prop := exists z, q = (qc z / qc (10 ^ 10))%Qc.

(** The grain can be told from the calendar months (0 to 11) in which there is something:
    years always, quarters if those months are at least two successive quarters of a year,
    months if two successive ones occur. *)
Definition grain_shows (g : grain) (months : Z -> Prop) : Prop :=
  match g with
  | GY => True
  | GS => False
  | GQ => exists a n, (2 <= n)%nat /\ forall m, months m <-> exists k, (k < n)%nat /\ m = a + 3 * Z.of_nat k
  | GM => exists m, months m /\ months (m + 1)
  end.
Definition origin_months (t : tri) (m : Z) : Prop := exists i c o d, entry t i c o d /\ nth o (odims t) 0 mod 12 = m.
Definition date_months (t : tri) (m : Z) : Prop := exists i c o d, entry t i c o d /\ month_of t o d mod 12 = m.

(** The triangles the claim covers. *)
Record savable (t : tri) (o0 a0 : Z) (h m : nat) : Prop := {
  sv_wf : wf t;
  sv_pattern : is_pattern t = false;
  sv_cumulative : is_cumulative t = Some false \/ is_cumulative t = Some true /\ round_trip_shape t;
  sv_grid : age_grid t o0 a0 h m;
  sv_blank : blank_future t;
  sv_names : NoDup (kdims t) /\ NoDup (vdims t);
  (** the ages start within the first period and end with the oldest origin at the valuation
      date; every origin up to that date is there; origins follow the calendar *)
  sv_first_age : a0 <= Z.of_nat h;
  sv_last_age : vdate t = o0 + a0 + Z.of_nat (h * (ax3 (values t) - 1)) - 1;
  sv_two_ages : (2 <= ax3 (values t))%nat;
  sv_last_origin : vdate t < o0 + Z.of_nat (h * m * ax2 (values t));
  sv_calendar : o0 mod Z.of_nat (h * m) = 0;
  (** dates from 1900 to 2078, not all in 1970 *)
  sv_dates : 12 * 1900 <= o0 /\ vdate t < 12 * 2079;
  sv_1970 : (o0 + a0 - 1) / 12 <> 1970 \/ vdate t / 12 <> 1970;
  (** something in the first cell, at the valuation date, in every row, and after the first origin *)
  sv_first : exists i c, entry t i c 0 0;
  sv_last : exists i c o d, entry t i c o d /\ month_of t o d = vdate t;
  sv_rows : forall i, (i < ax0 (values t))%nat -> exists c o d, entry t i c o d;
  sv_beyond : ax2 (values t) = 1%nat \/ exists i c o d, entry t i c o d /\ (1 <= o)%nat;
  sv_ograin : grain_shows (ograin t) (origin_months t);
  sv_dgrain : grain_shows (dgrain t) (date_months t);
  (** amounts of at most ten decimals *)
  sv_decimals : forall i c o d, in_range t i c o d -> ten_decimals (amount t i c o d) }.

(** The triangle that was read is the triangle that was saved, with the index in order. *)
Record read_back (t u : tri) : Prop := {
  rb_index : Permutation (kdims u) (kdims t) /\ StronglySorted (fun a b => key_leb a b = true) (kdims u);
  rb_labels : key_labels u = key_labels t; rb_columns : vdims u = vdims t;
  rb_origins : odims u = odims t; rb_ages : ddims u = ddims t; rb_date : vdate u = vdate t;
  rb_cumulative : is_cumulative u = is_cumulative t; rb_pattern : is_pattern u = is_pattern t;
  rb_ograin : ograin u = ograin t; rb_dgrain : dgrain u = dgrain t;
  rb_wf : wf u;
  rb_cell : forall i j c o d, in_range t i c o d -> (j < ax0 (values u))%nat -> nth j (kdims u) [] = nth i (kdims t) [] ->
    stores (cel u j c o d) (amount t i c o d) }.
