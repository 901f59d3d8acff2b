(** Specification of triangles built from tables. *)
From Coq Require Export Sorting.Permutation.
From Verif Require Export Spec Build.
Local Open Scope Z_scope.

(** Months in a period, and the first and last month of the period that [m] lies in, when
    periods end in calendar month [c] (0 to 11). *)
Definition months_in (g : grain) : Z := match g with GY => 12 | GS => 6 | GQ => 3 | GM => 1 end.
Definition first_month (gc : grain * Z) (m : Z) : Z :=
  let g := months_in (fst gc) in let a := snd gc + 1 in a + g * ((m - a) / g).
Definition last_month (gc : grain * Z) (m : Z) : Z := first_month gc m + months_in (fst gc) - 1.
(** Origin and development grain that are read off a table. *)
Definition origin_grain_of (trailing : bool) (table : list rec) : grain * Z :=
  match table with [] => (GY, 11) | r :: _ => get_grain trailing OriginDates (map r_o table) (r_o r) end.
Definition dev_grain_of (trailing : bool) (table : list rec) : grain * Z :=
  match table with [] => (GY, 11) | r :: _ => get_grain trailing DevelopmentDates (map r_d table) (r_d r) end.

(** The row counts: its development period ends in or after the first month of its origin. *)
Definition counts (og dg : grain * Z) (r : rec) : bool := first_month og (dm (r_o r)) <=? last_month dg (dm (r_d r)).
(** The row belongs to the cell. *)
Definition belongs (og dg : grain * Z) (t : tri) (i o d : nat) (r : rec) : bool :=
  strs_eqb (r_key r) (nth i (kdims t) []) &&
  (first_month og (dm (r_o r)) =? nth o (odims t) 0) &&
  (last_month dg (dm (r_d r)) =? month_of t o d).
Definition column_sum (c : nat) (rows : list rec) : Qc := qsum (map (fun r => nz (nth c (r_amt r) None)) rows).

(** Tables the claim covers: dates from 1900 to 2078, years, quarters or months as origins
    and as development periods, and origins that follow the calendar. *)
Record table_ok (og dg : grain * Z) (table : list rec) : Prop := {
  tb_row : exists r, In r table /\ counts og dg r = true;
  tb_1970 : exists r, In r table /\ dm (r_d r) / 12 <> 1970;
  tb_dates : forall r, In r table -> 12 * 1900 <= dm (r_o r) < 12 * 2079 /\ 12 * 1900 <= dm (r_d r) < 12 * 2079;
  tb_og : fst og <> GS; tb_dg : fst dg <> GS;
  tb_close : (snd og + 1) mod months_in (fst og) = 0 }.

(** What a triangle built from [table] is. *)
Record built (og dg : grain * Z) (columns : list string) (table : list rec) (t : tri) : Prop := {
  bt_wf : wf t; bt_blank : blank_future t; bt_pat : is_pattern t = false;
  bt_v : vdims t = columns;
  bt_keys : NoDup (kdims t) /\ forall k, In k (kdims t) <-> exists r, In r table /\ counts og dg r = true /\ r_key r = k;
  (** every origin period from the first one with data to the valuation date *)
  bt_origins : forall o, In o (odims t) <-> first_month og o = o /\ o <= vdate t /\ exists r, In r table /\ counts og dg r = true /\ first_month og (dm (r_o r)) <= o;
  bt_vdate : (exists r, In r table /\ counts og dg r = true /\ vdate t = last_month dg (dm (r_d r))) /\
             forall r, In r table -> counts og dg r = true -> last_month dg (dm (r_d r)) <= vdate t;
  bt_cell : forall i c o d, in_range t i c o d -> stores (cel t i c o d) (column_sum c (filter (belongs og dg t i o d) table));
  (** every row that counts belongs to exactly one cell *)
  bt_row : forall r, In r table -> counts og dg r = true -> exists i o d,
    (i < ax0 (values t))%nat /\ (o < ax2 (values t))%nat /\ (d < ax3 (values t))%nat /\ belongs og dg t i o d r = true;
  bt_one : forall r i o d i' o' d', belongs og dg t i o d r = true -> belongs og dg t i' o' d' r = true ->
    (i < ax0 (values t))%nat -> (o < ax2 (values t))%nat -> (d < ax3 (values t))%nat ->
    (i' < ax0 (values t))%nat -> (o' < ax2 (values t))%nat -> (d' < ax3 (values t))%nat -> i = i' /\ o = o' /\ d = d';
  (** other rows belong to none *)
  bt_none : forall r i o d, In r table -> counts og dg r = false ->
    (o < ax2 (values t))%nat -> (d < ax3 (values t))%nat -> belongs og dg t i o d r = false }.

(** Sum of all cells of a column. *)
Definition total (t : tri) (c : nat) : Qc :=
  sumn (ax0 (values t)) (fun i => sumn (ax2 (values t)) (fun o => sumn (ax3 (values t)) (fun d => amount t i c o d))).
(** The calendar months (0 = January) that occur among the dates are [a], [a + s], ...,
    [n] of them. *)
Definition months_spaced (ds : list date) (a s : Z) (n : nat) : Prop :=
  forall m, (exists d, In d ds /\ dm d mod 12 = m) <-> exists k, (k < n)%nat /\ m = a + s * Z.of_nat k.
