(** Specification of the Berquist-Sherman adjustment. *)
From Verif Require Export SpecCorr SpecAdditive SpecTrend Berq.
Local Open Scope nat_scope.

(** The four columns: paid amounts, incurred amounts, reported and closed counts. *)
Record columns := Columns { cp : nat; ci : nat; cr : nat; cc : nat }.
(** The triangles considered.  [ult] has the ultimate reported counts, one of each index row and origin. *)
Record berq_input (nm : bs_names) (t ult : tri) (n : nat) (k : columns) : Prop := {
  bi_wf : wf t; bi_blank : blank_future t; bi_square : exists o0 a0 h, square t n o0 a0 h; bi_n : 2 <= n; bi_0 : 1 <= ax0 (values t);
  bi_nodup : NoDup (vdims t);
  bi_p : nth_error (vdims t) (cp k) = Some (bn_paid nm); bi_i : nth_error (vdims t) (ci k) = Some (bn_incurred nm);
  bi_r : nth_error (vdims t) (cr k) = Some (bn_reported nm); bi_c : nth_error (vdims t) (cc k) = Some (bn_closed nm);
  bi_names : forall x, In x [bn_paid nm; bn_incurred nm; bn_reported nm; bn_closed nm] -> ~ In x (key_labels t);
  bi_differ : NoDup [cp k; ci k; cr k; cc k];
  bi_uk : kdims ult = kdims t; bi_ukl : key_labels ult = key_labels t; bi_uv : List.length (vdims ult) = 1; bi_uo : odims ult = odims t;
  bi_ud : List.length (dlist (ddims ult)) = 1; bi_uog : ograin ult = ograin t; bi_uvd : (vdate t <= vdate ult <= ULT_VAL)%Z;
  bi_u0 : ax0 (values ult) = ax0 (values t); bi_u1 : ax1 (values ult) = 1; bi_u2 : ax2 (values ult) = n; bi_u3 : ax3 (values ult) = 1;
  bi_u : forall i o, i < ax0 (values t) -> o < n -> (0 < amount ult i 0 o 0)%Qc }.

Section Amounts.
Variables (t ult : tri) (n : nat) (k : columns) (i : nat).
Definition paid_at (o d : nat) : Qc := amount t i (cp k) o d.
Definition closed_at (o d : nat) : Qc := amount t i (cc k) o d.
(** Outstanding amounts, open claims and amounts per open claim. *)
Definition case_at (o d : nat) : Qc := (amount t i (ci k) o d - amount t i (cp k) o d)%Qc.
Definition open_at (o d : nat) : Qc := (amount t i (cr k) o d - amount t i (cc k) o d)%Qc.
Definition average_case (o d : nat) : Qc := (case_at o d / open_at o d)%Qc.
(** The latest amount per open claim at an age, taken back to an earlier date by the yearly rate. *)
Definition level_case (pw : Qc -> Z -> Qc) (rate : Qc) (o d : nat) : Qc :=
  (average_case (n - 1 - d) d * pw (1 / (1 + rate)) (vdate t - month_of t o d)%Z)%Qc.
(** Open claims with an outstanding amount. *)
Definition has_case (o d : nat) : Prop := open_at o d <> 0%Qc /\ case_at o d <> 0%Qc.
(** The share of the ultimate number of claims closed at an age, at the valuation date. *)
Definition disposal (d : nat) : Qc := (closed_at (n - 1 - d) d / amount ult i 0 (n - 1 - d) 0)%Qc.
Definition closed_level (o d : nat) : Qc := (disposal d * amount ult i 0 o 0)%Qc.
(** Every known closed count and paid amount is positive, and more claims are closed at every age than before. *)
Definition closing : Prop :=
  (forall o d, o + d < n -> (0 < closed_at o d)%Qc /\ (0 < paid_at o d)%Qc) /\
  (forall o d, o + S d < n -> (closed_at o d < closed_at o (S d))%Qc).
(** The ages between which a number of closed claims is looked up: [m] and [m + 1]. *)
Definition bracket (o : nat) (c : Qc) (m : nat) : Prop :=
  m + 2 <= n - o /\ (m = 0 \/ (closed_at o m < c)%Qc) /\ (m + 2 = n - o \/ (c <= closed_at o (S m))%Qc).
End Amounts.
(** [y] at [x] on the exponential curve through two points. *)
Definition on_exponential (x0 y0 x1 y1 x y : R) : Prop := (exists a b, y0 = a * exp (b * x0) /\ y1 = a * exp (b * x1) /\ y = a * exp (b * x))%R.

(** The adjusted triangle, by cell; 0 where it is missing. *)
Definition adjusted (r : berq) (i c o d : nat) : R := nzr (rt_cell (bq_tri r) i c o d).
