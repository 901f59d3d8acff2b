(** Specification of trending. *)
From Verif Require Export SpecDev Trend.
Local Open Scope R_scope.

(** The date on the chosen axis: the last month of the origin period, or the month of the valuation. *)
Definition date_on (t : tri) (ax : trend_axis) (o d : nat) : Z :=
  match ax with TValuation => month_of t o d | _ => nth o (odims t) 0 + grain_months (ograin t) - 1 end%Z.
(** [z] is the date nearest to [x] among those from [a] to [b] (in either order). *)
Definition nearest (a b x z : Z) : Prop :=
  (Z.min a b <= z <= Z.max a b /\ forall w, Z.min a b <= w <= Z.max a b -> Z.abs (x - z) <= Z.abs (x - w))%Z.
(** [f] is (1 + rate) to the power of [n] months of a year: positive, with the right twelfth power. *)
Definition grows (rate : R) (n : Z) (f : R) : Prop := 0 < f /\ f ^ 12 = powerRZ (1 + rate) n.
(** The cell can be known: not after the valuation date (a triangle with one origin or one column is never cut). *)
Definition open_cell (t : tri) (o d : nat) : Prop :=
  Nat.min (ax2 (values t)) (ax3 (values t)) = 1%nat \/ ~ future t o d.
(** Start and end of the trend period: as given, or the valuation date and the first origin. *)
Definition given (v : option Z) (default : Z) : Z := match v with Some z => z | None => default end.
Definition real_axis (ax : trend_axis) : Prop := ax <> TOther.
Definition inside (t : tri) (o d : nat) : Prop := (o < ax2 (values t))%nat /\ (d < ax3 (values t))%nat.
(** Cells after the valuation date hold no data. *)
Definition blank_future_r (x : rtri) : Prop :=
  forall i c o d, inside (rt_frame x) o d -> ~ open_cell (rt_frame x) o d -> rt_cell x i c o d = None.
(** Same triangle: same labels and the same cells. *)
Definition same_cells (x y : rtri) : Prop :=
  rt_frame y = rt_frame x /\ forall i c o d, inside (rt_frame x) o d -> rt_cell y i c o d = rt_cell x i c o d.
(** Product of a list of factors. *)
Definition rprod (l : list R) : R := fold_right Rmult 1 l.
