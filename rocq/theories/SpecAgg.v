(** Specification of aggregation along an axis. *)
From Verif Require Export Spec SpecPandas Agg.
Local Open Scope Qc_scope.

Definition axis_length (t : tri) (ax : axis) : nat := axn (axis_num ax) (values t).
(** The [j]-th cell along the axis through a position. *)
Definition along (t : tri) (ax : axis) (i c o d j : nat) : cell :=
  match ax with AxIndex => cel t j c o d | AxColumn => cel t i j o d | AxOrigin => cel t i c j d | AxDev => cel t i c o j end.

(** How many of the first [n] cells hold a number that satisfies [P]. *)
Definition count_if (n : nat) (P : Qc -> bool) (f : nat -> cell) : nat :=
  List.length (filter (fun j => match f j with Some x => P x | None => false end) (seq 0 n)).
Definition n_known (n : nat) (f : nat -> cell) : nat := count_if n (fun _ => true) f.
Definition count (n : nat) : Qc := qc (Z.of_nat n).

(** [m] is the mean of the known cells, [v] their mean squared distance from [m]. *)
Definition is_mean (n : nat) (f : nat -> cell) (m : Qc) : Prop := m * count (n_known n f) = sumn n (fun j => nz (f j)).
Definition is_var (n : nat) (f : nat -> cell) (v : Qc) : Prop :=
  exists m, is_mean n f m /\ v * count (n_known n f) = sumn n (fun j => match f j with Some x => (x - m) * (x - m) | None => 0 end).
(** A largest (smallest) known cell. *)
Definition is_max (n : nat) (f : nat -> cell) (m : Qc) : Prop :=
  (exists j, (j < n)%nat /\ f j = Some m) /\ forall j x, (j < n)%nat -> f j = Some x -> x <= m.
Definition is_min (n : nat) (f : nat -> cell) (m : Qc) : Prop :=
  (exists j, (j < n)%nat /\ f j = Some m) /\ forall j x, (j < n)%nat -> f j = Some x -> m <= x.
(** The middle of the known cells: half way between the lower and the upper one. *)
Definition upper_middle (n : nat) (f : nat -> cell) (x : Qc) : Prop :=
  (2 * count_if n (fun y => Qc_ltb y x) f <= n_known n f < 2 * count_if n (fun y => Qc_leb y x) f)%nat.
Definition lower_middle (n : nat) (f : nat -> cell) (x : Qc) : Prop :=
  (2 * count_if n (fun y => Qc_ltb x y) f <= n_known n f < 2 * count_if n (fun y => Qc_leb x y) f)%nat.
Definition is_median (n : nat) (f : nat -> cell) (m : Qc) : Prop :=
  exists lo hi, lower_middle n f lo /\ upper_middle n f hi /\ m * count 2 = lo + hi.

(** The aggregate of the first [n] cells, where there is one. *)
Definition aggregate_of (a : agg) (n : nat) (f : nat -> cell) (x : Qc) : Prop :=
  match a with
  | ASum => x = sumn n (fun j => nz (f j))
  | AProd => x = prodn n (fun j => match f j with Some q => q | None => 1 end)
  | AMean => is_mean n f x
  | AVar => is_var n f x
  | AMedian => is_median n f x
  | AMax => is_max n f x
  | AMin => is_min n f x
  | ACumsum | ADiff => False
  end.
Definition reducing (a : agg) : Prop := a <> ACumsum /\ a <> ADiff.
(** The cell that holds an aggregate: missing if no cell is known (except for sums
    and products) and if the aggregate is 0. *)
Definition holds_aggregate (a : agg) (n : nat) (f : nat -> cell) (y : cell) : Prop :=
  (n_known n f = 0%nat -> a <> AProd -> y = None) /\
  ((0 < n_known n f)%nat \/ a = AProd \/ a = ASum -> exists x, aggregate_of a n f x /\ stores y x).

(** The result: the axis has one position, everything else is as before.  A single label is
    kept; several become "(All)", "0", the first origin or the valuation date. *)
Record agg_frame (t : tri) (ax : axis) (u : tri) : Prop := {
  af_0 : ax0 (values u) = match ax with AxIndex => 1%nat | _ => ax0 (values t) end;
  af_1 : ax1 (values u) = match ax with AxColumn => 1%nat | _ => ax1 (values t) end;
  af_2 : ax2 (values u) = match ax with AxOrigin => 1%nat | _ => ax2 (values t) end;
  af_3 : ax3 (values u) = match ax with AxDev => 1%nat | _ => ax3 (values t) end;
  af_k : kdims u = match ax with AxIndex => if (1 <? List.length (kdims t))%nat then [map (fun _ => "(All)"%string) (key_labels t)] else kdims t | _ => kdims t end;
  af_v : vdims u = match ax with AxColumn => if (1 <? List.length (vdims t))%nat then ["0"%string] else vdims t | _ => vdims t end;
  af_o : odims u = match ax with AxOrigin => if (1 <? List.length (odims t))%nat then [nth 0 (odims t) 0%Z] else odims t | _ => odims t end;
  af_d : ddims u = match ax with AxDev => if (1 <? List.length (dlist (ddims t)))%nat then Vals [vdate t] else ddims t | _ => ddims t end;
  af_kl : key_labels u = key_labels t; af_vd : vdate u = vdate t; af_cum : is_cumulative u = is_cumulative t; af_pat : is_pattern u = is_pattern t;
  af_og : ograin u = ograin t; af_dg : dgrain u = dgrain t }.
