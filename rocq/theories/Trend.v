(** Trending (core/triangle.py 759-827, adjustments/trend.py 42-73).  Definitions only.
    Trend factors are real powers, so the cells here are reals. *)
From Coq Require Export Reals.
From Verif Require Export Tri.
Local Open Scope Z_scope.

(** A triangle whose cells are reals: [rt_frame] holds its labels, dates and shape (the rational cells of [rt_frame] are not
    used), [rt_cell] its cells, [None] for NaN. *)
Record rtri := RTri { rt_frame : tri; rt_cell : nat -> nat -> nat -> nat -> option R }.

Inductive trend_axis := TOrigin | TValuation | TOther.

(** Product and quotient of floats with NaN; 0/0 is NaN.  (x/0 for x <> 0, which is infinite, cannot arise here.) *)
Definition rmul (a b : option R) : option R :=
  match a, b with Some x, Some y => Some (x * y)%R | _, _ => None end.
Definition rdiv (a b : option R) : option R :=
  match a, b with Some x, Some y => if Req_EM_T y 0%R then None else Some (x / y)%R | _, _ => None end.

(** core/triangle.py 400-401 [is_ultimate]: some cell is valued in or after the year of ULT_VAL. *)
Definition is_ultimate (t : tri) : bool := existsb (fun v => 12 * 2261 <=? v) (valuations t).

(** core/triangle.py 800-808: the date of each cell, the end of the origin period or the valuation. *)
Definition cell_date (t : tri) (ax : trend_axis) (o d : nat) : Z :=
  match ax with
  | TValuation => valuation t o d
  | _ => nth o (odims t) 0 + (match ograin t with GY => 12 | GS => 6 | GQ => 3 | GM => 1 end) - 1
  end.

(** core/triangle.py 796-819: months from the clamped date of the cell to [start].  Dates are month numbers; the code clamps
    timestamps and then takes year and month, which commutes with the clamping. *)
Definition trend_months (t : tri) (ax : trend_axis) (start stop : option Z) (o d : nat) : Z :=
  let s := match start with Some s => s | None => vdate t end in
  let e := match stop with Some e => e | None => nth 0 (odims t) 0 end in
  let (lower, upper) := if s <? e then (e, s) else (s, e) in
  s - Z.max (Z.min lower (cell_date t ax o d)) upper.

(** core/triangle.py 820-821: the months of the ultimate column. *)
Definition lagged_months (t : tri) (ax : trend_axis) (start stop : option Z) (lag : option Z) (o d : nat) : Z :=
  match lag with
  | Some k =>
      if is_ultimate t && (1 <? ax3 (values t))%nat && (d =? ax3 (values t) - 1)%nat
      then trend_months t ax start stop o (ax3 (values t) - 2) + k
      else trend_months t ax start stop o d
  | None => trend_months t ax start stop o d
  end.

(** core/triangle.py 822-827.  The power is that of floats with a base [1 + rate] above 0; for other bases the code gives NaN
    or complex numbers, which are not modelled. *)
Definition trend_factor (rate : R) (months : Z) : R := Rpower (1 + rate) (IZR months / 12).
Definition nan_r (t : tri) (o d : nat) : option R := match nan_triangle t o d with Some _ => Some 1%R | None => None end.
Definition trend (x : rtri) (rate : R) (ax : trend_axis) (start stop lag : option Z) : result rtri :=
  match ax with
  | TOther => Err ValueError
  | _ =>
      let t := rt_frame x in
      Ok (RTri t (fun i c o d => rmul (rt_cell x i c o d)
                                      (rmul (Some (trend_factor rate (lagged_months t ax start stop lag o d))) (nan_r t o d))))
  end.

(** adjustments/trend.py 42-73 [Trend.fit]: every rate with its dates in turn, then the factors as trended over given.
    [dates] is the list after the code has wrapped a single pair or None; a list shorter than the rates raises IndexError. *)
Fixpoint trend_all (x : rtri) (ax : trend_axis) (rates : list R) (dates : list (option Z * option Z)) : result rtri :=
  match rates with
  | [] => Ok x
  | r :: rates =>
      match dates with
      | [] => Err IndexError
      | (s, e) :: dates => do y <- trend x r ax s e None; trend_all y ax rates dates
      end
  end.
Definition trend_fit (x : rtri) (ax : trend_axis) (rates : list R) (dates : list (option Z * option Z)) : result rtri :=
  do y <- trend_all x ax rates dates;
  Ok (RTri (rt_frame x) (fun i c o d => rdiv (rt_cell y i c o d) (rt_cell x i c o d))).
