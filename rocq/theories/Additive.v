(** The incremental additive method.  Definitions only. *)
From Verif Require Export Dev.
From Verif Require Trend.
Local Open Scope Z_scope.

(** core/triangle.py 761-827 [trend] with axis = "valuation", see Trend.v.  [pw b m] is the
    power [b ** (m / 12)]. *)
Definition trend_q (pw : Qc -> Z -> Qc) (t : tri) (rate : Qc) (start stop : option Z) : tri :=
  let a := values t in
  set_values t (Arr (ax0 a) (ax1 a) (ax2 a) (ax3 a) (fun i c o d =>
    cmul (av a i c o d) (cmul (Some (pw (1 + rate)%Qc (Trend.trend_months t Trend.TValuation start stop o d))) (nan_triangle t o d)))).

Record additive := Additive {
  ad_zeta : arr;          (** [zeta_]: one row *)
  ad_incremental : tri;   (** [incremental_] *)
  ad_ldf : tri }.         (** [ldf_] *)

(** development/base.py 15-26: the regression of [y] on [x] with weight [w] over [x ** exponent]. *)
Definition base_fit (avg : list average) (x y w : arr) : result wls :=
  do ex <- bmap2 cmul (Arr 1 1 1 (List.length avg) (fun _ _ _ d => Some (qc (Z.of_nat (exponent (nth d avg Regression)))))) (map_arr known y);
  do xe <- bmap2 (fun a e => cpow a (if Qc_eqb (nz e) 0%Qc then 0 else if Qc_eqb (nz e) 1%Qc then 1 else 2)%nat) x ex;
  do wx <- bmap2 cdiv w xe;
  thru_orig x y (map_arr n2n wx).

(** development/incremental.py 108-176, n_periods = -1 and no drop rule (then [w_] marks the
    known cells: development/base.py 359-375, the bounds are infinite).  [exposure] are the values
    of [sample_weight].  [future = None] stands for None and for 0, see [future_rate]. *)
Definition future_rate (trend : Qc) (future : option Qc) : Qc :=
  match future with
  | Some q => if Qc_eqb q 0%Qc then trend else q
  | None => trend
  end.
Definition additive_fit (pw : Qc -> Z -> Qc) (trend : Qc) (future : option Qc) (average : per_age average) (t : tri) (exposure : option arr) : result additive :=
  match ddims t, exposure with
  | Vals _, _ => Err ValueError
  | _, None => Err AttributeError
  | Ages _, Some e =>
    do xi <- cum_to_incr t;
    let xt := trend_q pw xi trend None None in
    do x <- div_arr xt e;
    let w := map_arr (fun c => Some (if is_nan c then 0%Qc else 1%Qc)) (values x) in
    do reg <- base_fit (validate_assumption xt average) e (values xt) (map_arr n2n w);
    let zeta := wls_slope reg in
    (* 151-166 *)
    let n := ax2 (values x) in
    let y_ := Arr (ax0 zeta) (ax1 zeta) n (ax3 zeta) (fun i c _ d => av zeta i c 0%nat d) in
    do latest <- getitem_valuation x (fun o d => valuation x o d =? vdate x);
    let a := values latest in
    do keeps <- bmap2 cadd (map_arr (fun c => Some (1 - nz c)%Qc) (nan_arr x))
                          (Arr 1 1 (ax2 a) (ax3 a) (fun _ _ o d => Some (nz (known (av a 0%nat 0%nat o d)))));
    do v1 <- bmap2 cmul y_ keeps;
    do v2 <- bmap2 cmul v1 (map_arr (fun c => Some (1 - nz c)%Qc) (nan_arr x));
    do obs <- bmap2 cdiv (values xi) e;
    do v3 <- bmap2 cadd v2 (map_arr (fun c => Some (nz c)) obs);
    let obj0 := set_values x (map_arr n2n v3) in
    let obj := set_vdate obj0 (zmaxl (valuations obj0) (vdate x)) in
    (* 168-175 *)
    do inc <- mul_arr obj e;
    let f := future_rate trend future in
    let inc := trend_q pw inc (1 / (1 + f) - 1)%Qc (Some (vdate t)) (Some (vdate inc)) in
    do ldf <- link_ratio (incr_to_cum obj);
    Ok (Additive zeta inc ldf)
  end.
