(** Tails and reserving methods.  Definitions only. *)
From Verif Require Export Dev.
Local Open Scope Z_scope.

(** * Tails (tails/base.py, tails/constant.py) *)

(** tails/base.py 18-21, core/common.py 47-48: months per development period and
    development periods per year. *)
Definition grain_step (g : grain) : Z := match g with GY => 12 | GS => 6 | GQ => 3 | GM => 1 end.
Definition per_year (g : grain) : nat := match g with GY => 1 | GS => 2 | GQ => 4 | GM => 12 end.

(** tails/base.py 13-32 [fit]: [years] is int(projection_period / 12); columns of
    ones are appended for the projected periods and one more.  The statistics
    sigma_ and std_err_ (33-41) are not modelled here. *)
Definition tail_base (t : tri) (years : nat) (ldf : tri) : result tri :=
  match ddims ldf with
  | Vals _ => Err TypeError
  | Ages l =>
    let n := S (per_year (dgrain t) * years) in
    let a := values ldf in
    Ok (set_ddims (set_values ldf (Arr (ax0 a) (ax1 a) (ax2 a) (ax3 a + n)
          (fun i c o d => if (d <? ax3 a)%nat then av a i c o d else Some 1%Qc)))
         (Ages (l ++ map (fun k => (Z.of_nat k + 1) * grain_step (dgrain t) + last l 0) (seq 0 n))))
  end.

(** tails/base.py 85-106 [_apply_decay] with a number as tail: [nx] is the number
    of ages of the triangle, [seed] the first factor less one, which the code
    computes with logarithms and square roots (75-83) and which is arbitrary
    here.  Only 1000 powers of the decay are generated. *)
Definition decay_factor (tail decay seed : Qc) (k : nat) : Qc :=
  if Qc_eqb tail 1%Qc then 1%Qc else (1 + seed * Qcpow decay k)%Qc.
Definition apply_decay (nx : nat) (tail decay seed : Qc) (attach : nat) (ldf : tri) : result tri :=
  let a := values ldf in
  let n := ax3 a in
  let rng := (if (attach =? 0)%nat then n - nx + 1 else n - attach)%nat in
  if (1000 <? rng)%nat then Err ValueError else
  let f := decay_factor tail decay seed in
  Ok (set_values ldf (Arr (ax0 a) (ax1 a) (ax2 a) n (fun i c o d =>
    if (d <? n - rng)%nat then av a i c o d
    else if (d =? n - 1)%nat then cdiv (Some tail) (Some (prodn (rng - 1) f))
    else Some (f (d - (n - rng))%nat)))).

(** Position of the first label that satisfies a test (xp.min(xp.where(...)));
    ValueError if there is none. *)
Fixpoint zfirst (f : Z -> bool) (l : list Z) : result nat :=
  match l with
  | [] => Err ValueError
  | x :: r => if f x then Ok 0%nat else do n <- zfirst f r; Ok (S n)
  end.

(** tails/constant.py 47-79: the parameters and [fit]; [attachment_age] is
    ignored if it is None or 0. *)
Record tail_params := TailParams {
  tp_tail : Qc; tp_decay : Qc; tp_seed : Qc; tp_attach : option Z; tp_years : nat }.
Definition default_tail : tail_params := TailParams 1%Qc (1 / qc 2)%Qc 0%Qc None 1.
Definition tail_constant (p : tail_params) (t ldf : tri) : result tri :=
  do l <- tail_base t (tp_years p) ldf;
  do k <- match tp_attach p with
          | None => Ok (List.length (dlist (ddims t)) - 1)%nat
          | Some a => if a =? 0 then Ok (List.length (dlist (ddims t)) - 1)%nat
                      else zfirst (fun x => a <=? x) (dlist (ddims t))
          end;
  apply_decay (ax3 (values t)) (tp_tail p) (tp_decay p) (tp_seed p) k l.

(** * MethodBase (methods/base.py) *)

(** methods/base.py 18-24 [validate_X]: the factors attached to the triangle, or
    those of the default Development estimator; a tail of one is added if the
    last age has no factor.  The triangle is cumulative and in development view
    (otherwise Development converts a copy first). *)
Definition validate_X (t : tri) (ldf : option tri) : result tri :=
  do l <- match ldf with Some l => Ok l | None => do f <- dev_fit default_params t; Ok (f_ldf f) end;
  if (List.length (dlist (ddims t)) - List.length (dlist (ddims l)) =? 1)%nat
  then tail_constant default_tail t l else Ok l.

(** [t.iloc[0, 0]] *)
Definition iloc_first (t : tri) : result tri :=
  get_idx t (Slice (Some 0) (Some 1) None) (Slice (Some 0) (Some 1) None) all_slice all_slice.

(** core/common.py 79-83 *)
Definition cdf_of (ldf : tri) : tri := incr_to_cum ldf.

(** methods/base.py 26-40 [_align_cdf], dense backend. *)
Definition align_cdf (t ldf : tri) (sw : option tri) : result tri :=
  do cdf <- iloc_dev (cdf_of ldf) None (Some (Z.of_nat (ax3 (values t))));
  do a0 <- iloc_first t;
  do a1 <- mul_arr a0 (scalar_arr 0%Qc);
  do a <- add_arr a1 (nan_arr a1);
  do ta <- tri_op OMul t a;
  do x <- match sw with
          | None => Ok ta
          | Some s => do sa <- tri_op OMul s a; tri_op OAdd ta sa
          end;
  do q <- tri_op ODiv x x;
  do r <- tri_op OMul q cdf;
  latest_diagonal (set_vdate r (vdate t)).

(** methods/base.py 42-57 [_set_ult_attr]; numbers are finite here. *)
Definition set_ult_attr (u : tri) : tri :=
  set_vdate (set_cumulative (set_ddims u (Vals [ULT_VAL])) (Some true)) ULT_VAL.

(** methods/chainladder.py 69-79 [_get_ultimate] on a cumulative triangle. *)
Definition cl_ultimate (t ldf : tri) : result tri :=
  do ld <- latest_diagonal t;
  do cdf <- align_cdf t ldf None;
  do u <- tri_op OMul ld cdf;
  Ok (set_ult_attr u).

(** methods/chainladder.py 34-51 [fit] and core/common.py 93-104 [ibnr_]. *)
Definition cl_fit (t : tri) (ldf : option tri) : result (tri * tri) :=
  do l <- validate_X t ldf; do u <- cl_ultimate t l; Ok (l, u).
Definition ibnr_of (t ult : tri) : result tri :=
  do ld <- latest_diagonal t; do r <- tri_op OSub ult ld; Ok (set_vdims r (vdims ult)).

(** methods/benktander.py 106-135 [_get_ultimate] on a cumulative triangle.  The
    1e-16 added in numerator and denominator of an exponent (127) avoids 0/0; the
    quotient is 1 for every representable 1 - 1/cdf and is taken as 1 here. *)
Definition unreported (c : cell) : cell := csub (Some 1%Qc) (cdiv (Some 1%Qc) (n2n c)).
Definition bk_power (c : cell) (k : nat) : Qc := nz (option_map (fun q => Qcpow q k) (unreported c)).
Definition benktander_ultimate (n_iters : nat) (t ldf expectation : tri) : result tri :=
  do ld <- latest_diagonal t;
  do cdf <- align_cdf t ldf (Some expectation);
  do cdf <- sort_index cdf;
  do ld <- sort_index ld;
  do ex <- sort_index expectation;
  do u <- sort_index t;
  do a <- bmap2 (fun c x => Some (sumn n_iters (bk_power c) * nz x)%Qc) (values cdf) (values ld);
  do b <- bmap2 (fun c x => Some (bk_power c n_iters * nz x)%Qc) (values cdf) (values ex);
  do v <- bmap2 (fun x y => n2n (cadd x y)) a b;
  Ok (set_ult_attr (set_values u v)).

(** methods/benktander.py 89-104 with apriori_sigma = 0; methods/bornferg.py
    (n_iters = 1) and methods/expectedloss.py (n_iters = 0). *)
Definition benktander (n_iters : nat) (apriori : Qc) (t ldf sw : tri) : result tri :=
  do e <- mul_arr sw (scalar_arr apriori); benktander_ultimate n_iters t ldf e.

(** * Cape Cod (methods/capecod.py) *)

(** numpy [swapaxes(a, -1, -2)] and [nansum(a, -1)] with the summed axis kept. *)
Definition swap23 (a : arr) : arr := Arr (ax0 a) (ax1 a) (ax3 a) (ax2 a) (fun i c o d => av a i c d o).
Definition nansum3 (a : arr) : arr :=
  Arr (ax0 a) (ax1 a) (ax2 a) 1 (fun i c o _ => Some (sumn (ax3 a) (fun d => nz (av a i c o d)))).
(** capecod.py 109-111: decay ** |i - j|. *)
Definition decay_matrix (decay : Qc) (n : nat) : arr :=
  Arr 1 1 n n (fun _ _ i j => Some (Qcpow decay (if (i <? j)%nat then j - i else i - j)%nat)).
(** The trend factors of the origins (capecod.py 106, 155-169), given as a
    parameter [tr]. *)
Definition trend_arr (tr : nat -> Qc) (n : nat) : arr := Arr 1 1 n 1 (fun _ _ o _ => Some (tr o)).
(** capecod.py 93-127 on a cumulative triangle without groupby and without
    on-level factors (which are then 1). *)
Definition capecod_aprioris (decay : Qc) (tr : nat -> Qc) (t ldf sw : tri) : result (tri * tri) :=
  do latest <- latest_diagonal t;
  do cdf <- align_cdf t ldf (Some sw);
  do re <- tri_op ODiv sw cdf;
  let ta := trend_arr tr (ax2 (values t)) in
  do we <- bmap2 cmul (swap23 (values re)) (decay_matrix decay (ax2 (values sw)));
  do x <- bmap2 cmul (values latest) ta;
  do tu <- bmap2 cdiv x (values re);
  do p <- bmap2 cmul we (swap23 tu);
  do ap <- bmap2 cdiv (nansum3 p) (nansum3 we);
  do det <- div_arr (set_values re ap) ta;
  Ok (set_ult_attr (set_values re ap), set_ult_attr det).
(** capecod.py 66-91 [fit]. *)
Definition capecod (n_iters : nat) (decay : Qc) (tr : nat -> Qc) (t ldf sw : tri) : result tri :=
  do a <- capecod_aprioris decay tr t ldf sw;
  do e <- tri_op OMul sw (snd a);
  benktander n_iters 1%Qc t ldf e.

(** * Run-off (core/common.py 14-58) *)

(** core/pandas.py 297-298 and core/triangle.py [development.setter]: a copy with
    one age label. *)
Definition with_age (t : tri) (a : Z) : tri := set_ddims t (Ages [a]).

(** core/common.py 14-26 [_get_full_expectation]. *)
Definition full_expectation (cdf ult : tri) (cumulative : bool) : result tri :=
  do full <- tri_op ODiv ult cdf;
  if cumulative then concat [full; with_age ult ULT_AGE] AxDev
  else
    do lst <- iloc_dev_int full (-1);
    do tail_ <- tri_op OSub lst ult;
    do inc <- cum_to_incr full;
    concat [inc; with_age tail_ ULT_AGE] AxDev.

(** numpy [cumprod(axis=3)]: missing from the first missing entry on. *)
Fixpoint cprod (n : nat) (f : nat -> cell) : cell :=
  match n with O => Some 1%Qc | S n => cmul (cprod n f) (f n) end.
Definition cumprod3 (a : arr) : arr :=
  Arr (ax0 a) (ax1 a) (ax2 a) (ax3 a) (fun i c o d => cprod (S d) (fun k => av a i c o k)).

(** [ddims + step] with the last label replaced by 9999. *)
Definition shift_ages (step : Z) (d : ddim) : result ddim :=
  match d with
  | Ages l => Ok (Ages (map (fun a => a + step) (removelast l) ++ [ULT_AGE]))
  | Vals _ => Err TypeError
  end.

(** core/common.py 29-58 [_get_full_triangle] for a cumulative triangle. *)
Definition emergence_of (t ldf ult : tri) : result tri :=
  do one <- tri_op ODiv ult ult;
  do em <- tri_op OMul ldf one;
  do lo <- getitem_valuation em (fun o d => valuation em o d <? vdate t);
  do hi <- getitem_valuation em (fun o d => vdate t <=? valuation em o d);
  do lo0 <- mul_arr lo (scalar_arr 0%Qc);
  do lo1 <- add_arr lo0 (scalar_arr 1%Qc);
  do em <- tri_op OAdd lo1 hi;
  let v := map_arr (fun c => csub c (Some 1%Qc)) (cumprod3 (values em)) in
  do dd <- shift_ages (grain_step (dgrain em)) (ddims em);
  do q <- bmap2 cdiv v (map_arr n2n (Arr (ax0 v) (ax1 v) (ax2 v) 1 (fun i c o _ => av v i c o (ax3 v - 1)%nat)));
  Ok (set_values (set_ddims (set_vdate em ULT_VAL) dd) q).
Definition full_triangle (t ldf ult : tri) : result tri :=
  do em <- emergence_of t ldf ult;
  do ld <- latest_diagonal t;
  do ibnr <- tri_op OSub ult ld;
  do e <- tri_op OMul em ibnr;
  do run <- tri_op OAdd ld e;
  do run <- getitem_valuation run (fun o d => vdate t <? valuation run o d);
  tri_op OAdd t (set_cumulative run (Some true)).
(** core/common.py 29-58 for an incremental triangle: the run-off is built from the cumulative data and
    the sum is made incremental. ([X.valuation_date] and [X.ldf_] are those of the data in both cases.) *)
Definition full_triangle_incr (t ldf ult : tri) : result tri :=
  do r <- full_triangle (incr_to_cum t) ldf ult;
  cum_to_incr r.
