(** CaseOutstanding (development/outstanding.py).  Definitions only. *)
From Verif Require Export Berq View Dev.
Local Open Scope nat_scope.

(** The columns of [paid_to_incurred]. *)
Record os_names := OSN { on_paid : string; on_incurred : string }.

(** A further aggregate of an aggregate; a number has none. *)
Definition agg_again (f : agg) (ax : axis) (g : aggregated) : result aggregated :=
  match g with AggTri u => aggregate f (Some ax) false u | AggNum _ => Err AttributeError end.
Definition agg_tri (g : aggregated) : result tri := match g with AggTri u => Ok u | AggNum _ => Err AttributeError end.

(** outstanding.py 80-85: [Development(n_periods=...).fit(X.sum(0).sum(1)).w_]. *)
Definition os_params (n : Z) : dev_params := DevParams (One n) (One Volume) None None None 1 None (One None) (One 0%Qc) None.
Definition os_weights (n : Z) (t : tri) : result arr :=
  do s <- aggregate ASum (Some AxIndex) false t;
  do s <- agg_again ASum AxColumn s;
  do u <- agg_tri s;
  do f <- dev_fit (os_params n) u;
  Ok (f_w f).

(** outstanding.py 181-198 [case_to_prior_case_] without [groupby]. *)
Definition os_case_ratio (w : arr) (paid inc : tri) : result tri :=
  do c <- tri_op OSub inc paid;
  do hi <- iloc_dev c (Some 1%Z) None;
  do lo <- iloc_dev c None (Some (-1)%Z);
  do x <- mul_arr hi w;
  do x <- div_arr x (values lo);
  Ok (set_cumulative (set_pattern x true) (Some false)).
(** outstanding.py 200-216 [paid_to_prior_case_]. *)
Definition os_paid_ratio (w : arr) (paid inc : tri) : result tri :=
  do c <- tri_op OSub inc paid;
  do p <- cum_to_incr paid;
  do hi <- iloc_dev p (Some 1%Z) None;
  do lo <- iloc_dev c None (Some (-1)%Z);
  do x <- mul_arr hi w;
  do x <- div_arr x (values lo);
  Ok (set_pattern x true).
(** outstanding.py 87-97: the mean of the ratios other than 0. *)
Definition os_average (r : tri) : result tri :=
  do g <- aggregate AMean (Some AxOrigin) false r;
  do g' <- aggregate AMean (Some AxOrigin) false (set_values r (map_arr n2n (values r)));
  do u <- agg_tri g;
  do u' <- agg_tri g';
  Ok (set_values u (values u')).

(** outstanding.py 126-128: NaN is 1, then numpy [cumprod] along the last axis. *)
Definition or_one (x : cell) : Qc := match x with Some q => q | None => 1%Qc end.
Definition cumprod3 (a : arr) : arr :=
  Arr (ax0 a) (ax1 a) (ax2 a) (ax3 a) (fun i c o d => Some (prodn (S d) (fun k => or_one (av a i c o k)))).
Definition rev3 (a : arr) : arr := Arr (ax0 a) (ax1 a) (ax2 a) (ax3 a) (fun i c o d => av a i c o (ax3 a - 1 - d)).
(** outstanding.py 131-133; a case ratio of 0 has become NaN before (core/slice.py 245-254). *)
Definition recip (x : cell) : cell := cdiv (Some 1%Qc) x.
Definition backward (a : arr) : arr := tail3 (rev3 (cumprod3 (rev3 (map_arr recip a)))).

(** outstanding.py 108-142: the outstanding amounts of all origins at all ages. *)
Definition os_case (case_ldf case : tri) : result tri :=
  let cl := set_vdate case_ldf ULT_VAL in
  do lat <- latest_diagonal case;
  do cl <- tri_op OMul cl lat;
  do cl <- tri_op ODiv cl lat;
  let cl := set_pattern (set_odims cl (odims case)) false in
  let a := values cl in
  let ones := Arr (ax0 a) (ax1 a) (ax2 a) 1 (fun _ _ _ _ => Some 1%Qc) in
  do v <- cat_all 3 ones [a];
  let cl := set_ddims (set_values cl v) (ddims case) in
  let cl := set_vdate cl (zmaxl (valuations cl) (valuation cl 0 0)) in
  do cl <- dev_to_val cl;
  do fw <- getitem_valuation cl (fun o d => vdate case <? valuation cl o d)%Z;
  do bw <- getitem_valuation cl (fun o d => valuation cl o d <=? vdate case)%Z;
  do nans <- tri_op ODiv cl cl;
  do one <- mul_arr lat (scalar_arr 0%Qc);
  do one <- add_arr one (scalar_arr 1%Qc);
  do v <- cat_all 3 (backward (values bw)) [values one; cumprod3 (values fw)];
  do x <- mul_arr (set_values cl v) (values nans);
  do x <- mul_arr x (values lat);
  do x <- val_to_dev x;
  iloc_dev x None (Some (Z.of_nat (List.length (dlist (ddims case))))).

(** outstanding.py 143-156: the cumulative paid amounts of all origins at all ages. *)
Definition os_paid (paid_ldf t paid case : tri) : result tri :=
  do l <- getitem_valuation case (fun o d => valuation case o d =? vdate t)%Z;
  do l <- aggregate ASum (Some AxDev) false l;
  do l <- agg_again ASum AxOrigin l;
  do l <- match l with AggTri u => do q <- tri_op ODiv u u; Ok (AggTri q) | AggNum x => Ok (AggNum (cdiv x x)) end;
  do g <- times paid_ldf l;
  do pat <- bmap2 cmul (tail3 (map_arr (fun x => Some (1 - nz x)%Qc) (nan_arr t))) (values g);
  do lo <- iloc_dev case None (Some (-1)%Z);
  do p <- mul_arr lo pat;
  let p := set_vdate (set_ddims p (dmap (@tl Z) (ddims case))) ULT_VAL in
  do incr <- cum_to_incr paid;
  do s <- tri_op OAdd incr p;
  Ok (incr_to_cum s).

(** outstanding.py 157-161: incurred amounts. *)
Definition os_incurred (t inc case paid : tri) : result tri :=
  do c <- getitem_valuation case (fun o d => vdate t <? valuation case o d)%Z;
  do p <- getitem_valuation paid (fun o d => vdate t <? valuation paid o d)%Z;
  do s <- tri_op OAdd c p;
  tri_op OAdd s inc.

(** outstanding.py 162-179: factors from each age to the last, then from age to age. *)
Definition os_factors (nm : os_names) (t paid inc : tri) : result tri :=
  let cols := filter (fun c => String.eqb c (on_paid nm) || String.eqb c (on_incurred nm)) (vdims t) in
  do dev <- concat [set_vdims paid [on_paid nm]; set_vdims inc [on_incurred nm]] AxColumn;
  do dev <- getitem_cols dev cols;
  do lst <- iloc_dev_int dev (-1)%Z;
  do q <- tri_op ODiv lst dev;
  do q <- iloc_dev q None (Some (-1)%Z);
  do lr <- link_ratio t;
  cum_to_incr (set_cumulative (set_pattern (set_ddims (set_vdate q ULT_VAL) (ddims lr)) true) (Some true)).

Record outstanding := OS {
  os_ldf_ : tri;          (** [ldf_] *)
  os_case_ : tri;         (** [case] *)
  os_paid_ : tri }.       (** [paid] *)
(** outstanding.py 103-179 [_set_ldf], also used by [transform] (218-236). *)
Definition os_set_ldf (nm : os_names) (case_ldf paid_ldf t : tri) : result outstanding :=
  do paid <- column t (on_paid nm);
  do inc <- column t (on_incurred nm);
  do c0 <- tri_op OSub inc paid;
  do case <- os_case case_ldf c0;
  do full <- os_paid paid_ldf t paid case;
  do finc <- os_incurred t inc case full;
  do ldf <- os_factors nm t full finc;
  Ok (OS ldf case full).

Record os_fitted := OSF { of_case_ratio : tri; of_paid_ratio : tri; of_case_ldf : tri; of_paid_ldf : tri; of_set : outstanding }.
(** outstanding.py 62-101 [fit] without [groupby]. *)
Definition os_fit (nm : os_names) (paid_n case_n : Z) (t : tri) : result os_fitted :=
  do pw <- os_weights paid_n t;
  do cw <- os_weights case_n t;
  do paid <- column t (on_paid nm);
  do inc <- column t (on_incurred nm);
  do cr <- os_case_ratio cw paid inc;
  do cl <- os_average cr;
  do pr <- os_paid_ratio pw paid inc;
  do pl <- os_average pr;
  do s <- os_set_ldf nm cl pl t;
  Ok (OSF cr pr cl pl s).
