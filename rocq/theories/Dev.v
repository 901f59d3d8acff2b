(** The Development estimator: weights, drop rules and the weighted regression.
    Definitions only. *)
From Verif Require Export Arith.
Local Open Scope Z_scope.

(** development/development.py 136-139: the three averages and their exponent. *)
Inductive average := Regression | Volume | Simple.
Definition exponent (a : average) : nat := match a with Regression => 0 | Volume => 1 | Simple => 2 end.

(** A parameter given once, as a list, or as a callable / dict on the ages. *)
Inductive per_age (A : Type) := One (a : A) | Many (l : list A) | ByAge (f : Z -> A).
Arguments One {A} a. Arguments Many {A} l. Arguments ByAge {A} f.

(** core/common.py 202-215 [_validate_assumption] with axis = 3. *)
Definition validate_assumption {A} (t : tri) (v : per_age A) : list A :=
  match v with
  | One a => repeat a (ax3 (values t))
  | Many l => l
  | ByAge f => map f (dlist (ddims t))
  end.

(** development/development.py 76-103: the parameters.  [p_above = One None] is
    the default infinity.  [groupby] is applied beforehand (see GroupBy.v);
    sigma_interpolation is in Mack.v. *)
Record dev_params := DevParams {
  p_n_periods : per_age Z; p_average : per_age average;
  p_drop : option (list (Z * Z)); p_high : option (per_age Z); p_low : option (per_age Z);
  p_preserve : Z; p_drop_val : option (list Z);
  p_above : per_age (option Qc); p_below : per_age Qc; p_fillna : option Qc }.
Definition default_params : dev_params :=
  DevParams (One (-1)) (One Volume) None None None 1 None (One None) (One 0%Qc) None.

(** numpy [a[..., :-1]], [a[..., 1:]], [a[..., k:k+1]]. *)
Definition init3 (a : arr) : arr := Arr (ax0 a) (ax1 a) (ax2 a) (ax3 a - 1) (av a).
Definition tail3 (a : arr) : arr := Arr (ax0 a) (ax1 a) (ax2 a) (ax3 a - 1) (fun i c o d => av a i c o (S d)).
Definition col3 (a : arr) (k : nat) : arr :=
  Arr (ax0 a) (ax1 a) (ax2 a) (if (k <? ax3 a)%nat then 1%nat else 0%nat) (fun i c o _ => av a i c o k).
(** [x * 0 + 1]: 1 where known. *)
Definition known (c : cell) : cell := cadd (cmul c (Some 0%Qc)) (Some 1%Qc).
(** The two-dimensional [nan_triangle] as an array that broadcasts. *)
Definition nan_arr (t : tri) : arr := Arr 1 1 (ax2 (values t)) (ax3 (values t)) (fun _ _ o d => nan_triangle t o d).

(** * n_periods (development/base.py 53-89) *)

(** development/base.py 58-63: number of development periods per origin period. *)
Definition val_offset (dg og : grain) : result Z :=
  match dg, og with
  | GY, GY => Ok 1
  | GS, GY => Ok 2 | GS, GS => Ok 1
  | GQ, GY => Ok 4 | GQ, GS => Ok 2 | GQ, GQ => Ok 1
  | GM, GY => Ok 12 | GM, GS => Ok 6 | GM, GQ => Ok 3 | GM, GM => Ok 1
  | _, _ => Err KeyError
  end.
(** Python indexing of a sequence with a possibly negative position. *)
Definition py_nth (l : list Z) (z : Z) : result Z :=
  let n := Z.of_nat (List.length l) in
  if (z <? - n) || (n <=? z) then Err IndexError
  else Ok (nth (Z.to_nat (if z <? 0 then z + n else z)) l 0).
(** [drop_duplicates().sort_values()] *)
Definition sort_distinct (l : list Z) : list Z := fold_right zinsert [] l.

(** development/base.py 56-73 *)
Definition n_periods_int (t : tri) (n : Z) : result arr :=
  if (n <? 1) || (Z.of_nat (ax2 (values t)) - 1 <=? n)
  then Ok (map_arr known (values t))
  else
    let vs := sort_distinct (filter (fun v => v <=? vdate t) (valuations t)) in
    do off <- val_offset (dgrain t) (ograin t);
    do v <- py_nth vs (- n * off - 1);
    do w <- getitem_valuation t (fun o d => v <=? valuation t o d);
    do q <- tri_op ODiv w w;
    bmap2 cmul (map_arr (fun x => Some (nz x)) (values q)) (nan_arr t).

(** development/base.py 75-89 *)
Definition n_periods_weight (t : tri) (ns : list Z) : result arr :=
  do cols <- mapm (fun p => do a <- n_periods_int t (snd p); Ok (col3 a (fst p)))
                  (combine (seq 0 (List.length ns)) ns);
  match cols with [] => Err ValueError | a :: r => cat_all 3 a r end.

(** * Drop rules (development/base.py 91-342) *)

Fixpoint zfind (x : Z) (l : list Z) : result nat :=
  match l with
  | [] => Err IndexError
  | y :: r => if x =? y then Ok 0%nat else do n <- zfind x r; Ok (S n)
  end.

(** development/base.py 333-342 [_drop]: (origin, age) pairs; an unknown label
    raises IndexError. *)
Definition drop_cells (t : tri) (items : list (Z * Z)) : result arr :=
  do ps <- mapm (fun it => do o <- zfind (fst it) (odims t); do d <- zfind (snd it) (dlist (ddims t)); Ok (o, d)) items;
  Ok (init3 (Arr 1 1 (ax2 (values t)) (ax3 (values t))
    (fun _ _ o d => if existsb (fun p => (fst p =? o)%nat && (snd p =? d)%nat) ps then Some 0%Qc else nan_triangle t o d))).

(** development/base.py 313-331 [_drop_valuation].  A date stands for the
    origin period it lies in; pandas reads the grain "S" as seconds, so no
    valuation matches. *)
Definition period_end (g : grain) (m : Z) : option Z :=
  match g with
  | GY => Some (12 * (m / 12) + 11)
  | GS => None
  | GQ => Some (3 * (m / 3) + 2)
  | GM => Some m
  end.
Definition isin_val (g : grain) (vals : list Z) (v : Z) : bool :=
  existsb (fun m => match period_end g m with Some e => e =? v | None => false end) vals.
Definition drop_valuation (t : tri) (vals : list Z) : result arr :=
  do s <- getitem_valuation t (fun o d => isin_val (ograin t) vals (valuation t o d));
  let a := values s in
  (* 1 - nan_to_num(values[0, 0] * 0 + 1), then ones are appended below and to the right *)
  Ok (init3 (Arr 1 1 (Nat.max (ax2 a) (ax2 (values t))) (Nat.max (ax3 a) (ax3 (values t)))
    (fun _ _ o d => if ((o <? ax2 a) && (d <? ax3 a))%nat
                    then Some (1 - nz (known (av a 0%nat 0%nat o d)))%Qc else Some 1%Qc))).

(** development/base.py 133-158 [drop_array_helper] of [_drop_n]. *)
Definition int_param (n : nat) (v : option (per_age Z)) : result (list Z) :=
  match v with
  | None => Ok (repeat 0 n)
  | Some (One a) => Ok (repeat a n)
  | Some (Many l) => if (List.length l <=? n)%nat then Ok (l ++ repeat 0 (n - List.length l)) else Err IndexError
  | Some (ByAge _) => Err KeyError
  end.
(** development/base.py 243-257, the same for [_drop_x]. *)
Definition bound_param {A} (n : nat) (dflt : A) (v : per_age A) : result (list A) :=
  match v with
  | One a => Ok (repeat a n)
  | Many l => if (List.length l <=? n)%nat then Ok (l ++ repeat dflt (n - List.length l)) else Err IndexError
  | ByAge _ => Err KeyError
  end.

(** numpy sort order: NaN is the largest; [lexsort((x, f))] sorts by f, then by
    x, and is stable. *)
Definition nan_ltb (a b : cell) : bool :=
  match a, b with Some x, Some y => Qc_ltb x y | Some _, None => true | None, _ => false end.
Definition nan_eqb (a b : cell) : bool :=
  match a, b with Some x, Some y => Qc_eqb x y | None, None => true | _, _ => false end.
Definition before (f x : nat -> cell) (p q : nat) : bool :=
  nan_ltb (f p) (f q) ||
  (nan_eqb (f p) (f q) && (nan_ltb (x p) (x q) || (nan_eqb (x p) (x q) && (p <? q)%nat))).
(** [lexsort((x, f)).argsort()]: the place of each entry in the sorted order. *)
Definition rank (n : nat) (f x : nat -> cell) (q : nat) : nat := count_true n (fun p => before f x p q).

(** development/base.py 128-234 [_drop_n]; [lr] are the link ratios, missing
    outside n_periods. *)
Definition drop_n (p : dev_params) (t : tri) (lr : arr) : result arr :=
  let n3 := ax3 lr in
  do hi <- int_param n3 (p_high p);
  do lo <- int_param n3 (p_low p);
  do np <- int_param n3 (Some (p_n_periods p));
  Ok (Arr (ax0 lr) (ax1 lr) (ax2 lr) n3 (fun i c o d =>
    let count := Z.of_nat (count_true (ax2 lr) (fun o => negb (is_nan (av lr i c o d)))) in
    let npd := if nth d np 0 =? -1 then Z.of_nat n3 else nth d np 0 in
    let count_n := if npd <? count then npd else count in
    let mx := count_n - nth d hi 0 in
    let mn := nth d lo 0 in
    let keep_all := mx - mn <? p_preserve p in
    let mx := if keep_all then count_n else mx in
    let mn := if keep_all then 0 else mn in
    let r := Z.of_nat (rank (ax2 lr) (fun o => av lr i c o d) (fun o => av (values t) i c o d) o) in
    Some (if (r <? mx) && (mn - 1 <? r) then 1%Qc else 0%Qc))).

(** development/base.py 237-311 [_drop_x]. *)
Definition inside (lo : Qc) (hi : option Qc) (f : cell) : bool :=
  match f with
  | None => false
  | Some q => Qc_ltb lo q && match hi with None => true | Some h => Qc_ltb q h end
  end.
Definition drop_x (p : dev_params) (lr : arr) : result arr :=
  let n3 := ax3 lr in
  do hi <- bound_param n3 None (p_above p);
  do lo <- bound_param n3 0%Qc (p_below p);
  Ok (Arr (ax0 lr) (ax1 lr) (ax2 lr) n3 (fun i c o d =>
    let ok o := inside (nth d lo 0%Qc) (nth d hi None) (av lr i c o d) in
    let keep_all := Z.of_nat (count_true (ax2 lr) ok) <? p_preserve p in
    Some (if (if keep_all then negb (is_nan (av lr i c o d)) else ok o) then 1%Qc else 0%Qc))).

Definition x_active (p : dev_params) : bool :=
  match p_above p, p_below p with One None, One q => negb (Qc_eqb q 0%Qc) | _, _ => true end.
Definition n_active (p : dev_params) : bool :=
  match p_high p, p_low p with None, None => false | _, _ => true end.

(** development/base.py 91-126 [_drop_adjustment]. *)
Definition drop_adjustment (p : dev_params) (t : tri) (lr : arr) : result arr :=
  let w0 := init3 (nan_arr t) in
  do w1 <- match p_drop p with None => Ok w0 | Some items => do a <- drop_cells t items; bmap2 cmul w0 a end;
  do w2 <- match p_drop_val p with None => Ok w1 | Some vs => do a <- drop_valuation t vs; bmap2 cmul w1 a end;
  do w3 <- (if n_active p then
              do w <- n_periods_weight t (removelast (validate_assumption t (p_n_periods p)));
              do lrw <- bmap2 cmul lr (map_arr n2n w);
              do a <- drop_n p t lrw; bmap2 cmul w2 a
            else Ok w2);
  if x_active p then do a <- drop_x p lr; bmap2 cmul w3 a else Ok w3.

(** * Weighted regression through the origin (utils/weighted_regression.py 75-96) *)

Record wls := WLS { wls_slope : arr; wls_mse : arr; wls_d : arr }.
(** [(y - fitted) * sqrt(w)] squared; the root of a negative weight is NaN. *)
Definition sq_resid (w r : cell) : cell :=
  match w with Some q => if Qc_ltb q 0%Qc then None else cmul w (cmul r r) | None => None end.
Definition nonzero_flag (w : cell) : cell := Some (if Qc_eqb (nz w) 0%Qc then 0%Qc else 1%Qc).
Definition thru_orig (x y w : arr) : result wls :=
  do wx <- bmap2 cmul w x;
  do wxx <- bmap2 cmul wx x;
  do wxxk <- bmap2 cmul wxx (map_arr known y);
  do wxy <- bmap2 cmul wx y;
  let d := map_arr n2n (nansum_axis 2 wxxk) in
  do coef <- bmap2 cdiv (map_arr n2n (nansum_axis 2 wxy)) d;
  do fx <- bmap2 cmul coef x;
  do fit <- bmap2 cmul fx (map_arr known y);
  do r <- bmap2 csub y fit;
  do r2 <- bmap2 sq_resid w r;
  do cnt <- bmap2 cmul (map_arr known y) (map_arr nonzero_flag w);
  let den := map_arr (fun c => n2n (csub c (Some 1%Qc))) (nansum_axis 2 cnt) in
  do mse <- bmap2 cdiv (nansum_axis 2 r2) den;
  Ok (WLS coef mse d).

(** * Development.fit (development/development.py 102-186) *)

(** numpy: nan ** 0 = 1. *)
Definition cpow (x : cell) (e : nat) : cell := if (e =? 0)%nat then Some 1%Qc else option_map (fun q => Qcpow q e) x.

Record dev_fitted := DevFitted { f_ldf : tri; f_w : arr; f_reg : wls }.

(** development/development.py 223-236 [_param_property]: the first origin's row
    replaced by the parameters. *)
Definition param_property (t : tri) (v : arr) : result tri :=
  do obj <- slice_origin t (fun o => nth o (odims t) 0 =? zminl (odims t) (nth 0 (odims t) 0));
  do vals <- bmap2 cmul (Arr (ax0 (values obj)) (ax1 (values obj)) (ax2 (values obj)) (ax3 (values obj) - 1) (fun _ _ _ _ => Some 1%Qc)) v;
  do lr <- link_ratio t;
  Ok (set_cumulative (set_pattern (set_vdate (set_ddims (set_values obj vals) (ddims lr)) ULT_VAL) true) (Some false)).

(** development/development.py 122-186 on a cumulative triangle in development
    view; not modelled: sigma_interpolation (Mack.v), the residual triangle, the
    second weight triangle w_v2_, warnings. *)
Definition dev_fit (p : dev_params) (t : tri) : result dev_fitted :=
  do tv <- match p_fillna p with
           | None => Ok (map_arr n2n (values t))
           | Some q => if Qc_eqb q 0%Qc then Ok (map_arr n2n (values t))
                       else do s <- add_arr t (scalar_arr q); Ok (map_arr n2n (values s))
           end;
  let n3 := ax3 (values t) in
  let avg := firstn (n3 - 1) (validate_assumption t (p_average p)) in
  let ns := firstn (n3 - 1) (validate_assumption t (p_n_periods p)) in
  let x := init3 tv in
  let y := tail3 tv in
  do ex <- bmap2 cmul (Arr 1 1 1 (List.length avg) (fun _ _ _ d => Some (qc (Z.of_nat (exponent (nth d avg Regression))))))
                      (map_arr known y);
  do lr <- bmap2 cdiv y x;
  do w1 <- n_periods_weight t ns;
  do w2 <- drop_adjustment p t lr;
  do w <- bmap2 cmul w1 w2;
  do xe <- bmap2 (fun a e => cpow a (if Qc_eqb (nz e) 0%Qc then 0 else if Qc_eqb (nz e) 1%Qc then 1 else 2)) x ex;
  do wx <- bmap2 cdiv w xe;
  do reg <- thru_orig x y (map_arr n2n wx);
  do ldf <- param_property t (wls_slope reg);
  Ok (DevFitted ldf w reg).
