(** MackChainladder (methods/mack.py), the standard errors of Development (development/development.py 158-176,
    utils/weighted_regression.py) and of a tail (tails/base.py 32-40, 108-152).  Definitions only.
    Standard errors are square roots, so the cells here are reals. *)
From Verif Require Export Trend Methods.
Local Open Scope R_scope.

(** * Floats with NaN *)
Definition rv (q : Qc) : R := Q2R (this q).
Definition r_of (c : cell) : option R := option_map rv c.
(** [nan_to_num] *)
Definition nzr (x : option R) : R := match x with Some v => v | None => 0 end.
(** [num_to_nan] *)
Definition rn2n (x : option R) : option R := match x with Some v => if Req_EM_T v 0 then None else x | None => None end.
Definition radd (a b : option R) : option R := match a, b with Some x, Some y => Some (x + y) | _, _ => None end.
Definition rsub (a b : option R) : option R := match a, b with Some x, Some y => Some (x - y) | _, _ => None end.
(** numpy [sqrt] and [log]; the logarithm of 0, which is infinite, is not taken below. *)
Definition rsqrt (x : option R) : option R := match x with Some v => if Rlt_dec v 0 then None else Some (sqrt v) | None => None end.
Definition rlog (x : option R) : option R := match x with Some v => if Rlt_dec 0 v then Some (ln v) else None | None => None end.
Fixpoint rsumn (n : nat) (f : nat -> R) : R := match n with O => 0 | S k => rsumn k f + f k end.
(** [nansum], [nanmean] over the first [n] entries *)
Definition rnansum (n : nat) (f : nat -> option R) : R := rsumn n (fun k => nzr (f k)).
Definition rcount (n : nat) (f : nat -> option R) : R := rsumn n (fun k => match f k with Some _ => 1 | None => 0 end).
Definition rnanmean (n : nat) (f : nat -> option R) : option R := rdiv (Some (rnansum n f)) (Some (rcount n f)).
(** One number per index row, column and age. *)
Definition rrow := nat -> nat -> nat -> option R.

(** * Regression lines (utils/weighted_regression.py 41-73, 112-164) *)

(** weighted_regression.py 41-73 [_fit_OLS] against 1, 2, 3, ...: slope and intercept. *)
Definition ols (n : nat) (w : nat -> R) (y : nat -> option R) : option R * option R :=
  let hide (z : nat -> option R) k := if Req_EM_T (w k) 0 then None else z k in
  let x := hide (fun k => Some (INR (S k))) in
  let y := hide y in
  let wx k := rmul (Some (w k)) (x k) in
  let slope := rdiv (rn2n (rsub (Some (rnansum n (fun k => rmul (wx k) (y k)))) (rmul (Some (rnansum n wx)) (rnanmean n y))))
                    (rn2n (rsub (Some (rnansum n (fun k => rmul (wx k) (x k)))) (rmul (rnanmean n x) (Some (rnansum n wx))))) in
  (slope, rsub (rnanmean n y) (rmul slope (rnanmean n x))).
(** [slope * x + intercept] *)
Definition line (l : option R * option R) (x : option R) : option R := radd (rmul x (fst l)) (snd l).

(** 1e-320 *)
Definition tiny : R := / 10 ^ 320.
Definition no_zero (v : R) : R := if Req_EM_T v 0 then tiny else v.
Definition present (x : option R) : R := match x with Some _ => 1 | None => 0 end.
(** weighted_regression.py 112-124 [loglinear_interpolation] of [n] entries, none negative. *)
Definition loglinear (n : nat) (y : nat -> option R) (k : nat) : option R :=
  let ly j := option_map (fun v => ln (no_zero v)) (y j) in
  let w j := present (ly j) in
  let fill := rmul (option_map exp (line (ols n w ly) (Some (INR (S k))))) (Some (1 - w k)) in
  rn2n (Some (nzr (y k) + nzr fill)).
(** weighted_regression.py 126-164 [mack_interpolation]. *)
Definition rmin (a b : option R) : option R := match a, b with Some x, Some y => Some (Rmin x y) | _, _ => None end.
Definition rpow (a : option R) (n : nat) : option R := option_map (fun x => x ^ n) a.
Definition mack_fill (y : nat -> option R) (k : nat) : option R :=
  let ly j := option_map no_zero (y j) in
  let w j := present (ly j) in
  let fill := if (k <? 2)%nat then w k
              else nzr (rsqrt (option_map Rabs (rmin (rdiv (rpow (ly (k - 1)%nat) 4) (rpow (ly (k - 2)%nat) 2))
                                                     (rmin (rpow (ly (k - 2)%nat) 2) (rpow (ly (k - 1)%nat) 2))))) in
  rn2n (Some (nzr (ly k) + fill * (1 - w k))).

(** * Development (development/development.py 158-176) *)

Inductive interpolation := LogLinear | MackFill.
(** weighted_regression.py 90, 93: before any fill. *)
Definition sigma_raw (g : wls) : rrow := fun i c d => rsqrt (r_of (av (wls_mse g) i c 0%nat d)).
Definition se_raw (g : wls) : rrow := fun i c d => rsqrt (rdiv (r_of (av (wls_mse g) i c 0%nat d)) (r_of (av (wls_d g) i c 0%nat d))).
(** development.py 161-162: sigma_ is filled unless n_periods = 1. *)
Definition dev_sigma (p : dev_params) (how : interpolation) (t : tri) (f : dev_fitted) : rrow := fun i c d =>
  match p_n_periods p with
  | One 1%Z => sigma_raw (f_reg f) i c d
  | _ => match how with
         | LogLinear => loglinear (ax3 (values t) - 1) (sigma_raw (f_reg f) i c) d
         | MackFill => mack_fill (sigma_raw (f_reg f) i c) d
         end
  end.
(** numpy power with exponent 0, 1 or 2 (nan ** 0 = 1). *)
Definition npow (x : option R) (n : nat) : option R := match n with O => Some 1 | _ => rpow x n end.
(** development.py 169-173: a missing std_err_ becomes sigma over the root of the first origin's amount to the power
    2 - exponent; the exponent is 0 where the next amount of the first origin is missing.  Without fillna. *)
Definition dev_std_err (p : dev_params) (how : interpolation) (t : tri) (f : dev_fitted) : rrow := fun i c d =>
  let avg := nth d (validate_assumption t (p_average p)) Regression in
  let e := if is_nan (n2n (cel t i c 0 (S d))) then 0%nat else exponent avg in
  match se_raw (f_reg f) i c d with
  | Some v => Some v
  | None => Some (nzr (rdiv (dev_sigma p how t f i c d) (rsqrt (npow (r_of (n2n (cel t i c 0 d))) (2 - e)))))
  end.

(** * Tails (tails/base.py) *)

(** tails/base.py 33-37: one more entry, 0 (missing if the last is). *)
Definition tail_row (n : nat) (s : rrow) : rrow := fun i c d => if (d <? n)%nat then s i c d else rmul (s i c (n - 1)%nat) (Some 0).
(** The tail: the product of the last [k] factors; tails/base.py 143-145, 154-165. *)
Definition tail_of (l : tri) (k i c : nat) : cell := cprod k (fun j => cel l i c 0 (ax3 (values l) - k + j)).
(** tails/base.py 146: [tail.max() > 1]. *)
Definition some_tail (l : tri) (k : nat) : bool :=
  let ts := List.concat (map (fun i => map (fun c => tail_of l k i c) (seq 0 (ax1 (values l)))) (seq 0 (ax0 (values l)))) in
  forallb (fun x => negb (is_nan x)) ts && existsb (fun x => match x with Some q => Qc_ltb 1%Qc q | None => false end) ts.
(** tails/base.py 125: the average of the tails is 1. *)
Definition no_tail (l : tri) (k : nat) : bool :=
  match fold_right (fun i acc => fold_right (fun c acc => cadd (tail_of l k i c) acc) acc (seq 0 (ax1 (values l)))) (Some 0%Qc) (seq 0 (ax0 (values l))) with
  | Some q => Qc_eqb q (qc (Z.of_nat (ax0 (values l) * ax1 (values l)))) | None => false end.
(** tails/base.py 136-149 [_get_tail_weighted_time_period]: [l0] are the factors before the tail, [l] those with it. *)
Definition tail_time (l0 l : tri) (k i c : nat) : option R :=
  let y d := match r_of (cel l0 i c 0 d) with Some v => if Rle_dec v 1 then None else Some (ln (v - 1)) | None => None end in
  let reg := ols (ax3 (values l0)) (fun _ => 1) y in
  let tail := if some_tail l k then r_of (tail_of l k i c) else Some (1001 / 1000) in
  rdiv (rsub (rlog (rsub tail (Some 1))) (snd reg)) (fst reg).
(** tails/base.py 108-134 [_get_tail_stats] of sigma_ or std_err_ [s] with [n] entries: the last one is replaced. *)
Definition tail_stat (n : nat) (zero_missing : bool) (s0 s : rrow) (l0 l : tri) (k : nat) : rrow := fun i c d =>
  if (d <? n)%nat then s i c d
  else
    let y j := rlog (if zero_missing then rn2n (s0 i c j) else s0 i c j) in
    let v := option_map exp (line (ols n (fun _ => 1) y) (tail_time l0 l k i c)) in
    if no_tail l k then rmul v (Some 0) else v.
Definition tail_sigma (t l0 l : tri) (years : nat) (s : rrow) : rrow :=
  let n := (ax3 (values t) - 1)%nat in tail_stat n false s (tail_row n s) l0 l (per_year (dgrain t) * years + 1).
Definition tail_std_err (t l0 l : tri) (years : nat) (s : rrow) : rrow :=
  let n := (ax3 (values t) - 1)%nat in tail_stat n true s (tail_row n s) l0 l (per_year (dgrain t) * years + 1).

(** * MackChainladder (methods/mack.py) *)

(** What the fitted development and tail attach to the triangle.  sigma_ and std_err_ have one entry per age of the
    triangle, average_ and w_ one less.  Estimators such as DevelopmentConstant have no sigma_. *)
Record mack_attrs := MackAttrs { ma_ldf : tri; ma_sigma : option rrow; ma_se : rrow; ma_average : list average; ma_w : arr }.

(** mack.py 95-116 [_get_full_std_err_].  [np.concatenate] refuses weights that differ by index or column. *)
Definition full_std_err (t full : tri) (a : mack_attrs) (sigma : rrow) : result (nat -> nat -> nat -> nat -> R) :=
  let m := ax3 (values t) in
  let w := ma_w a in
  if ((ax0 w =? 1) && (ax1 w =? 1) && (ax2 w =? ax2 (values t)) && (ax3 w + 1 =? m))%nat then
    Ok (fun i c o d =>
      let val := exponent (nth (Nat.min d (List.length (ma_average a) - 1)) (ma_average a) Regression) in
      let weight := rsqrt (npow (r_of (cel full i c o d)) (2 - val)) in
      let wt := if (d <? ax3 w)%nat then match r_of (av w 0%nat 0%nat o d) with Some v => v | None => 1 end else 1 in
      nzr (rdiv (sigma i c d) (rn2n weight)) * wt)
  else Err ValueError.

(** mack.py 143-146: the factor from each age of the triangle to the next, the last one to ultimate. *)
Definition mack_factor (t l : tri) (i c d : nat) : option R :=
  r_of (if (d <? ax3 (values t) - 1)%nat then cel l i c 0 d else cel (cdf_of l) i c 0 (ax3 (values t) - 1)).
(** mack.py 143-148: the number of steps taken.  [extend = 1] makes the slice [-extend : -extend + 1] empty, and then
    the last step adds no column. *)
Definition mack_steps (t l : tri) : nat := if (ax3 (values l) =? ax3 (values t))%nat then (ax3 (values t) - 1)%nat else ax3 (values t).
(** mack.py 147-155: the recursion of one origin. *)
Fixpoint risk (f t1 : nat -> option R) (keep : nat -> R) (n : nat) : R :=
  match n with
  | O => 0
  | S d => match t1 d, f d with
           | Some a, Some b => sqrt (a ^ 2 + (b * risk f t1 keep d) ^ 2) * keep (S d)
           | _, _ => 0
           end
  end.
(** mack.py 132-133: 0 where the data is known, 1 otherwise and in the last column. *)
Definition keep_of (t : tri) (o d : nat) : R :=
  if (d <? ax3 (values t))%nat then 1 - match nan_triangle t o d with Some _ => 1 | None => 0 end else 1.
(** mack.py 156-160: labels of the result (the cells of the frame are not used). *)
Definition risk_frame (t l full : tri) (os : list Z) : tri :=
  let m := ax3 (values t) in
  let ages := dlist (ddims full) in
  Tri (kdims t) (key_labels t) (vdims t) os (Ages (firstn m ages ++ [nth (List.length ages - 1) ages 0%Z]))
    (Arr (ax0 (values t)) (ax1 (values t)) (List.length os) (S (mack_steps t l)) (fun _ _ _ _ => None))
    (vdate full) (is_cumulative t) (is_pattern t) (ograin t) (dgrain t).

(** mack.py 123-130: the sum over the origins of the amounts not yet final. *)
Definition open_sum (t full : tri) (se : rrow) : result rrow :=
  do past <- getitem_valuation t (fun o d => valuation t o d <? vdate t)%Z;
  do x <- tri_op OSub full past;
  do x <- iloc_dev x None (Some (Z.of_nat (ax3 (values t))));
  Ok (fun i c d => Some (rnansum (ax2 (values x)) (fun o => rmul (r_of (cel x i c o d)) (se i c d)))).

Record mack_risks := MackRisks { mr_parameter : rtri; mr_process : rtri; mr_total_parameter : rtri }.
(** mack.py 54-67 [fit], 121-161 [_mack_recursion]. *)
Definition mack_fit (t : tri) (a : mack_attrs) : result (tri * mack_risks) :=
  let l := ma_ldf a in
  do ult <- cl_ultimate t l;
  match ma_sigma a with
  | None => Err ValueError
  | Some sigma =>
      do full <- full_triangle t l ult;
      do fse <- full_std_err t full a sigma;
      do os <- open_sum t full (ma_se a);
      let f := mack_factor t l in
      let amt i c o d := nzr (r_of (cel full i c o d)) in
      let run t1 := RTri (risk_frame t l full (odims t)) (fun i c o d => Some (risk (f i c) (t1 i c o) (keep_of t o) d)) in
      Ok (full, MackRisks
        (run (fun i c o d => rmul (Some (amt i c o d)) (ma_se a i c d)))
        (run (fun i c o d => Some (amt i c o d * fse i c o d)))
        (RTri (risk_frame t l full (firstn 1 (odims t))) (fun i c _ d => Some (risk (f i c) (os i c) (fun _ => 1) d))))
  end.

(** mack.py 163-165 [mack_std_err_]; adding triangles turns 0 into a missing value. *)
Definition mack_std_err (r : mack_risks) : rtri :=
  let p := mr_parameter r in let q := mr_process r in
  RTri (rt_frame p) (fun i c o d => rsqrt (rn2n (Some (nzr (rt_cell p i c o d) ^ 2 + nzr (rt_cell q i c o d) ^ 2)))).
(** mack.py 117-119 [total_process_risk_] *)
Definition total_process_risk (r : mack_risks) : rtri :=
  let q := mr_process r in
  let t := rt_frame q in
  RTri (set_odims t (firstn 1 (odims t)))
    (fun i c _ d => rsqrt (rn2n (Some (rnansum (ax2 (values t)) (fun o => rpow (rt_cell q i c o d) 2))))).
(** mack.py 167-177 [total_mack_std_err_]: one number per index row and column, from the last column. *)
Definition total_mack_std_err (r : mack_risks) (i c : nat) : option R :=
  let q := total_process_risk r in let p := mr_total_parameter r in
  let d := (ax3 (values (rt_frame q)) - 1)%nat in
  rsqrt (rn2n (Some (nzr (rt_cell q i c 0%nat d) ^ 2 + nzr (rt_cell p i c 0%nat d) ^ 2))).
