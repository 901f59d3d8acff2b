(** TailCurve (tails/curve.py 60-222).  Definitions only.  Fitted factors are exponentials, so the cells of the result are
    reals. *)
From Verif Require Export Mack.
Local Open Scope R_scope.

Inductive curve := Exponential | InversePower.
(** The parameter [fit_period]: ages, or a list of booleans.  (The deprecated slice is not modelled.) *)
Inductive fit_period := FSpan (start stop : option Z) | FList (l : list bool).
Record curve_params := CurveParams {
  cp_curve : curve; cp_fit : fit_period; cp_extrap : nat; cp_raise : bool; cp_attach : option Z;
  cp_low : option Qc; cp_high : option Qc; cp_years : nat }.

(** weighted_regression.py 41-73 [_fit_OLS] against any [x]; with 1, 2, 3, ... it is [ols]. *)
Definition ols_x (n : nat) (w x : nat -> R) (y : nat -> option R) : option R * option R :=
  let hide (z : nat -> option R) k := if Req_EM_T (w k) 0 then None else z k in
  let x := hide (fun k => Some (x k)) in
  let y := hide y in
  let wx k := rmul (Some (w k)) (x k) in
  let slope := rdiv (rn2n (rsub (Some (rnansum n (fun k => rmul (wx k) (y k)))) (rmul (Some (rnansum n wx)) (rnanmean n y))))
                    (rn2n (rsub (Some (rnansum n (fun k => rmul (wx k) (x k)))) (rmul (rnanmean n x) (Some (rnansum n wx))))) in
  (slope, rsub (rnanmean n y) (rmul slope (rnanmean n x))).

(** curve.py 118-131: [int(age / grain - 1)]. *)
Definition period_position (g : grain) (a : Z) : Z := Z.quot (a - grain_step g) (grain_step g).
(** curve.py 110-131, 136-140: the positions fitted, of [n] factors. *)
Definition fit_positions (g : grain) (f : fit_period) (n : nat) : result (nat -> bool) :=
  match f with
  | FSpan a b =>
      do ids <- slice_positions (option_map (period_position g) a) (option_map (period_position g) b) None n;
      Ok (fun d => existsb (Nat.eqb d) ids)
  | FList l => if (List.length l =? n)%nat then Ok (fun d => nth d l false)
               else if (List.length l =? 1)%nat then Ok (fun _ => nth 0 l false) else Err ValueError
  end.
(** curve.py 141-161: the limits used; the lower one is at least 1. *)
Definition low_limit (p : curve_params) : Qc :=
  match cp_low p with Some q => if Qc_ltb q 1%Qc then 1%Qc else q | None => 1%Qc end.
Definition high_limit (p : curve_params) : option Qc :=
  match cp_high p with Some q => if Qc_leb q (low_limit p) then None else Some q | None => None end.
(** curve.py 162-168: a factor set aside when errors are ignored; missing factors compare as false. *)
Definition set_aside (p : curve_params) (f : cell) : bool :=
  match f with
  | None => false
  | Some q => Qc_leb q (low_limit p) || match high_limit p with Some h => Qc_ltb h q | None => false end
  end.
(** curve.py 169-170 *)
Definition below_one (f : cell) : bool := match f with Some q => Qc_ltb q 1%Qc | None => false end.
(** curve.py 171-177: logarithms and regression of one row.  A factor of exactly 1 has an infinite logarithm, which makes
    slope and intercept NaN. *)
Definition curve_line (p : curve_params) (use : nat -> bool) (n : nat) (f : nat -> cell) : option R * option R :=
  let aside d := negb (cp_raise p) && set_aside p (f d) in
  let w d := if use d && negb (aside d) then 1 else 0 in
  let y d := if aside d then Some (ln (rv 1%Qc / 100)) else rlog (rsub (r_of (f d)) (Some 1)) in
  let x d := match cp_curve p with Exponential => INR (S d) | InversePower => ln (INR (S d)) end in
  if existsb (fun d => use d && negb (aside d) && match f d with Some q => Qc_eqb q 1%Qc | None => false end) (seq 0 n)
  then (None, None) else ols_x n w x y.
(** curve.py 202-209 [_predict_tail]: the factor less one at position [d]. *)
Definition curve_at (c : curve) (l : option R * option R) (d : nat) : option R :=
  match c with
  | Exponential => option_map exp (radd (rmul (fst l) (Some (INR (S d)))) (snd l))
  | InversePower => rmul (option_map exp (snd l)) (option_map (Rpower (INR (S d))) (fst l))
  end.
(** tails/base.py 69-75 [_get_tail_prediction]: [accum] single factors, then the product of those up to [total]. *)
Fixpoint rcprod (n : nat) (f : nat -> option R) : option R := match n with O => Some 1 | S k => rmul (rcprod k f) (f k) end.
Definition tail_prediction (accum total : nat) (g : nat -> option R) (d : nat) : option R :=
  let f d := radd (Some 1) (g d) in
  if (d <? Nat.min accum total)%nat then f d else rcprod (total - accum) (fun j => f (accum + j)%nat).

(** curve.py 92-190 [fit]: [ldf] are the factors of the development of [t].  ZeroDivisionError is an [OtherError]. *)
Definition tail_curve (p : curve_params) (t ldf : tri) : result rtri :=
  let n := (ax3 (values t) - 1)%nat in
  do use <- fit_positions (dgrain t) (cp_fit p) n;
  do l <- tail_base t (cp_years p) ldf;
  let a := values l in
  if cp_raise p && existsb (fun i => existsb (fun c => existsb (fun o => existsb (fun d => below_one (av a i c o d)) (seq 0 n))
      (seq 0 (ax2 a))) (seq 0 (ax1 a))) (seq 0 (ax0 a)) then Err OtherError else
  let accum := (ax3 a - 1)%nat in
  let total := (cp_extrap p + n)%nat in
  do k <- match cp_attach p with
          | None => Ok (List.length (dlist (ddims t)) - 1)%nat
          | Some g => if (g =? 0)%Z then Ok (List.length (dlist (ddims t)) - 1)%nat
                      else zfirst (fun x => g <=? x)%Z (dlist (ddims t))
          end;
  Ok (RTri (set_values l (Arr (ax0 a) (ax1 a) (ax2 a) (S (Nat.min accum total)) (av a)))
    (fun i c o d => if (d <? k)%nat then r_of (av a i c o d)
                    else tail_prediction accum total (curve_at (cp_curve p) (curve_line p use n (av a i c o))) d)).
