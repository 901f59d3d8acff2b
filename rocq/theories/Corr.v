(** Mack's tests for calendar year effects and for correlated development factors
    (core/correlation.py).  Definitions only.  Normal quantiles are parameters. *)
From Coq Require Import Qround.
From Verif Require Export Arith Agg View.
Local Open Scope nat_scope.

(** scipy [rankdata] with the default method "average": the rank of [x] in a list that holds it. *)
Definition rank_in (l : list Qc) (x : Qc) : Qc :=
  (qc (Z.of_nat (List.length (filter (fun y => Qc_ltb y x) l))) + (qc (Z.of_nat (List.length (filter (fun y => Qc_eqb y x) l))) + 1) / qc 2)%Qc.
(** correlation.py 64-66, 165-167: ranks along the origins; missing cells stay missing. *)
Definition ranks (a : arr) : arr :=
  Arr (ax0 a) (ax1 a) (ax2 a) (ax3 a) (fun i c o d => option_map (rank_in (present (line 2 a i c o d))) (av a i c o d)).

(** * Correlated development factors *)

(** Mack's statistic per age, one value per row and column. *)
Record development_test := DevTest {
  dt_t : nat -> nat -> list Qc;      (** T_k for k = 2, 3, ... *)
  dt_weights : list Qc;
  dt_mean : nat -> nat -> Qc;        (** [t_expectation] *)
  dt_variance : Qc }.
(** correlation.py 50-117.  [m1 = m2.copy(); m1.values = ...] gives the ranks of the second
    factor the labels of the first.  Python's ZeroDivisionError is [OtherError].  A numpy
    division by zero (an age with one pair) is given the value 1 - 0. *)
Definition development_correlation (t : tri) : result development_test :=
  do lr1 <- link_ratio t;
  do t2 <- getitem_valuation t (fun o d => (valuation t o d <? vdate t)%Z);
  do lr2 <- link_ratio t2;
  let m2 := set_values lr2 (ranks (values lr2)) in
  let r1 := ranks (values lr1) in
  let m1 := set_values m2 (Arr (ax0 r1) (ax1 r1) (Nat.min (ax2 r1) (ax2 (values m2))) (ax3 r1 - 1) (fun i c o d => av r1 i c o (S d))) in
  do diff <- tri_op OSub m1 m2;
  let square := set_values diff (map_arr (fun x => Some (nz x * nz x)%Qc) (values diff)) in
  let numerator := values (agg_axis ASum square AxOrigin) in
  let n := Z.of_nat (ax3 (values t)) in
  let ks := seq 0 (ax3 numerator - 1) in
  let pairs d := (n - (Z.of_nat d + 2))%Z in
  let denominator d := qc (pairs d * pairs d * pairs d - pairs d)%Z in
  let tk i c d := (1 - qc 6 * nz (av numerator i c 0 d) / denominator d)%Qc in
  let w d := qc (pairs d - 1)%Z in
  if ((n =? 2) || (n =? 3))%Z then Err OtherError else
  Ok (DevTest (fun i c => map (tk i c) ks) (map w ks)
        (fun i c => qsum (map (fun d => w d * tk i c d) ks) / qsum (map w ks))%Qc
        (qc 2 / qc ((n - 2) * (n - 3))%Z)%Qc).
(** 123-140: the confidence interval runs from [- c] to [c], with [c >= 0] the normal quantile
    times the standard deviation; only the first row and column decide. *)
Definition mean_critical (c : Qc) (x : Qc) : bool := (Qc_ltb x (- c) || Qc_ltb c x)%bool.
Definition reject (c : Qc) (r : development_test) : bool := mean_critical c (dt_mean r 0 0).

(** * Calendar year effects *)

(** 170-174: 1 where the rank is above (below) the median rank of the column, 0 for the other
    known cells. *)
Definition side (large : bool) (a : arr) : arr :=
  let m1 := ranks a in
  Arr (ax0 a) (ax1 a) (ax2 a) (ax3 a) (fun i c o d =>
    match av a i c o d with
    | None => None
    | Some _ =>
      match median_of (present (line 2 m1 i c o d)) with
      | None => Some 0%Qc
      | Some med => let r := nz (av m1 i c o d) in
                    Some (if (if large then Qc_ltb med r else Qc_ltb r med) then 1%Qc else 0%Qc)
      end
    end).
(** 175-180: how many per calendar period. *)
Definition calendar_count (large : bool) (lr : tri) : result arr :=
  do u <- dev_to_val (set_values lr (side large (values lr)));
  Ok (map_arr (fun x => Some (nz x)) (values (agg_axis ASum u AxOrigin))).

(** scipy [comb]; the counts are whole numbers and the float functions are taken as exact. *)
Fixpoint comb (n k : nat) : Z :=
  match n, k with
  | _, O => 1%Z
  | O, S _ => 0%Z
  | S n', S k' => (comb n' k' + comb n' k)%Z
  end.
Definition two_pow (n : nat) : Qc := qc (2 ^ Z.of_nat n).
(** 181-186, for [n] link ratios that are not the median.  For [n = 0] scipy's comb(-1, -1) is 0. *)
Definition comb_c (n : nat) : Qc := match n with O => 0%Qc | S k => qc (comb k (k / 2)) end.
Definition expected_z (n : nat) : Qc := (qc (Z.of_nat n) / qc 2 - comb_c n * qc (Z.of_nat n) / two_pow n)%Qc.
Definition variance_z (n : nat) : Qc :=
  let nn := (qc (Z.of_nat n) * (qc (Z.of_nat n) - 1))%Qc in
  (nn / qc 4 - comb_c n * nn / two_pow n + expected_z n - expected_z n * expected_z n)%Qc.
(** 154-155, 188-198: [min(1, 2 * binom.cdf(z, n, 0.5))]. *)
Definition binom_cdf (z n : nat) : Qc := (qc (fold_right Z.add 0%Z (map (comb n) (seq 0 (S z)))) / two_pow n)%Qc.
Definition prob_z (z n : nat) : Qc := qmin 1 (qc 2 * binom_cdf z n)%Qc.

(** One calendar period. *)
Record calendar_test := CalTest { ct_z : nat; ct_n : nat; ct_expectation : Qc; ct_variance : Qc; ct_prob : Qc; ct_critical : bool }.
Definition whole (x : Qc) : nat := Z.to_nat (Qfloor (this x)).
(** 181-214, [total=False]: the numbers; their labels are not modelled. *)
Definition test_period (p_critical : Qc) (large small : Qc) : calendar_test :=
  let z := whole (qmin large small) in
  let n := whole (large + small)%Qc in
  CalTest z n (expected_z n) (variance_z n) (prob_z z n) (Qc_ltb (prob_z z n) p_critical).
Definition valuation_test (p_critical : Qc) (lr : tri) : result (nat -> nat -> list calendar_test) :=
  if Qc_leb 0 p_critical && Qc_leb p_critical 1 then
    do l <- calendar_count true lr;
    do s <- calendar_count false lr;
    Ok (fun i c => map (fun v => test_period p_critical (nz (av l i c 0 v)) (nz (av s i c 0 v))) (seq 0 (ax3 l)))
  else Err ValueError.
(** 215-225, [total=True].  [ci2] is the quantile at half of p_critical times the standard
    deviation; it is not positive. *)
Definition total_z (l : list calendar_test) : nat := fold_right plus 0 (map ct_z l).
Definition total_expectation (l : list calendar_test) : Qc := qsum (map ct_expectation l).
Definition total_variance (l : list calendar_test) : Qc := qsum (map ct_variance l).
Definition total_critical (ci2 : Qc) (l : list calendar_test) : bool :=
  let v := total_variance l in
  let range := (v + ci2, v - ci2)%Qc in
  Qc_ltb v (fst range) || Qc_ltb (snd range) v.
