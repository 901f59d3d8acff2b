(** Specification vocabulary for development factors. *)
From Verif Require Export SpecLabel Dev.
Local Open Scope Qc_scope.

(** The value a parameter takes at the [d]-th age: one value for all ages, the
    [d]-th entry of a list, or a function of the age. *)
Definition param_at {A} (t : tri) (v : per_age A) (d : nat) : option A :=
  match v with
  | One a => Some a
  | Many l => nth_error l d
  | ByAge f => Some (f (nth d (dlist (ddims t)) 0%Z))
  end.
(** There is a value for each age but the last. *)
Definition covers {A} (t : tri) (v : per_age A) : Prop := forall d, (S d < ax3 (values t))%nat -> param_at t v d <> None.

(** A list has no more entries than there are ages. *)
Definition fits_ages {A} (t : tri) (v : per_age A) : Prop :=
  match v with Many l => (List.length l <= ax3 (values t))%nat | _ => True end.

(** Averages of ratios y/x over the selected origins:
    volume: sum y / sum x; simple: mean of y/x; regression: sum xy / sum x^2. *)
Definition sum_over (n : nat) (sel : nat -> bool) (f : nat -> Qc) : Qc := sumn n (fun o => if sel o then f o else 0).
Definition avg_num (a : average) (n : nat) (sel : nat -> bool) (x y : nat -> Qc) : Qc :=
  match a with
  | Volume => sum_over n sel y
  | Simple => sum_over n sel (fun o => y o / x o)
  | Regression => sum_over n sel (fun o => x o * y o)
  end.
Definition avg_den (a : average) (n : nat) (sel : nat -> bool) (x : nat -> Qc) : Qc :=
  match a with
  | Volume => sum_over n sel x
  | Simple => sum_over n sel (fun _ => 1)
  | Regression => sum_over n sel (fun o => x o * x o)
  end.
(** No factor (missing) if numerator or denominator vanish. *)
Definition wavg (a : average) (n : nat) (sel : nat -> bool) (x y : nat -> Qc) : cell :=
  let N := avg_num a n sel x y in
  let D := avg_den a n sel x in
  if Qc_eqb N 0 then None else if Qc_eqb D 0 then None else Some (N / D).

(** Squared residuals around the factor [f], weighted with 1/x, 1/x^2 or 1. *)
Definition avg_pow (a : average) (x : Qc) : Qc := match a with Volume => x | Simple => (x * x)%Qc | Regression => 1%Qc end.
Definition mse_num (a : average) (t : tri) (sel : nat -> bool) (i c d : nat) (f : Qc) : Qc :=
  sum_over (ax2 (values t)) sel (fun o => (amount t i c o (S d) - f * amount t i c o d) * (amount t i c o (S d) - f * amount t i c o d) / avg_pow a (amount t i c o d))%Qc.

(** The ratio from age [d] to the next one of origin [o] is used by a fit: its
    weight is positive and both amounts are known. *)
Definition pos_weight (w : cell) : bool := match w with Some q => Qc_ltb 0 q | None => false end.
Definition used (t : tri) (w : arr) (i c d o : nat) : bool :=
  pos_weight (av w i c o d) && negb (Qc_eqb (amount t i c o d) 0) && negb (Qc_eqb (amount t i c o (S d)) 0).

(** The oldest origin has reached the last age. *)
Definition oldest_complete (t : tri) : Prop := (month_of t 0 (ax3 (values t) - 1) <= vdate t)%Z.

(** ** Which ratios enter the average *)
(** The ratio from age [d] to the next one exists: both amounts are present. *)
Definition has_ratio (t : tri) (i c d o : nat) : bool :=
  negb (Qc_eqb (amount t i c o d) 0) && negb (Qc_eqb (amount t i c o (S d)) 0).
Definition ratio (t : tri) (i c d o : nat) : Qc := amount t i c o (S d) / amount t i c o d.

(** n_periods: every ratio (a value below 1 or at least the number of origins
    minus one), or the ratios that start in the last [n] origin periods before
    the valuation date. *)
Definition grain_months (g : grain) : Z := match g with GY => 12 | GS => 6 | GQ => 3 | GM => 1 end%Z.
Definition unrestricted (t : tri) (n : Z) : Prop := (n < 1 \/ Z.of_nat (ax2 (values t)) - 1 <= n)%Z.
Definition in_window (t : tri) (n : Z) (o d : nat) : bool :=
  ((n <? 1) || (Z.of_nat (ax2 (values t)) - 1 <=? n) || (vdate t - n * grain_months (ograin t) <=? month_of t o d))%Z.
(** The restriction is applied to regular triangles whose grains are the spacings. *)
Definition regular_grains (t : tri) : Prop :=
  exists o0 a0 h m dl, regular t o0 a0 h m dl /\ (dl < m)%nat /\
    grain_months (dgrain t) = Z.of_nat h /\ grain_months (ograin t) = Z.of_nat (h * m).

(** drop: (origin, age) pairs of labels. *)
Definition listed (p : dev_params) (t : tri) (o d : nat) : bool :=
  match p_drop p with
  | None => false
  | Some items => existsb (fun it => (fst it =? nth o (odims t) 0)%Z && (snd it =? nth d (dlist (ddims t)) 0)%Z) items
  end.

(** drop_high / drop_low: a number for all ages or one per age, 0 beyond the list. *)
Definition count_at (v : option (per_age Z)) (d : nat) : Z :=
  match v with Some (One a) => a | Some (Many l) => nth d l 0%Z | _ => 0%Z end.
Definition how_many (n : nat) (f : nat -> bool) : Z := Z.of_nat (List.length (filter f (seq 0 n))).
(** The order of the ratios of one age: by ratio, equal ratios by starting
    amount, then by origin. *)
Definition lower (t : tri) (i c d o1 o2 : nat) : bool :=
  let r1 := ratio t i c d o1 in let r2 := ratio t i c d o2 in
  let x1 := amount t i c o1 d in let x2 := amount t i c o2 d in
  Qc_ltb r1 r2 || (Qc_eqb r1 r2 && (Qc_ltb x1 x2 || (Qc_eqb x1 x2 && (o1 <? o2)%nat))).
(** Of the eligible ratios all are kept if the drops would leave fewer than
    [preserve]; otherwise the h highest and the l lowest are dropped. *)
Definition survives_high_low (p : dev_params) (t : tri) (eligible : nat -> bool) (i c d o : nat) : bool :=
  let n := ax2 (values t) in let h := count_at (p_high p) d in let l := count_at (p_low p) d in
  (how_many n eligible - h - l <? p_preserve p)%Z ||
  ((l <=? how_many n (fun q => eligible q && lower t i c d q o))%Z &&
   (h <=? how_many n (fun q => eligible q && lower t i c d o q))%Z).

(** drop_above / drop_below: limits for all ages or one per age; no limit above
    and the limit 0 below beyond the lists.  If neither is given nothing is dropped. *)
Definition limit_at {A} (dflt : A) (v : per_age A) (d : nat) : A :=
  match v with One a => a | Many l => nth d l dflt | ByAge _ => dflt end.
Definition within_limits (p : dev_params) (t : tri) (i c d o : nat) : bool :=
  Qc_ltb (limit_at 0 (p_below p) d) (ratio t i c d o) &&
  match limit_at None (p_above p) d with None => true | Some h => Qc_ltb (ratio t i c d o) h end.
Definition limits_given (p : dev_params) : bool :=
  match p_above p, p_below p with One None, One q => negb (Qc_eqb q 0) | _, _ => true end.
Definition survives_above_below (p : dev_params) (t : tri) (i c d o : nat) : bool :=
  negb (limits_given p) ||
  (how_many (ax2 (values t)) (fun q => has_ratio t i c d q && within_limits p t i c d q) <? p_preserve p)%Z ||
  within_limits p t i c d o.

(** drop_valuation: the ratios that start at the end of one of the listed
    origin periods. *)
Definition period_close (g : grain) (m : Z) : Z := (grain_months g * (m / grain_months g) + grain_months g - 1)%Z.
Definition val_listed (p : dev_params) (t : tri) (o d : nat) : bool :=
  match p_drop_val p with
  | None => false
  | Some vs => existsb (fun v => (period_close (ograin t) v =? month_of t o d)%Z) vs
  end.

(** The ratio of origin [o] at age [d] enters the average. *)
Definition selected (p : dev_params) (t : tri) (n : Z) (i c d o : nat) : bool :=
  let eligible q := has_ratio t i c d q && in_window t n q d in
  eligible o && negb (listed p t o d) && negb (val_listed p t o d) && survives_high_low p t eligible i c d o && survives_above_below p t i c d o.

(** Parameters for which a fit is defined: values for all ages, known drop
    labels, lists no longer than the number of ratios.  With drop_high or drop_low,
    n_periods is one number and no age has more eligible ratios than it (or than
    there are ages to be fitted, if it is -1).  With drop_valuation the triangle has
    equal origin and development periods (not half-years), the listed periods lie
    on its diagonals and the first triangle has no gap there. *)
Definition valuations_droppable (t : tri) (vs : list Z) : Prop :=
  vs <> [] /\ ograin t <> GS /\
  (exists o0 a0 h, regular t o0 a0 h 1 0) /\
  (forall v, In v vs -> exists k, (k < ax2 (values t))%nat /\ month_of t 0 k = period_close (ograin t) v) /\
  (0 < ax0 (values t))%nat /\ (0 < ax1 (values t))%nat /\
  (forall v o d, In v vs -> (o < ax2 (values t))%nat -> (d < ax3 (values t))%nat -> month_of t o d = period_close (ograin t) v -> amount t 0 0 o d <> 0).
Definition not_by_age {A} (t : tri) (v : per_age A) : Prop :=
  match v with One _ => True | Many l => (List.length l < ax3 (values t))%nat | ByAge _ => False end.
Record fittable (p : dev_params) (t : tri) : Prop := {
  fp_avg : covers t (p_average p);
  fp_np : covers t (p_n_periods p);
  fp_fit : fits_ages t (p_n_periods p);
  fp_win : forall d n, (S d < ax3 (values t))%nat -> param_at t (p_n_periods p) d = Some n -> unrestricted t n \/ regular_grains t;
  fp_drop : forall items o a, p_drop p = Some items -> In (o, a) items -> In o (odims t) /\ In a (dlist (ddims t));
  fp_high : forall v, p_high p = Some v -> not_by_age t v;
  fp_low : forall v, p_low p = Some v -> not_by_age t v;
  fp_above : not_by_age t (p_above p);
  fp_below : not_by_age t (p_below p);
  fp_hl : p_high p <> None \/ p_low p <> None -> exists n, p_n_periods p = One n /\
     (forall d, 0 <= count_at (p_high p) d)%Z /\
     forall i c d, (i < ax0 (values t))%nat -> (c < ax1 (values t))%nat -> (S d < ax3 (values t))%nat ->
       (how_many (ax2 (values t)) (fun o => has_ratio t i c d o && in_window t n o d)
        <= if n =? -1 then Z.of_nat (ax3 (values t)) - 1 else n)%Z;
  fp_val : forall vs, p_drop_val p = Some vs -> valuations_droppable t vs;
  fp_fill : p_fillna p = None }.

(** The fitted factors: one row of age-to-age factors labelled with the ages but
    the last; each is the chosen average of the selected ratios. *)
Record fit_result (p : dev_params) (t u : tri) : Prop := {
  fr_k : kdims u = kdims t; fr_kl : key_labels u = key_labels t; fr_v : vdims u = vdims t;
  fr_o : odims u = [nth 0 (odims t) 0%Z];
  fr_d : ddims u = dmap (firstn (ax3 (values t) - 1)) (ddims t);
  fr_0 : ax0 (values u) = ax0 (values t); fr_1 : ax1 (values u) = ax1 (values t);
  fr_2 : ax2 (values u) = 1%nat; fr_3 : ax3 (values u) = (ax3 (values t) - 1)%nat;
  fr_pat : is_pattern u = true; fr_cum : is_cumulative u = Some false; fr_vd : vdate u = ULT_VAL; fr_og : ograin u = ograin t; fr_dg : dgrain u = dgrain t;
  fr_cell : forall i c d a n, (i < ax0 (values t))%nat -> (c < ax1 (values t))%nat -> (S d < ax3 (values t))%nat ->
    param_at t (p_average p) d = Some a -> param_at t (p_n_periods p) d = Some n ->
    cel u i c 0 d = wavg a (ax2 (values t)) (selected p t n i c d) (fun o => amount t i c o d) (fun o => amount t i c o (S d)) }.
