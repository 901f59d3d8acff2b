(** MunichAdjustment (development/munich.py).  Definitions only.  One index row and one pair of columns are independent of the
    others except where noted, so the attributes are functions of the row and the positions of the two columns. *)
From Verif Require Export Arith Mack.
Local Open Scope R_scope.

(** One column of one index row, as an array. *)
Definition one_column (t : tri) (i c : nat) : arr := Arr 1 1 (ax2 (values t)) (ax3 (values t)) (fun _ _ o d => cel t i c o d).
(** munich.py 172-176 [modelsP], [modelsI]: the regression of column [q] on column [p] with weights 1/[p].  (The arrays have the
    same shape, so that the regression is defined.) *)
Definition ratio_reg (t : tri) (i p q : nat) : wls :=
  match thru_orig (one_column t i p) (one_column t i q) (map_arr (fun x => cdiv (Some 1%Qc) x) (one_column t i p)) with
  | Ok g => g | Err _ => WLS (values t) (values t) (values t) end.
(** [q_f_], [rho_sigma_]; [sigma_fill] is with the interpolation of the development. *)
Definition mu_q (t : tri) (i p q d : nat) : cell := av (wls_slope (ratio_reg t i p q)) 0%nat 0%nat 0%nat d.
Definition mu_rho (how : interpolation) (t : tri) (i p q d : nat) : option R :=
  let raw := sigma_raw (ratio_reg t i p q) 0%nat 0%nat in
  match how with LogLinear => loglinear (ax3 (values t)) raw d | MackFill => mack_fill raw d end.

(** munich.py 181-196, 214: residuals of the link ratios [lr] of column [c]. *)
Definition mu_resid (t lr ldf : tri) (sigma : rrow) (i c o d : nat) : option R :=
  rmul (rdiv (rsub (r_of (cel lr i c o d)) (r_of (cel ldf i c 0 d))) (sigma i c d)) (rsqrt (r_of (cel t i c o d))).
(** munich.py 197-215 [q_resid], [q_inv_resid]; [df] is the triangle less its latest diagonal, of which only the first row and
    column is used. *)
Definition mu_nans (df : tri) (o d : nat) : option R := r_of (known (cel df 0 0 o d)).
Definition mu_q_resid (how : interpolation) (t df : tri) (i p q o d : nat) : option R :=
  rmul (rmul (rdiv (r_of (csub (cdiv (cel t i p o d) (cel t i q o d)) (mu_q t i q p d))) (mu_rho how t i q p d)) (rsqrt (r_of (cel t i q o d)))) (mu_nans df o d).
Definition mu_q_inv_resid (how : interpolation) (t df : tri) (i p q o d : nat) : option R :=
  rmul (rmul (rdiv (r_of (csub (cdiv (cel t i q o d) (cel t i p o d)) (cdiv (Some 1%Qc) (mu_q t i q p d)))) (mu_rho how t i p q d)) (rsqrt (r_of (cel t i p o d)))) (mu_nans df o d).

(** Regression through the origin over all origins and ages (weighted_regression.py 75-96, axis = -1). *)
Definition rsum2 (m n : nat) (f : nat -> nat -> option R) : R := rsumn m (fun o => rnansum n (f o)).
Definition rknown (x : option R) : option R := match x with Some _ => Some 1 | None => None end.
Definition thru_orig_r (m n : nat) (w x y : nat -> nat -> option R) : option R :=
  rdiv (rn2n (Some (rsum2 m n (fun o d => rmul (rmul (w o d) (x o d)) (y o d)))))
       (rn2n (Some (rsum2 m n (fun o d => rmul (rmul (rmul (rknown (y o d)) (w o d)) (x o d)) (x o d))))).
(** munich.py 218-242 [_get_MCL_lambda]: both regressions leave out the residuals of 0 of the incurred. *)
Definition mu_lambda (how : interpolation) (t lr ldf df : tri) (sigma : rrow) (i p q : nat) : option R * option R :=
  let m := (ax2 (values t) - 1)%nat in let n := (ax3 (values t) - 1)%nat in
  let rp := mu_resid t lr ldf sigma i p in
  let ri := mu_resid t lr ldf sigma i q in
  let w o d := rknown (rn2n (ri o d)) in
  (thru_orig_r m n w (mu_q_inv_resid how t df i p q) rp, thru_orig_r m n w (mu_q_resid how t df i p q) (fun o d => rn2n (ri o d))).

(** munich.py 262-281: the next amount of a column from its own and the other amount. *)
Definition mu_next (f l s r : option R) (q : cell) (own other : option R) : option R :=
  rmul (radd f (rmul (rdiv (rmul l s) r) (rsub (rdiv other own) (r_of q)))) own.
(** munich.py 282-299: an amount that is there is kept (unless the projection is missing). *)
Definition mu_keep (x : cell) (next : option R) : option R :=
  radd (Some (rv (nz x))) (rmul (Some (1 - present (r_of x))) next).
(** munich.py 256-300 [munich_full_triangle_] of one origin: paid and incurred. *)
Fixpoint mu_full (how : interpolation) (t ldf : tri) (sigma : rrow) (lam : option R * option R) (i p q o d : nat) : option R * option R :=
  match d with
  | O => (Some (rv (nz (cel t i p o 0))), r_of (cel t i q o 0))
  | S k =>
      let (fp, fi) := mu_full how t ldf sigma lam i p q o k in
      (mu_keep (cel t i p o (S k)) (mu_next (r_of (cel ldf i p 0 k)) (fst lam) (sigma i p k) (mu_rho how t i p q k) (mu_q t i p q k) fp fi),
       mu_keep (cel t i q o (S k)) (mu_next (r_of (cel ldf i q 0 k)) (snd lam) (sigma i q k) (mu_rho how t i q p k) (mu_q t i q p k) fi fp))
  end.

Record munich := MU {
  mu_pairs : list (nat * nat);                          (** positions of the paid and incurred columns *)
  mu_qf : nat -> nat -> nat -> cell * cell;             (** [q_f_] by index row, pair and age *)
  mu_rhos : nat -> nat -> nat -> option R * option R;   (** [rho_sigma_] *)
  mu_lam : nat -> nat -> option R * option R;           (** [lambda_coef_] by index row and pair *)
  mu_tri : nat -> nat -> nat -> nat -> option R * option R;  (** [munich_full_triangle_]: row, pair, origin, age *)
  mu_ldf : rtri }.                                      (** [ldf_] *)

Fixpoint nodupb (l : list nat) : bool := match l with [] => true | x :: r => negb (existsb (Nat.eqb x) r) && nodupb r end.
(** The last position in the list with the property. *)
Fixpoint last_pair (f : nat * nat -> bool) (k : nat) (l : list (nat * nat)) : option nat :=
  match l with [] => None | x :: r => match last_pair f (S k) r with Some j => Some j | None => if f x then Some k else None end end.
(** munich.py 303-344: the factors of one origin from accumulated ones [cdf], [n] of them. *)
Definition mu_factor (n : nat) (cdf : nat -> option R) (d : nat) : option R :=
  rdiv (cdf d) (if (S d <? n)%nat then cdf (S d) else Some 1).

(** munich.py 60-117 [fit] without fillna.  [ldf], [sigma] and [how] are the factors, sigma_ and sigma_interpolation attached to
    the triangle by a development without tail.  A column used twice as paid, or twice as incurred, leaves arrays of different
    sizes.  (Names of index
    labels are not modelled.  numpy also accepts link ratios of a single origin for a longer triangle; not modelled.) *)
Definition munich_fit (how : interpolation) (names : option (list (string * string))) (t ldf : tri) (sigma : rrow) : result munich :=
  match names with
  | None => Err ValueError
  | Some names =>
    let a := values t in
    if existsb (fun i => existsb (fun c => existsb (fun o => existsb (fun d =>
         negb (is_nan (nan_triangle t o d)) && Qc_eqb (nz (cel t i c o d)) 0%Qc) (seq 0 (ax3 a))) (seq 0 (ax2 a))) (seq 0 (ax1 a))) (seq 0 (ax0 a))
    then Err ValueError else
    do pairs <- mapm (fun x => do p <- find_str (fst x) (vdims t); do q <- find_str (snd x) (vdims t); Ok (p, q)) names;
    match pairs with [] => Err IndexError | _ =>
    if negb (nodupb (map fst pairs) && nodupb (map snd pairs)) then Err ValueError else
    do lr <- link_ratio t;
    do latest <- getitem_valuation t (fun o d => valuation t o d =? vdate t)%Z;
    do df <- tri_op OSub t latest;
    if negb ((S (ax2 (values lr)) =? ax2 a) && (S (ax3 (values lr)) =? ax3 a) && (ax2 (values ldf) =? 1) && (S (ax3 (values ldf)) =? ax3 a))%nat
    then Err ValueError else
    let lam i v := let x := nth v pairs (0, 0)%nat in mu_lambda how t lr ldf df sigma i (fst x) (snd x) in
    let qf i v d := let x := nth v pairs (0, 0)%nat in (mu_q t i (fst x) (snd x) d, mu_q t i (snd x) (fst x) d) in
    let rhos i v d := let x := nth v pairs (0, 0)%nat in (mu_rho how t i (fst x) (snd x) d, mu_rho how t i (snd x) (fst x) d) in
    let full i v o d := let x := nth v pairs (0, 0)%nat in mu_full how t ldf sigma (lam i v) i (fst x) (snd x) o d in
    let n := ax3 (values ldf) in
    let cdf := incr_to_cum ldf in
    let accumulated i c o d :=
      match last_pair (fun x => (snd x =? c)%nat) 0 pairs with
      | Some v => rdiv (snd (full i v o n)) (snd (full i v o d))
      | None => match last_pair (fun x => (fst x =? c)%nat) 0 pairs with
                | Some v => rdiv (fst (full i v o n)) (fst (full i v o d))
                | None => r_of (cel cdf i c 0 d) end end in
    let frame := set_vdate (set_cumulative (set_pattern (set_dims (set_values ldf (Arr (ax0 a) (ax1 a) (ax2 a) n (fun _ _ _ _ => None))) (kdims ldf) (vdims ldf) (odims t) (ddims lr)) true) (Some false)) ULT_VAL in
    (* 113-117, 346-355: [_reshape] looks up the columns 0, 1, 2, ... among those of the pairs *)
    let used := nodup Nat.eq_dec (flat_map (fun x => [fst x; snd x]) pairs) in
    if forallb (fun k => existsb (Nat.eqb k) used) (seq 0 (List.length used))
    then Ok (MU pairs qf rhos lam full (RTri frame (fun i c o d => mu_factor n (accumulated i c o) d)))
    else Err KeyError end
  end.
