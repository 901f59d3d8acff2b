(** BootstrapODPSample (adjustments/bootstrap.py).  Definitions only. *)
From Verif Require Export Methods Mack.
Local Open Scope nat_scope.

(** bootstrap.py 93-99: the Development estimator behind the bootstrap. *)
Record boot_params := BP {
  bp_n_periods : Z; bp_drop : option (list (Z * Z)); bp_high : option (per_age Z); bp_low : option (per_age Z); bp_drop_val : option (list Z) }.
Definition boot_dev (b : boot_params) : dev_params :=
  DevParams (One (bp_n_periods b)) (One Volume) (bp_drop b) (bp_high b) (bp_low b) 1 (bp_drop_val b) (One None) (One 0%Qc) None.

(** bootstrap.py 93-106: [w_] and the expected increments [exp_incr_triangle] (missing after the valuation date). *)
Definition boot_expected (b : boot_params) (t : tri) : result (arr * arr) :=
  do f <- dev_fit (boot_dev b) t;
  do m <- cl_fit t (Some (f_ldf f));
  do e <- full_expectation (cdf_of (fst m)) (snd m) true;
  do x <- cum_to_incr e;
  Ok (f_w f, Arr 1 1 (ax2 (values t)) (ax3 (values t)) (fun _ _ o d => cmul (Some (nz (cel x 0 0 o d))) (nan_triangle t o d))).

(** bootstrap.py 178-193 [_get_design_matrix]: blocks of rows by age, each with the origins that have reached it.  (The columns of
    later ages keep the ones written for earlier ages.)  Modelled when no age has been reached by more origins than the one before. *)
Definition reached (t : tri) (d : nat) : nat := count_true (ax2 (values t)) (fun o => negb (is_nan (nan_triangle t o d))).
Definition design_row (t : tri) (d r : nat) : list cell :=
  map (fun c => if r =? c then nan_triangle t r d else Some 0%Qc) (seq 0 (ax2 (values t))) ++
  map (fun k => Some (if k <? d then 1%Qc else 0%Qc)) (seq 0 (ax3 (values t) - 1)).
Definition boot_design (t : tri) : list (list cell) :=
  flat_map (fun d => map (design_row t d) (seq 0 (if d =? 0 then ax2 (values t) else reached t d))) (seq 0 (ax3 (values t))).

(** bootstrap.py 130-137: [unscaled_residuals] with the weights of the link ratio before the age (of the first one at the first age).
    A division by 0, which is infinite or NaN, is missing here. *)
Definition rabs (x : option R) : option R := option_map Rabs x.
Definition boot_resid (inc : tri) (w e : arr) (o d : nat) : option R :=
  rmul (rdiv (rsub (r_of (cel inc 0 0 o d)) (r_of (av e 0 0 o d))) (rsqrt (rabs (r_of (av e 0 0 o d))))) (r_of (av w 0 0 o (d - 1))).
(** bootstrap.py 138, 143-147 [scale_phi]. *)
Definition boot_scale (t : tri) (z : nat -> nat -> option R) : option R :=
  let n2 := ax2 (values t) in let n3 := ax3 (values t) in
  rdiv (Some (rsumn n2 (fun o => rsumn n3 (fun d => (nzr (z o d) ^ 2)%R))))
       (Some (rsumn n2 (fun o => rsumn n3 (fun d => nzr (nan_r t o d))) - INR (n2 + (n3 - 1)))%R).

(** bootstrap.py 148-154 [adj_resid_dist]: the residuals that are not 0, less their mean. *)
Fixpoint rsuml (l : list R) : R := match l with [] => 0%R | x :: r => (x + rsuml r)%R end.
Definition nonzero_cells (n2 n3 : nat) (z : nat -> nat -> option R) : list R :=
  flat_map (fun o => flat_map (fun d => match z o d with Some v => if Req_EM_T v 0 then [] else [v] | None => [] end) (seq 0 n3)) (seq 0 n2).
Definition centred (l : list R) : list R := map (fun v => v - rsuml l / INR (List.length l))%R l.

(** numpy [cumsum]: missing from the first missing entry on. *)
Fixpoint rcumsum (f : nat -> option R) (d : nat) : option R :=
  match d with
  | O => f O
  | S k => match rcumsum f k, f (S k) with Some x, Some v => Some (x + v)%R | _, _ => None end
  end.
(** bootstrap.py 155-176: the increments of sample [s]; [pick s o d] is the position drawn from the residuals by the random number
    generator for a cell, which is arbitrary here. *)
Definition sample_increment (pool : list R) (pick : nat -> nat -> nat -> nat) (e : arr) (s o d : nat) : option R :=
  match r_of (av e 0 0 o d) with
  | Some x => Some (nth (pick s o d) pool 0 * sqrt (Rabs x) + x)%R
  | None => None
  end.

Record boot := BT {
  bt_w : arr;                                     (** [w_] *)
  bt_expected : arr;                              (** [exp_incr_triangle] *)
  bt_design : list (list cell);                   (** [design_matrix_] *)
  bt_scale : option R;                            (** [scale_] *)
  bt_pool : list R;                               (** [adj_resid_dist] *)
  bt_rows : list nat;                             (** the index of [resampled_triangles_] *)
  bt_frame : tri;                                 (** its other labels *)
  bt_cell : nat -> nat -> nat -> option R }.      (** its values by sample, origin and age *)

(** bootstrap.py 71-125 [fit] of one index row and column, in development view and cumulative.  [hat] is the hat matrix adjustment
    (195-230), which is arbitrary here, or None without it.  Nothing to choose from, or no simulation, is a ValueError. *)
Definition boot_fit (b : boot_params) (n_sims : nat) (hat : option (nat -> nat -> option R)) (pick : nat -> nat -> nat -> nat) (t : tri) : result boot :=
  let n2 := ax2 (values t) in let n3 := ax3 (values t) in
  if negb (ax0 (values t) =? 1) then Err ValueError else
  match ddims t with
  | Vals _ => Err ValueError
  | Ages _ =>
    do we <- boot_expected b t;
    do inc <- cum_to_incr t;
    let z := boot_resid inc (fst we) (snd we) in
    let h := match hat with None => z | Some h => fun o d => rmul (h o d) (z o d) end in
    let pool := centred (nonzero_cells n2 n3 h) in
    match pool, n_sims with
    | [], _ | _, O => Err ValueError
    | _, _ => Ok (BT (fst we) (snd we) (boot_design t) (boot_scale t z) pool (seq 0 n_sims) t
                    (fun s o => rcumsum (sample_increment pool pick (snd we) s o)))
    end
  end.
