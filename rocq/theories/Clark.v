(** ClarkLDF (development/clark.py) and TailClark (tails/clark.py).  Definitions only. *)
From Verif Require Export Agg Bondy.
Local Open Scope R_scope.

Inductive growth := LogLogistic | Weibull | OtherGrowth.
(** clark.py 60-68 [_G]: the factor to ultimate at an age of 0 or more; [None] is infinite.  (Not called with [OtherGrowth].) *)
Definition inv_growth (g : growth) (th om x : R) : option R :=
  if Req_EM_T x 0 then None else
  Some (match g with LogLogistic => 1 + Rpower th om * Rpower x (- om) | _ => 1 / (1 - exp (- Rpower (x / th) om)) end).
(** clark.py 73-95 [G_]: 1 / [_G]. *)
Definition growth_at (g : growth) (th om x : R) : R := match inv_growth g th om x with Some v => 1 / v | None => 0 end.

(** clark.py 132-133 [age_offset], [age_interval]. *)
Definition age_offset (g : grain) : R := match g with GY => 6 | GS => 3 | GQ => 3 / 2 | GM => 1 / 2 end.
Definition age_interval (g : grain) : R := match g with GY => 12 | GS => 6 | GQ => 3 | GM => 1 end.
(** clark.py 135-137 [age_end], [age_start]. *)
Definition end_age (t : tri) (d : nat) : R := IZR (nth d (dlist (ddims t)) 0%Z) - age_offset (dgrain t).
Definition start_age (t : tri) (d : nat) : R := Rmax (end_age t d - age_interval (dgrain t)) 0.
(** The share of the ultimate that belongs to an age. *)
Definition age_share (g : growth) (t : tri) (th om : R) (d : nat) : R := growth_at g th om (end_age t d) - growth_at g th om (start_age t d).

(** clark.py 156-179 [solver]: minus the log-likelihood of the known increments [inc] of one row and column, for expected increments
    [f].  NaN terms are left out of the sum; the logarithm of 0 is not taken. *)
Definition clark_loss (t inc : tri) (i c : nat) (f : nat -> nat -> option R) : R :=
  - rsumn (ax2 (values t)) (fun o => rnansum (ax3 (values t)) (fun d =>
      rmul (nan_r t o d) (rsub (rmul (r_of (cel inc i c o d)) (rlog (f o d))) (f o d)))).
(** clark.py 160-173: the expected increments of the LDF method ([lat] are the latest amounts by age) and of the Cape Cod method. *)
Definition ldf_increment (g : growth) (t lat : tri) (i c : nat) (th om : R) (o d : nat) : option R :=
  let k := (List.length (dlist (ddims lat)) - 1 - o)%nat in
  rmul (rmul (inv_growth g th om (IZR (nth k (dlist (ddims lat)) 0%Z) - age_offset (dgrain t))) (r_of (cel lat i c 0 k))) (Some (age_share g t th om d)).
Definition cc_increment (g : growth) (t sw : tri) (i c : nat) (th om elr : R) (o d : nat) : option R :=
  rmul (rmul (r_of (cel sw i c o 0)) (Some elr)) (Some (age_share g t th om d)).

(** clark.py 156-179 [solver] for one row and column of [t]: the function minimised over [om] and [th], and over [elr] when
    exposures [sw] are given. *)
Definition ldf_loss (g : growth) (t : tri) (i c : nat) (om th : R) : result R :=
  do inc <- cum_to_incr t;
  do s <- getitem_valuation t (fun o d => valuation t o d =? vdate t)%Z;
  do s <- aggregate ASum (Some AxOrigin) false s;
  match s with AggNum _ => Err AttributeError | AggTri lat => Ok (clark_loss t inc i c (ldf_increment g t lat i c th om)) end.
Definition cc_loss (g : growth) (t sw : tri) (i c : nat) (om th elr : R) : result R :=
  do inc <- cum_to_incr t;
  Ok (clark_loss t inc i c (cc_increment g t sw i c th om elr)).

Record clark := CK {
  ck_ldf : rtri;                             (** [ldf_] *)
  ck_fits : rtri;                            (** [incremental_fits_] *)
  ck_scale : nat -> nat -> option R;         (** [scale_] *)
  ck_resid : rtri }.                         (** [norm_resid_] *)

(** clark.py 97-228 [fit], 261-300 [scale_], [norm_resid_], without groupby.  [om] and [th] are the parameters found by the
    optimiser (at least 1e-6) for each row and column, which are arbitrary here; [weights]: with sample_weight.  Modelled when the
    average ages are positive and the latest diagonal has as many ages as the triangle has origins.  (Ages are floats.) *)
Definition clark_fit (g : growth) (om th : nat -> nat -> R) (weights : bool) (t : tri) : result clark :=
  let a := values t in let off := age_offset (dgrain t) in
  do ld <- latest_diagonal t;
  do inc <- cum_to_incr t;
  do s <- getitem_valuation t (fun o d => valuation t o d =? vdate t)%Z;
  do s <- aggregate ASum (Some AxOrigin) false s;
  match s with
  | AggNum _ => Err AttributeError
  | AggTri lat =>
    match g with
    | OtherGrowth => Err UnboundLocalError
    | _ =>
      let ages := dlist (ddims lat) in let n := List.length ages in
      if negb ((n =? ax2 a)%nat && (n =? ax3 a)%nat && forallb (fun x => if Rlt_dec off (IZR x) then true else false) (dlist (ddims t))) then Err NotImplementedError else
      do lr <- link_ratio t;
      let cdf i c k := inv_growth g (th i c) (om i c) (IZR (nth k ages 0%Z) - off) in
      let ldf := RTri (set_vdate (set_cumulative (set_pattern (set_dims (set_values t (Arr (ax0 a) (ax1 a) 1 (n - 1) (fun _ _ _ _ => None))) (kdims t) (vdims t) (firstn 1 (odims t)) (ddims lr)) true) (Some false)) ULT_VAL)
                   (fun i c _ d => rdiv (cdf i c d) (cdf i c (S d))) in
      let ult i c o := rmul (cdf i c (n - 1 - o)%nat) (r_of (cel ld i c o 0)) in
      let fit i c o d := rmul (rmul (Some (age_share g t (th i c) (om i c) d)) (ult i c o)) (nan_r t o d) in
      let df := rsumn (ax2 a) (fun o => rnansum (ax3 a) (fun d => nan_r t o d)) - 2 - (if weights then 1 else INR (ax2 a)) in
      let scale i c := rdiv (Some (rsumn (ax2 a) (fun o => rnansum (ax3 a) (fun d =>
                                rdiv (Some ((nzr (fit i c o d) - nzr (r_of (cel inc i c o d))) ^ 2)) (rn2n (fit i c o d)))))) (Some df) in
      let frame := set_cumulative t (Some false) in
      Ok (CK ldf (RTri frame fit) scale
            (RTri frame (fun i c o d => rdiv (rsub (r_of (cel inc i c o d)) (fit i c o d)) (rsqrt (rmul (scale i c) (fit i c o d))))))
    end
  end.

(** tails/clark.py 57-106 [fit]: [ldf] are the factors of the development of [t]; [years] is int(projection_period / 12). *)
Definition tail_clark (g : growth) (om th : nat -> nat -> R) (weights : bool) (aa : option Z) (trunc : option R) (years : nat) (t ldf : tri) : result rtri :=
  let off := age_offset (dgrain t) in
  do l <- tail_base t years ldf;
  do _ <- clark_fit g om th weights t;
  let v := values l in
  let ages := dlist (ddims l) in let n := List.length ages in
  if negb (forallb (fun x => if Rlt_dec off (IZR x) then true else false) ages) then Err NotImplementedError else
  do a <- match aa with None | Some 0%Z => age_at (dlist (ddims t)) (-2) | Some a => Ok a end;
  let kept := List.length (filter (fun x => x <? a)%Z ages) in
  let m := ages_from a ages in
  let skipped := match m with O => O | _ => (n - m)%nat end in
  let cdf i c k := inv_growth g (th i c) (om i c) (IZR (nth k ages 0%Z) - off) in
  let fitted i c k := if (S k <? n)%nat then rdiv (cdf i c k) (cdf i c (S k)) else cdf i c k in
  let total := (kept + (n - skipped))%nat in
  (* a truncation age of 0 is none; ages below 0 are not modelled *)
  let cut i c d := match trunc with
                   | Some x => if Req_EM_T x 0 then 1 else if (S d =? total)%nat then growth_at g (th i c) (om i c) x else 1
                   | None => 1 end in
  do _ <- match trunc with Some x => if Rlt_dec x 0 then Err NotImplementedError else Ok tt | None => Ok tt end;
  Ok (RTri (set_values l (Arr (ax0 v) (ax1 v) (ax2 v) total (av v)))
    (fun i c o d => rmul (if (d <? kept)%nat then r_of (av v i c o d) else fitted i c (skipped + (d - kept))%nat) (Some (cut i c d)))).
