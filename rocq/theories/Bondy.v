(** TailBondy (tails/bondy.py 48-139).  Definitions only. *)
From Verif Require Export Curve.
Local Open Scope R_scope.

(** [x ** y] of a positive float; the powers of other floats are not modelled (missing). *)
Definition fpow (x : option R) (y : R) : option R := match x with Some v => if Rlt_dec 0 v then Some (Rpower v y) else None | None => None end.

(** [X.ddims[k]] *)
Definition age_at (l : list Z) (k : Z) : result Z :=
  let n := Z.of_nat (List.length l) in
  let k := (if k <? 0 then k + n else k)%Z in
  if ((k <? 0) || (n <=? k))%Z then Err IndexError else Ok (nth (Z.to_nat k) l 0%Z).
(** bondy.py 79-87 *)
Definition earliest_of (g : grain) (l : list Z) (ea : option Z) : result Z :=
  match ea with None => age_at l (-2) | Some a => age_at l (Z.quot a (grain_step g) - 1) end.
(** [sum(X.ddims >= a)], [sum(X.ddims <= a)] *)
Definition ages_from (a : Z) (l : list Z) : nat := List.length (filter (fun x => a <=? x)%Z l).
Definition ages_to (a : Z) (l : list Z) : nat := List.length (filter (fun x => x <=? a)%Z l).
(** bondy.py 159-163 [_solver], squared and added: what [least_squares] makes small. *)
Definition bondy_loss (n : nat) (data : nat -> R) (b e : R) : R := rsumn n (fun k => (data k - e * b ^ k) ^ 2).

(** bondy.py 63-139 [fit]: [ldf] are the factors of the development of [t] and [b] the exponents found by the optimiser for each
    index row and column, which are arbitrary here; the statistics of the tail are left out ([Mack.tail_sigma], [tail_std_err]).
    If no factor is left for the optimiser its first guess has the wrong size (ValueError). *)
Definition tail_bondy (ea aa : option Z) (years : nat) (b : nat -> nat -> R) (t ldf : tri) : result rtri :=
  let aa := match aa with Some 0%Z => None | _ => aa end in
  do _ <- match aa, ea with
          | Some _, None => Err TypeError
          | Some a, Some e => if (a <? e)%Z then Err ValueError else Ok tt
          | None, _ => Ok tt
          end;
  do l <- tail_base t years ldf;
  let ages := dlist (ddims t) in
  do e <- earliest_of (dgrain t) ages ea;
  do a <- match aa with Some a => Ok a | None => age_at ages (-2) end;
  do k0 <- (if (e =? 0)%Z then Ok O else zfirst (fun x => (x =? e)%Z) ages);
  if (ax3 (values ldf) <=? k0)%nat then Err ValueError else
  let v := values l in
  let n := ages_from e ages in
  let first i c j := fpow (r_of (av v i c O k0)) (b i c ^ j) in
  let fitted i c j :=
    if (j <? n)%nat then first i c j
    else if Req_EM_T (b i c) 1 then None else fpow (first i c (n - 1)%nat) (b i c / (1 - b i c)) in
  let kept := Nat.min (ages_to a ages) (ax3 v) in
  let skipped := match ages_from a ages with O => O | S m => (n - m)%nat end in
  Ok (RTri (set_values l (Arr (ax0 v) (ax1 v) (ax2 v) (kept + (S n - skipped)) (av v)))
    (fun i c o d => if (d <? kept)%nat then r_of (av v i c o d) else fitted i c (skipped + (d - kept))%nat)).
