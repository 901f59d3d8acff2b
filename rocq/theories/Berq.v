(** BerquistSherman (adjustments/berqsherm.py).  Definitions only. *)
From Verif Require Export Arith Agg Select Additive Mack.
Local Open Scope R_scope.

(** The names of the four columns. *)
Record bs_names := BSN { bn_paid : string; bn_incurred : string; bn_reported : string; bn_closed : string }.

(** [t[name]]; a name that is also an index label gives a series (not modelled further). *)
Definition column (t : tri) (name : string) : result tri :=
  do g <- getitem_name t name; match g with GotTri u => Ok u | GotIndex _ => Err NotImplementedError end.
(** A triangle times an aggregate. *)
Definition times (t : tri) (g : aggregated) : result tri :=
  match g with AggTri u => tri_op OMul t u | AggNum x => mul_arr t (Arr 1 1 1 1 (fun _ _ _ _ => x)) end.

(** berqsherm.py 83-91: outstanding case amounts per open claim, brought to the level of the latest ones, as incurred amounts. *)
Definition bs_incurred (pw : Qc -> Z -> Qc) (rate : Qc) (paid inc rep clo : tri) : result tri :=
  do open <- tri_op OSub rep clo;
  do outstanding <- tri_op OSub inc paid;
  do avg <- tri_op ODiv outstanding open;
  do rel <- tri_op ODiv (trend_q pw avg (1 / (1 + rate) - 1)%Qc None None) avg;
  do lat <- getitem_valuation avg (fun o d => valuation avg o d =? vdate avg)%Z;
  do s <- aggregate ASum (Some AxOrigin) false lat;
  do adj <- times rel s;
  do case_ <- tri_op OMul adj open;
  tri_op OAdd case_ paid.

(** berqsherm.py 103-109: [disposal_rate] and [adj_closed_clm]; [v] is the valuation date of the triangle. *)
Definition bs_closed (v : Z) (clo ult : tri) : result (tri * tri) :=
  do rate <- tri_op ODiv clo ult;
  do zero <- mul_arr rate (scalar_arr 0%Qc);
  do one <- add_arr zero (scalar_arr 1%Qc);
  do lat <- getitem_valuation rate (fun o d => valuation rate o d =? v)%Z;
  do m <- aggregate AMean (Some AxOrigin) false lat;
  do c <- times one m;
  do c <- tri_op OMul c ult;
  Ok (set_vdate rate v, set_vdate c v).

(** berqsherm.py 112-122: the exponential curve through two neighbouring ages [k] and [k + 1] of an origin. *)
Definition rexp (x : option R) : option R := option_map exp x.
Definition half (x : option R) : option R := rdiv x (Some 2).
Definition curve_b (x0 x1 y0 y1 : option R) : option R :=
  rdiv (rsub (half (radd (rmul x0 y0) (rmul x1 y1))) (half (rmul (half (radd x0 x1)) (radd y0 y1))))
       (rsub (half (radd (rmul x0 x0) (rmul x1 x1))) (rmul (half (radd x0 x1)) (half (radd x0 x1)))).
Definition curve_a (b x0 x1 y0 y1 : option R) : option R := rexp (rsub (half (radd y0 y1)) (half (rmul b (radd x0 x1)))).
Definition bs_b (paid clo : tri) (i o k : nat) : option R :=
  curve_b (r_of (cel clo i 0 o k)) (r_of (cel clo i 0 o (S k))) (rlog (r_of (cel paid i 0 o k))) (rlog (r_of (cel paid i 0 o (S k)))).
Definition bs_a (paid clo : tri) (i o k : nat) : option R :=
  curve_a (bs_b paid clo i o k) (r_of (cel clo i 0 o k)) (r_of (cel clo i 0 o (S k))) (rlog (r_of (cel paid i 0 o k))) (rlog (r_of (cel paid i 0 o (S k)))).

(** berqsherm.py 124-146: the number of closed counts of the origin that are below the adjusted one, at least 1, less 1; then cut
    off at a number that depends on the position of the origin.  A comparison with NaN is false. *)
Definition above (x y : cell) : bool := match x, y with Some x, Some y => Qc_ltb y x | _, _ => false end.
Definition bs_lookup (clo adj : tri) (i o d : nat) : nat :=
  let n := Nat.min (ax2 (values adj)) (ax3 (values adj)) in
  let k := (Nat.max (List.length (filter (fun k => above (cel adj i 0 o d) (cel clo i 0 o k)) (seq 0 (ax3 (values clo))))) 1 - 1)%nat in
  if (o <? n - 1)%nat then Nat.min k (n - o - 2) else k.

(** The position of a label. *)
Fixpoint zpos (z : Z) (l : list Z) : option nat :=
  match l with [] => None | x :: r => if (z =? x)%Z then Some 0%nat else option_map S (zpos z r) end.
(** The label of the second operand of [+] that belongs to a label of the first: a single one belongs to all (core/dunders.py
    148-163). *)
Definition partner (l : list Z) (z : Z) : Z := match l with [x] => x | _ => z end.

(** berqsherm.py 148-178: the adjusted paid amounts of all dates before the valuation date, to which the latest paid amounts are
    added.  Modelled when the labels of the former are among those of the latter. *)
Definition bs_paid (paid adj : tri) (a b : nat -> nat -> nat -> option R) : result (nat -> nat -> nat -> option R) :=
  let curve i o d := rn2n (rmul (Some (nzr (rmul (rexp (rmul (r_of (cel adj i 0 o d)) (b i o d))) (a i o d)))) (Some (nzr (nan_r adj o d)))) in
  do lat <- getitem_valuation paid (fun o d => valuation paid o d =? vdate paid)%Z;
  do bef <- getitem_valuation adj (fun o d => valuation adj o d <? vdate adj)%Z;
  let incl l l' := forallb (fun z => existsb (Z.eqb z) l') l in
  if negb (incl (odims bef) (odims lat) && incl (dlist (ddims bef)) (dlist (ddims lat))) then Err NotImplementedError else
  if negb ((ax2 (values lat) =? ax2 (values paid)) && (ax3 (values lat) =? ax3 (values paid)))%nat then Err NotImplementedError else
  Ok (fun i o d =>
    let zo := partner (odims bef) (nth o (odims lat) 0%Z) in
    let zd := partner (dlist (ddims bef)) (nth d (dlist (ddims lat)) 0%Z) in
    let before :=
      match zpos zo (odims bef), zpos zd (dlist (ddims bef)), zpos zo (odims adj), zpos zd (dlist (ddims adj)) with
      | Some _, Some _, Some o', Some d' => if (valuation adj o' d' <? vdate adj)%Z then curve i o' d' else None
      | _, _, _, _ => None end in
    rn2n (rmul (Some (nzr (r_of (cel lat i 0 o d)) + nzr before)) (Some (nzr (nan_r lat o d))))).

Record berq := BQ {
  bq_tri : rtri;                             (** [adjusted_triangle_] *)
  bq_rate : tri;                             (** [disposal_rate_] *)
  bq_a : nat -> nat -> nat -> option R;      (** [a_], [b_] by index row, origin and age *)
  bq_b : nat -> nat -> nat -> option R }.

(** berqsherm.py 63-193 [fit].  [ult] is [ultimate_] of the estimator fitted to the reported counts.  [rate] is the parameter
    [trend], above -1.  The closing selection of known cells (186-188) is modelled when it keeps all origins and ages. *)
Definition berq_fit (pw : Qc -> Z -> Qc) (rate : Qc) (nm : bs_names) (t ult : tri) : result berq :=
  if negb (mem_str (bn_paid nm) (vdims t) && mem_str (bn_incurred nm) (vdims t) && mem_str (bn_reported nm) (vdims t) && mem_str (bn_closed nm) (vdims t))
  then Err ValueError else
  do rep <- column t (bn_reported nm);
  do clo <- column t (bn_closed nm);
  do inc <- column t (bn_incurred nm);
  do paid <- column t (bn_paid nm);
  do adj_inc <- bs_incurred pw rate paid inc rep clo;
  do rc <- bs_closed (vdate t) clo ult;
  let adj := snd rc in
  if negb ((ax2 (values adj) =? ax2 (values clo)) && (ax3 (values adj) =? ax3 (values clo)))%nat then Err NotImplementedError else
  let look := bs_lookup clo adj in
  (* 147-166: a position beyond the last pair of ages *)
  if existsb (fun i => existsb (fun o => existsb (fun d => (ax3 (values clo) - 1 <=? look i o d)%nat) (seq 0 (ax3 (values adj)))) (seq 0 (ax2 (values adj)))) (seq 0 (ax0 (values adj)))
  then Err IndexError else
  let a i o d := rmul (bs_a paid clo i o (look i o d)) (nan_r adj o d) in
  let b i o d := rmul (bs_b paid clo i o (look i o d)) (nan_r adj o d) in
  do adj_paid <- bs_paid paid adj a b;
  (* 180-188 *)
  let p := pos_of (bn_paid nm) (vdims t) in
  do v1 <- put_column (values t) (pos_of (bn_incurred nm) (vdims t)) (values adj_inc);
  do v2 <- put_column v1 (pos_of (bn_closed nm) (vdims t)) (values adj);
  let replaced := ((p =? pos_of (bn_incurred nm) (vdims t)) || (p =? pos_of (bn_closed nm) (vdims t)))%nat in
  do frame <- getitem_valuation t (fun o d => valuation t o d <=? vdate t)%Z;
  if negb ((ax2 (values frame) =? ax2 (values t)) && (ax3 (values frame) =? ax3 (values t)))%nat then Err NotImplementedError else
  Ok (BQ (RTri frame (fun i c o d =>
            if (valuation t o d <=? vdate t)%Z
            then rn2n (if ((c =? p)%nat && negb replaced)%bool then adj_paid i o d else r_of (av v2 i c o d)) else None))
         (fst rc) a b).
