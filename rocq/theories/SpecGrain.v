(** Specification of a change of grain. *)
From Verif Require Export SpecView Grain.

(** Total of origin [o]'s amounts valued after month [lo] and not after month [hi]. *)
Definition window (t : tri) (i c o : nat) (lo hi : Z) : Qc :=
  sumn (ax3 (values t)) (fun d => if ((lo <? month_of t o d) && (month_of t o d <=? hi))%Z then amount t i c o d else 0%Qc).
(** The same over all origins that start in the [G] months from [S] on. *)
Definition block (t : tri) (i c : nat) (S G lo hi : Z) : Qc :=
  sumn (ax2 (values t)) (fun o =>
    if ((S <=? nth o (odims t) 0) && (nth o (odims t) 0 <? S + G))%Z then window t i c o lo hi else 0%Qc).

(** First month of the coarse period with the first origin: years and quarters are
    counted from the closing month, half-years from the quarter of the first origin. *)
Definition first_period (close : Z) (g : grain) (o0 : Z) : Z :=
  match g with
  | GM => o0
  | GY => o0 - (o0 - close - 1) mod 12
  | _ => o0 - (o0 - close - 1) mod 3
  end%Z.

(** Grains that nest: the new period is made of whole old periods. *)
Definition nested (old new : grain) : Prop := (grain_months old | grain_months new)%Z.
Definition allowed (t : tri) (og dg : grain) : Prop :=
  nested (ograin t) og /\ nested (dgrain t) dg /\ (grain_months dg <= grain_months og)%Z.

(** The coarse origins show their grain: years, at least two half-years, four quarters
    or at least two quarters of one calendar year. *)
Definition grain_shows (g : grain) (c0 : Z) (n : nat) : Prop :=
  match g with
  | GY => True
  | GS => (2 <= n)%nat
  | GQ => (4 <= n)%nat \/ ((2 <= n)%nat /\ (c0 mod 12 + 3 * (Z.of_nat n - 1) <= 11)%Z)
  | GM => False
  end.

(** [u] is [t] at the coarser grain [og]/[dg] with coarse origins from month [c0]:
    - nothing but the origin and development axes and the grains changes,
    - the coarse origins follow each other, the old ones lie inside them and none is
      later than the last old one,
    - valuations are kept every [dg] back from the valuation date, and the amount of a
      coarse origin at a kept valuation is the total of its old origins there: running
      totals are taken at that valuation, increments are added since the previous one. *)
Definition kept_valuation (t : tri) (dg : grain) (v : Z) : Prop :=
  exists j : nat, v = (vdate t - grain_months dg * Z.of_nat j)%Z.
Record regrained (t u : tri) (og dg : grain) (c0 : Z) : Prop := {
  rg_k : kdims u = kdims t; rg_kl : key_labels u = key_labels t; rg_v : vdims u = vdims t;
  rg_vd : vdate u = vdate t; rg_cum : is_cumulative u = is_cumulative t; rg_pat : is_pattern u = is_pattern t;
  rg_0 : ax0 (values u) = ax0 (values t); rg_1 : ax1 (values u) = ax1 (values t);
  rg_og : ograin u = og; rg_dg : dgrain u = dg;
  rg_odims : odims u = map (fun p => c0 + grain_months og * Z.of_nat p)%Z (seq 0 (ax2 (values u)));
  rg_cover : forall o, (o < ax2 (values t))%nat -> exists p, (p < ax2 (values u))%nat /\
    (nth p (odims u) 0 <= nth o (odims t) 0 < nth p (odims u) 0 + grain_months og)%Z;
  rg_last : forall p, (p < ax2 (values u))%nat -> (nth p (odims u) 0 <= last (odims t) 0)%Z;
  rg_kept : forall o d, (o < ax2 (values u))%nat -> (d < ax3 (values u))%nat ->
    kept_valuation t dg (month_of u o d) \/ future u o d;
  rg_amount : forall i c p v, (i < ax0 (values t))%nat -> (c < ax1 (values t))%nat -> (p < ax2 (values u))%nat ->
    kept_valuation t dg v ->
    window u i c p (v - 1)%Z v =
      block t i c (nth p (odims u) 0%Z) (grain_months og)
        (match is_cumulative t with Some true => v - 1 | _ => v - grain_months dg end)%Z v }.

(** What coarsening the origins needs:
    - the old origins start on period boundaries (month [close] ends a year),
    - the coarse origins show their grain,
    - the development grain is not the half-year,
    - the first valuation lies in the first development period of the first coarse
      origin, or development is monthly and the months missing before it are
      no more than the valuations there are. *)
Definition coarse_count (t : tri) (g : grain) (c0 : Z) : nat :=
  Z.to_nat ((last (odims t) 0 - c0) / grain_months g + 1)%Z.
Definition origins_ready (close : Z) (t : tri) (og : grain) : Prop :=
  let c0 := first_period close og (hd 0 (odims t))%Z in
  let v0 := month_of t 0 0 in
  (grain_months (ograin t) | hd 0 (odims t) - (close + 1))%Z /\
  grain_shows og c0 (coarse_count t og c0) /\ dgrain t <> GS /\
  ((hd 0 (odims t) = c0 /\ v0 < c0 + grain_months (dgrain t))%Z \/
   (dgrain t = GM /\ v0 < vdate t /\ v0 - c0 <= vdate t - v0 + 1))%Z.
(** First month of the coarse origins: unchanged if the origin grain is. *)
Definition coarse_start (close : Z) (t : tri) (og : grain) : Z :=
  if grain_eqb og (ograin t) then hd 0%Z (odims t) else first_period close og (hd 0%Z (odims t)).

(** Amounts remain after the change: the triangle becomes a single coarse origin, or
    some coarse origin other than the first has a non-zero total at a kept valuation. *)
Definition later_totals (t : tri) (og dg : grain) (c0 : Z) : Prop :=
  (last (odims t) 0 < c0 + grain_months og)%Z \/
  exists i c (p : nat) v, (i < ax0 (values t))%nat /\ (c < ax1 (values t))%nat /\ (1 <= p)%nat /\ kept_valuation t dg v /\
    block t i c (c0 + grain_months og * Z.of_nat p)%Z (grain_months og)
      (match is_cumulative t with Some true => v - 1 | _ => v - grain_months dg end)%Z v <> 0%Qc.

(** The triangle says whether it is cumulative, or its development grain stays. *)
Definition flag_known (t : tri) (dg : grain) : Prop := is_cumulative t <> None \/ dg = dgrain t.
