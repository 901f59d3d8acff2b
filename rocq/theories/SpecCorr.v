(** Specification of Mack's tests. *)
From Coq Require Export Sorted.
From Verif Require Export SpecAgg SpecView Corr.
Local Open Scope nat_scope.

(** All ways [n] coins can fall. *)
Fixpoint coins (n : nat) : list (list bool) :=
  match n with O => [[]] | S k => map (cons true) (coins k) ++ map (cons false) (coins k) end.
Definition heads (l : list bool) : nat := List.length (filter (fun b => b) l).
Definition tails (l : list bool) : nat := List.length (filter negb l).
(** Mack's statistic: the smaller of the two counts. *)
Definition smaller (l : list bool) : nat := Nat.min (heads l) (tails l).
(** Averages over all ways. *)
Definition mean_coins (n : nat) (f : list bool -> Qc) : Qc := (qsum (map f (coins n)) / qc (Z.of_nat (List.length (coins n))))%Qc.
Definition coins_mean (n : nat) : Qc := mean_coins n (fun l => qc (Z.of_nat (smaller l))).
Definition coins_variance (n : nat) : Qc :=
  mean_coins n (fun l => (qc (Z.of_nat (smaller l)) - coins_mean n) * (qc (Z.of_nat (smaller l)) - coins_mean n))%Qc.
Definition coins_prob (n z : nat) : Qc := mean_coins n (fun l => if smaller l <=? z then 1%Qc else 0%Qc).

(** A link ratio is large if at least half of the known link ratios of its age are smaller
    than it, and small if at least half are larger. *)
Definition is_large (lr : tri) (i c o d : nat) : bool :=
  match cel lr i c o d with
  | Some x => n_known (ax2 (values lr)) (fun o' => cel lr i c o' d) <=? 2 * count_if (ax2 (values lr)) (fun y => Qc_ltb y x) (fun o' => cel lr i c o' d)
  | None => false
  end.
Definition is_small (lr : tri) (i c o d : nat) : bool :=
  match cel lr i c o d with
  | Some x => n_known (ax2 (values lr)) (fun o' => cel lr i c o' d) <=? 2 * count_if (ax2 (values lr)) (fun y => Qc_ltb x y) (fun o' => cel lr i c o' d)
  | None => false
  end.
(** How many cells valued at the end of month [v] satisfy [P]. *)
Definition in_period (lr : tri) (v : Z) (P : nat -> nat -> bool) : nat :=
  List.length (filter (fun od => (month_of lr (fst od) (snd od) =? v)%Z && P (fst od) (snd od))
    (list_prod (seq 0 (ax2 (values lr))) (seq 0 (ax3 (values lr))))).
(** The months in which some cell of the triangle is valued, up to the valuation date, in order. *)
Definition valuation_months (t : tri) (vs : list Z) : Prop :=
  Sorted Z.lt vs /\
  forall v, In v vs <-> exists o d, (o < ax2 (values t))%nat /\ (d < ax3 (values t))%nat /\ month_of t o d = v /\ (v <= vdate t)%Z.
(** What the test reports for a period with [l] large and [s] small link ratios. *)
Definition reports (p_critical : Qc) (l s : nat) (x : calendar_test) : Prop :=
  ct_z x = Nat.min l s /\ ct_n x = l + s /\
  ct_expectation x = coins_mean (l + s) /\ ct_variance x = coins_variance (l + s) /\
  ct_prob x = coins_prob (l + s) (Nat.min l s) /\
  (ct_critical x = true <-> (coins_prob (l + s) (Nat.min l s) < p_critical)%Qc).

(** What the test needs of a triangle of link ratios. *)
Record testable (lr : tri) (o0 a0 : Z) (h m : nat) : Prop := {
  te_wf : wf lr; te_grid : age_grid lr o0 a0 h m; te_gap : no_gap lr h m; te_blank : blank_future lr;
  te_data : data_beyond_first lr; te_ult : before_ultimate lr; te_cum : is_cumulative lr <> Some true }.
(** Some origin other than the first has a link ratio. *)
Definition two_amounts (t : tri) : Prop :=
  exists i c o d, in_range t i c o (S d) /\ 1 <= o /\ amount t i c o d <> 0%Qc /\ amount t i c o (S d) <> 0%Qc.

(** * Correlated development factors *)

(** As many origins as ages, every origin observed up to the valuation date. *)
Definition square (t : tri) (n : nat) (o0 a0 : Z) (h : nat) : Prop :=
  regular t o0 a0 h 1 0 /\ ax2 (values t) = n /\ ax3 (values t) = n.
(** Every cell up to the valuation date holds an amount. *)
Definition complete (t : tri) : Prop :=
  forall i c o d, in_range t i c o d -> ~ future t o d -> amount t i c o d <> 0%Qc.
Definition ratio (t : tri) (i c o d : nat) : Qc := (amount t i c o (S d) / amount t i c o d)%Qc.
(** No two link ratios of one age are equal. *)
Definition untied (t : tri) : Prop :=
  forall i c o o' d, in_range t i c o (S d) -> in_range t i c o' (S d) -> ~ future t o (S d) -> ~ future t o' (S d) ->
    ratio t i c o d = ratio t i c o' d -> o = o'.
(** The rank of the [o]-th of [n] different numbers, counting from 1. *)
Definition rank_of (n : nat) (f : nat -> Qc) (o : nat) : Qc :=
  qc (Z.of_nat (1 + List.length (filter (fun o' => Qc_ltb (f o') (f o)) (seq 0 n)))).
Definition mean_of_n (n : nat) (r : nat -> Qc) : Qc := (sumn n r / qc (Z.of_nat n))%Qc.
Definition covariation (n : nat) (r s : nat -> Qc) : Qc :=
  sumn n (fun o => (r o - mean_of_n n r) * (s o - mean_of_n n s))%Qc.
(** The coefficient of correlation of two series that vary equally much. *)
Definition correlation (n : nat) (r s : nat -> Qc) (x : Qc) : Prop :=
  covariation n r r = covariation n s s /\ (0 < covariation n r r)%Qc /\ (x * covariation n r r = covariation n r s)%Qc.
