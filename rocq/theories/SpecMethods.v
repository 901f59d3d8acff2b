(** Specification vocabulary for tails and reserving methods. *)
From Verif Require Export SpecDev Methods.
Local Open Scope Qc_scope.

(** A one-row set of age-to-age factors for the triangle: the same index, columns
    and grains; its ages begin with those of the triangle. *)
Record pattern_for (t l : tri) : Prop := {
  pf_wf : wf l;
  pf_k : kdims l = kdims t; pf_kl : key_labels l = key_labels t; pf_v : vdims l = vdims t;
  pf_o : odims l = [nth 0 (odims t) 0%Z];
  pf_d : exists xs more, ddims t = Ages xs /\ ddims l = Ages (xs ++ more);
  pf_pat : is_pattern l = true; pf_cum : is_cumulative l <> Some true;
  pf_vd : vdate l = ULT_VAL; pf_og : ograin l = ograin t; pf_dg : dgrain l = dgrain t }.

(** One-row factors that apply to the triangle: the same key labels and grains, ages
    that begin with those of the triangle, and the triangle's index rows (columns)
    or a single one that serves for all; any origin label. *)
Record factors_over (t l : tri) : Prop := {
  fo_wf : wf l;
  fo_k : kdims l = kdims t \/ List.length (kdims l) = 1%nat; fo_kl : key_labels l = key_labels t;
  fo_v : vdims l = vdims t \/ List.length (vdims l) = 1%nat;
  fo_o : List.length (odims l) = 1%nat;
  fo_d : exists xs more, ddims t = Ages xs /\ ddims l = Ages (xs ++ more);
  fo_pat : is_pattern l = true; fo_cum : is_cumulative l <> Some true;
  fo_og : ograin l = ograin t; fo_dg : dgrain l = dgrain t }.
(** The row (column) out of [n] that serves for row (column) [i]. *)
Definition served (n i : nat) : nat := if (n =? 1)%nat then 0%nat else i.

(** Product of the factors of row [i], column [c] from age number [d] on. *)
Definition to_ultimate (l : tri) (i c d : nat) : Qc :=
  prodn (ax3 (values l) - d) (fun k => factor (cel l i c 0 (d + k))).

(** The triangles a method is fitted to: a cumulative triangle of data in
    development view, with at least one row and column. *)
Record method_input (t : tri) : Prop := {
  mi_wf : wf t; mi_blank : blank_future t; mi_diag : even_diag t;
  mi_pat : is_pattern t = false; mi_cum : is_cumulative t = Some true;
  mi_0 : (1 <= ax0 (values t))%nat; mi_1 : (1 <= ax1 (values t))%nat }.

(** A vector with one entry per origin of the triangle, labelled as its ultimate. *)
Record ultimate_frame (t u : tri) : Prop := {
  uf_k : kdims u = kdims t; uf_kl : key_labels u = key_labels t; uf_v : vdims u = vdims t;
  uf_o : odims u = odims t; uf_d : ddims u = Vals [ULT_VAL]; uf_vd : vdate u = ULT_VAL;
  uf_cum : is_cumulative u = Some true; uf_pat : is_pattern u = false;
  uf_og : ograin u = ograin t; uf_dg : dgrain u = dgrain t;
  uf_0 : ax0 (values u) = ax0 (values t); uf_1 : ax1 (values u) = ax1 (values t);
  uf_2 : ax2 (values u) = ax2 (values t); uf_3 : ax3 (values u) = 1%nat }.

(** Exposure (or expected losses) for the triangle: one number per origin, in one
    column or in the triangle's columns. *)
Record exposure_for (t s : tri) : Prop := {
  ef_k : kdims s = kdims t; ef_kl : key_labels s = key_labels t;
  ef_v : vdims s = vdims t \/ List.length (vdims s) = 1%nat;
  ef_o : odims s = odims t; ef_d : List.length (dlist (ddims s)) = 1%nat;
  ef_og : ograin s = ograin t; ef_pat : is_pattern s = false;
  ef_0 : ax0 (values s) = List.length (kdims s); ef_1 : ax1 (values s) = List.length (vdims s);
  ef_2 : ax2 (values s) = List.length (odims s); ef_3 : ax3 (values s) = 1%nat }.
(** The exposure of origin [o] for row [i] and column [c]. *)
Definition exposure (s : tri) (i c o : nat) : Qc := amount s i (if (ax1 (values s) =? 1)%nat then 0%nat else c) o 0.

(** ** Tails *)
(** Development periods per year, from the months per period. *)
Definition periods_per_year (g : grain) : nat := Z.to_nat (12 / grain_months g).
(** Position of the attachment age: the last age of the triangle if none is
    given, otherwise the first age that is not younger. *)
Definition attaches_at (p : tail_params) (t : tri) (k : nat) : Prop :=
  match tp_attach p with
  | None => k = (ax3 (values t) - 1)%nat
  | Some a => a <> 0%Z /\ (k < ax3 (values t))%nat /\ (a <= nth k (dlist (ddims t)) 0%Z)%Z /\ forall j, (j < k)%nat -> (nth j (dlist (ddims t)) 0%Z < a)%Z
  end.
(** No factor generated by the decay is zero. *)
Definition decay_ok (p : tail_params) : Prop :=
  tp_tail p = 1 \/ forall j, 1 + tp_seed p * Qcpow (tp_decay p) j <> 0.

(** Factors [l] of the triangle before a tail is added: at least one for each age
    but the last. *)
Record factors_for (t l : tri) : Prop := {
  ff_2 : ax2 (values l) = 1%nat;
  ff_d : exists xs, ddims l = Ages xs /\ List.length xs = ax3 (values l);
  ff_3 : (ax3 (values t) <= S (ax3 (values l)))%nat /\ (1 <= ax3 (values l))%nat /\ ax3 (values t) = List.length (dlist (ddims t)) }.
(** The factors a Development estimator fits: one for each age but the last. *)
Record fitted_factors (t l : tri) : Prop := {
  fd_k : kdims l = kdims t; fd_kl : key_labels l = key_labels t; fd_v : vdims l = vdims t;
  fd_o : odims l = [nth 0 (odims t) 0%Z]; fd_d : ddims l = dmap (firstn (ax3 (values t) - 1)) (ddims t);
  fd_0 : ax0 (values l) = ax0 (values t); fd_1 : ax1 (values l) = ax1 (values t);
  fd_2 : ax2 (values l) = 1%nat; fd_3 : ax3 (values l) = (ax3 (values t) - 1)%nat;
  fd_pat : is_pattern l = true; fd_cum : is_cumulative l = Some false; fd_vd : vdate l = ULT_VAL;
  fd_og : ograin l = ograin t; fd_dg : dgrain l = dgrain t }.
(** The last two ages are one development period apart and [years] more years
    after the last age are still representable dates. *)
Definition room_after (t : tri) (years : nat) : Prop :=
  exists xs, ddims t = Ages xs /\
    (nth (ax3 (values t) - 1) xs 0 = nth (ax3 (values t) - 2) xs 0 + grain_months (dgrain t) /\
     nth (ax3 (values t) - 1) xs 0 + 12 * Z.of_nat years < 9999 /\
     nth 0 (odims t) 0 + nth (ax3 (values t) - 1) xs 0 + 12 * Z.of_nat years <= ULT_VAL)%Z.

(** ** Benktander *)
(** One Bornhuetter-Ferguson step: the latest amount plus the unreported share [q]
    of an a-priori ultimate. *)
Definition bf_step (latest q prior : Qc) : Qc := latest + q * prior.
Fixpoint iterate {A} (n : nat) (f : A -> A) (x : A) : A := match n with O => x | S n => f (iterate n f x) end.
(** Chain ladder ultimate and unreported share of origin [o] at age number [d]. *)
Definition cl_amount (t l : tri) (i c o d : nat) : Qc := amount t i c o d * to_ultimate l i c d.
Definition unreported_share (l : tri) (i c d : nat) : Qc := 1 - 1 / to_ultimate l i c d.
(** The triangle with the labels of its index rows rearranged. *)
Definition with_row_labels (t : tri) (rows : list nat) : tri :=
  Tri (map (fun i => nth i (kdims t) []) rows) (key_labels t) (vdims t) (odims t) (ddims t) (values t) (vdate t) (is_cumulative t) (is_pattern t) (ograin t) (dgrain t).
(** Distance of two numbers. *)
Definition Qcdist (a b : Qc) : Qc := if Qc_leb a b then (b - a)%Qc else (a - b)%Qc.

(** ** Cape Cod *)
(** [lat o] is the number of the latest age of origin [o]. *)
Definition latest_ages (t : tri) (lat : nat -> nat) : Prop :=
  forall o, (o < ax2 (values t))%nat -> (lat o < ax3 (values t))%nat /\ month_of t o (lat o) = vdate t.
(** Used-up exposure: the reported share of the exposure. *)
Definition used_up (l s : tri) (lat : nat -> nat) (i c o : nat) : Qc := exposure s i c o / to_ultimate l i c (lat o).
(** Origins with exposure; an origin whose amount offsets its exposure exactly is
    not used by the method. *)
Definition exposed (t s : tri) (lat : nat -> nat) (i c o : nat) : bool :=
  negb (Qc_eqb (exposure s i c o) 0) && negb (Qc_eqb (amount t i c o (lat o) + exposure s i c o) 0).
Definition gap (i j : nat) : nat := (if (i <? j)%nat then j - i else i - j)%nat.
(** Trended loss ratio of an origin. *)
Definition trended_ratio (t l s : tri) (tr : nat -> Qc) (lat : nat -> nat) (i c o : nat) : Qc :=
  amount t i c o (lat o) * tr o / used_up l s lat i c o.
(** The average of the trended ratios, weighted with used-up exposure and decay. *)
Definition cc_num (t l s : tri) (decay : Qc) (tr : nat -> Qc) (lat : nat -> nat) (i c r : nat) : Qc :=
  sum_over (ax2 (values t)) (exposed t s lat i c) (fun o => Qcpow decay (gap r o) * used_up l s lat i c o * trended_ratio t l s tr lat i c o).
Definition cc_den (t l s : tri) (decay : Qc) (lat : nat -> nat) (i c r : nat) : Qc :=
  sum_over (ax2 (values t)) (exposed t s lat i c) (fun o => Qcpow decay (gap r o) * used_up l s lat i c o).
