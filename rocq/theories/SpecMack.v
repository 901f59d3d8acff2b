(** Specification of the Mack standard errors. *)
From Verif Require Export SpecFull SpecTrend Mack.
Local Open Scope R_scope.

(** Sum and product of the entries from number [a] up to, but not including, number [b]. *)
Definition rsum_from (a b : nat) (f : nat -> R) : R := rsumn (b - a) (fun j => f (a + j)%nat).
Fixpoint rprodn (n : nat) (f : nat -> R) : R := match n with O => 1 | S k => rprodn k f * f k end.
Definition rprod_from (a b : nat) (f : nat -> R) : R := rprodn (b - a) (fun j => f (a + j)%nat).
(** Variance at age number [d]: the deviation [s k] of every step from age [a] on, carried forward with the later factors [f]. *)
Definition carried (f s : nat -> R) (a d : nat) : R := rsum_from a d (fun k => (s k * rprod_from (S k) d f) ^ 2).

(** What the standard errors are computed from: a triangle with the factors of its development and tail, the tail ending
    after the last age; weights that are the same for every index row and column. *)
Record mack_input (t : tri) (a : mack_attrs) (lat : nat -> nat) : Prop := {
  mk_mi : method_input t; mk_pf : pattern_for t (ma_ldf a); mk_pj : projectable t (ma_ldf a); mk_ul : uniq_labels t;
  mk_la : latest_ages t lat; mk_eh : enough_history t lat; mk_ea : even_ages t (ma_ldf a);
  mk_tail : (ax3 (values t) < ax3 (values (ma_ldf a)))%nat;
  mk_w : ax0 (ma_w a) = 1%nat /\ ax1 (ma_w a) = 1%nat /\ ax2 (ma_w a) = ax2 (values t) /\ S (ax3 (ma_w a)) = ax3 (values t);
  mk_avg : S (List.length (ma_average a)) = ax3 (values t) }.
(** The risks have the labels of the triangle and a last column for the ultimate; the totals have the first origin's label. *)
Record risk_labels (t : tri) (os : list Z) (r : rtri) : Prop := {
  rl_k : kdims (rt_frame r) = kdims t; rl_v : vdims (rt_frame r) = vdims t; rl_o : odims (rt_frame r) = os;
  rl_d : dlist (ddims (rt_frame r)) = dlist (ddims t) ++ [9999%Z]; rl_vd : vdate (rt_frame r) = ULT_VAL;
  rl_0 : ax0 (values (rt_frame r)) = ax0 (values t); rl_1 : ax1 (values (rt_frame r)) = ax1 (values t);
  rl_2 : ax2 (values (rt_frame r)) = List.length os; rl_3 : ax3 (values (rt_frame r)) = S (ax3 (values t)) }.

(** The factor from age number [d] to the next, and from the last age to ultimate. *)
Definition step_factor (t l : tri) (i c d : nat) : R :=
  rv (if (S d <? ax3 (values t))%nat then factor (cel l i c 0 d) else to_ultimate l i c d).
(** All entries of a row are known. *)
Definition row_known (s : rrow) (i c n : nat) : Prop := forall d, (d < n)%nat -> exists v, s i c d = Some v.
(** Standard deviation of the next amount when the current amount is [f]. *)
Definition spread (a : average) (f sigma : R) : R :=
  match a with
  | Volume => if Rlt_dec 0 f then sigma * sqrt f else 0
  | Simple => sigma * f
  | Regression => if Req_EM_T f 0 then 0 else sigma
  end.
(** The average used for the step from age number [d]; the last one is used for the tail. *)
Definition average_at (a : mack_attrs) (d : nat) : average := nth (Nat.min d (List.length (ma_average a) - 1)) (ma_average a) Regression.
(** The weight of origin [o] at age number [d]; a missing one counts as 1, as does the tail. *)
Definition weight_at (a : mack_attrs) (o d : nat) : R :=
  if (d <? ax3 (ma_w a))%nat then match av (ma_w a) 0%nat 0%nat o d with Some q => rv q | None => 1 end else 1.
Definition sigma_row (s : option rrow) : rrow := match s with Some r => r | None => fun _ _ _ => None end.
(** No ratio after the latest age of an origin is excluded. *)
Definition open_weights (t : tri) (a : mack_attrs) (lat : nat -> nat) : Prop :=
  forall o d, (o < ax2 (values t))%nat -> (lat o <= d < ax3 (values t))%nat -> weight_at a o d = 1.
(** Deviations of the single steps: parameter, process, and parameter for all origins together. *)
Definition parameter_step (a : mack_attrs) (x : tri) (i c o d : nat) : R := rv (amount x i c o d) * nzr (ma_se a i c d).
Definition process_step (a : mack_attrs) (x : tri) (i c o d : nat) : R :=
  spread (average_at a d) (rv (amount x i c o d)) (nzr (sigma_row (ma_sigma a) i c d)) * weight_at a o d.
Definition total_step (t : tri) (a : mack_attrs) (x : tri) (lat : nat -> nat) (i c d : nat) : R :=
  rsumn (ax2 (values t)) (fun o => if (lat o <=? d)%nat then rv (amount x i c o d) else 0) * nzr (ma_se a i c d).
(** The cell of a risk. *)
Definition risk_at (r : rtri) (i c o d : nat) : R := nzr (rt_cell r i c o d).
