(** Trending: proofs. *)
From Coq Require Import Lia Lra Permutation.
From Verif Require Export SpecTrend P_Core.
Local Open Scope R_scope.

Lemma tf_pos r n : 0 < trend_factor r n.
Proof. apply exp_pos. Qed.
Lemma tf_add r m n : -1 < r -> trend_factor r m * trend_factor r n = trend_factor r (m + n).
Proof. intros H. unfold trend_factor. rewrite <- Rpower_plus, plus_IZR. f_equal. field. Qed.
Lemma tf_0 r : -1 < r -> trend_factor r 0 = 1.
Proof. intros H. unfold trend_factor. replace (0 / 12) with 0 by field. apply Rpower_O. lra. Qed.
Lemma tf_rate0 n : trend_factor 0 n = 1.
Proof. unfold trend_factor, Rpower. rewrite Rplus_0_r, ln_1, Rmult_0_r. apply exp_0. Qed.
Lemma tf_rates r s n : -1 < r -> -1 < s -> trend_factor r n * trend_factor s n = trend_factor ((1 + r) * (1 + s) - 1) n.
Proof.
  intros Hr Hs. unfold trend_factor. replace (1 + ((1 + r) * (1 + s) - 1)) with ((1 + r) * (1 + s)) by ring. unfold Rpower. rewrite ln_mult, <- exp_plus by lra. f_equal. ring.
Qed.
Lemma tf_grows r n : -1 < r -> grows r n (trend_factor r n).
Proof.
  intros H. split; [apply tf_pos|]. rewrite <- (Rpower_pow 12) by apply tf_pos. unfold trend_factor. rewrite Rpower_mult, powerRZ_Rpower by lra. f_equal. change (INR 12) with (1 + 1 + 1 + 1 + 1 + 1 + 1 + 1 + 1 + 1 + 1 + 1). field.
Qed.
Lemma tf_mono r m n : 0 <= r -> (m <= n)%Z -> trend_factor r m <= trend_factor r n.
Proof.
  intros H Hm. unfold trend_factor. apply IZR_le in Hm. destruct (Req_dec r 0) as [->|].
  - unfold Rpower. rewrite Rplus_0_r, ln_1, !Rmult_0_r. lra.
  - apply Rle_Rpower; lra.
Qed.
(** The growth is determined by its twelfth power. *)
Lemma grows_unique r n f g : -1 < r -> grows r n f -> grows r n g -> f = g.
Proof.
  intros H [Pf Ef] [Pg Eg]. rewrite <- (Rpower_1 f Pf), <- (Rpower_1 g Pg). replace 1 with (INR 12 * / INR 12) by (apply Rinv_r; apply not_0_INR; lia).
  rewrite <- !Rpower_mult, !Rpower_pow by auto. rewrite Ef, Eg. reflexivity.
Qed.

Lemma cell_date_ok t ax o d : wf t -> inside t o d -> cell_date t ax o d = date_on t ax o d.
Proof. intros W [Ho Hd]. destruct ax; try reflexivity. apply valuation_month; auto. Qed.
Lemma clamp_nearest s e x : nearest s e x (Z.max (Z.min (if (s <? e)%Z then e else s) x) (if (s <? e)%Z then s else e)).
Proof. unfold nearest. destruct (Z.ltb_spec s e); split; try lia; intros w Hw; lia. Qed.
Lemma trend_months_ok t ax start stop o d : wf t -> inside t o d ->
  exists z, nearest (given start (vdate t)) (given stop (nth 0 (odims t) 0%Z)) (date_on t ax o d) z /\ trend_months t ax start stop o d = (given start (vdate t) - z)%Z.
Proof.
  intros W I. unfold trend_months. fold (given start (vdate t)). fold (given stop (nth 0 (odims t) 0%Z)). rewrite cell_date_ok by auto.
  eexists. split; [apply clamp_nearest|]. destruct (_ <? _)%Z; reflexivity.
Qed.
Lemma nearest_unique a b x z w : nearest a b x z -> nearest a b x w -> z = w.
Proof.
  intros [H1 H2] [H3 H4]. pose proof (H2 w H3) as A. pose proof (H4 z H1) as B.
  destruct (Z.leb_spec (Z.min a b) x) as [L|L]; [destruct (Z.leb_spec x (Z.max a b)) as [K|K]|].
  - specialize (H2 x ltac:(lia)). specialize (H4 x ltac:(lia)). lia.
  - lia.
  - lia.
Qed.
Lemma nan_r_open t o d : wf t -> inside t o d -> open_cell t o d -> nan_r t o d = Some 1.
Proof.
  intros W [Ho Hd] H. unfold nan_r. rewrite nan_triangle_cases by auto. destruct (Nat.eqb_spec (Nat.min (ax2 (values t)) (ax3 (values t))) 1); [reflexivity|].
  destruct H as [|H]; [contradiction|]. unfold future in H. destruct (Z.ltb_spec (vdate t) (month_of t o d)); [contradiction|reflexivity].
Qed.
Lemma nan_r_closed t o d : wf t -> inside t o d -> ~ open_cell t o d -> nan_r t o d = None.
Proof.
  intros W [Ho Hd] H. unfold nan_r. rewrite nan_triangle_cases by auto. destruct (Nat.eqb_spec (Nat.min (ax2 (values t)) (ax3 (values t))) 1) as [E|E]; [destruct H; left; auto|].
  destruct (Z.ltb_spec (vdate t) (month_of t o d)); [reflexivity|]. destruct H. right. unfold future. lia.
Qed.
Lemma open_dec t o d : open_cell t o d \/ ~ open_cell t o d.
Proof.
  unfold open_cell, future. destruct (Nat.eq_dec (Nat.min (ax2 (values t)) (ax3 (values t))) 1); [left; auto|].
  destruct (Z.lt_ge_cases (vdate t) (month_of t o d)); [right|left; right; lia]. intros [|]; auto.
Qed.
Lemma trend_cells x r ax s e lag : wf (rt_frame x) -> real_axis ax ->
  exists y, trend x r ax s e lag = Ok y /\ rt_frame y = rt_frame x /\
  forall i c o d, inside (rt_frame x) o d ->
    (open_cell (rt_frame x) o d -> rt_cell y i c o d = option_map (fun v => v * trend_factor r (lagged_months (rt_frame x) ax s e lag o d)) (rt_cell x i c o d)) /\
    (~ open_cell (rt_frame x) o d -> rt_cell y i c o d = None).
Proof.
  intros W A. assert (E : trend x r ax s e lag = Ok (RTri (rt_frame x) (fun i c o d => rmul (rt_cell x i c o d)
      (rmul (Some (trend_factor r (lagged_months (rt_frame x) ax s e lag o d))) (nan_r (rt_frame x) o d))))) by (destruct ax; [reflexivity..|destruct A; reflexivity]).
  eexists. split; [exact E|]. split; [reflexivity|]. intros i c o d I. cbn [rt_cell]. split; intros H.
  - rewrite nan_r_open by auto. cbn [rmul]. rewrite Rmult_1_r. destruct (rt_cell x i c o d); reflexivity.
  - rewrite nan_r_closed by auto. cbn [rmul]. destruct (rt_cell x i c o d); reflexivity.
Qed.

Lemma trend_value x r ax s e : wf (rt_frame x) -> real_axis ax -> -1 < r ->
  exists y, trend x r ax s e None = Ok y /\ rt_frame y = rt_frame x /\
  forall i c o d, inside (rt_frame x) o d ->
    (~ open_cell (rt_frame x) o d -> rt_cell y i c o d = None) /\
    (open_cell (rt_frame x) o d -> exists z f,
       nearest (given s (vdate (rt_frame x))) (given e (nth 0 (odims (rt_frame x)) 0%Z)) (date_on (rt_frame x) ax o d) z /\
       grows r (given s (vdate (rt_frame x)) - z) f /\ rt_cell y i c o d = option_map (fun v => v * f) (rt_cell x i c o d)).
Proof.
  intros W A Hr. destruct (trend_cells x r ax s e None W A) as (y & Ey & Fy & Cy). exists y. split; [exact Ey|]. split; [exact Fy|].
  intros i c o d I. destruct (Cy i c o d I) as (C1 & C2). split; [exact C2|]. intros O. cbn [lagged_months] in C1.
  destruct (trend_months_ok (rt_frame x) ax s e o d W I) as (z & Hz & Ez). rewrite Ez in C1. exists z. eexists. split; [exact Hz|]. split; [apply tf_grows; exact Hr|]. apply C1; auto.
Qed.
Lemma trend_zero x ax s e lag : wf (rt_frame x) -> real_axis ax -> blank_future_r x ->
  exists y, trend x 0 ax s e lag = Ok y /\ same_cells x y.
Proof.
  intros W A B. destruct (trend_cells x 0 ax s e lag W A) as (y & Ey & Fy & Cy). exists y. split; [exact Ey|]. split; [exact Fy|].
  intros i c o d I. destruct (Cy i c o d I) as (C1 & C2). destruct (open_dec (rt_frame x) o d) as [O|O].
  - rewrite C1 by auto. rewrite tf_rate0. destruct (rt_cell x i c o d); cbn [option_map]; [rewrite Rmult_1_r|]; reflexivity.
  - rewrite C2, B by auto. reflexivity.
Qed.
(** Two trends in a row. *)
Lemma trend_twice x r ax s e lag r' s' e' lag' : wf (rt_frame x) -> real_axis ax ->
  exists y z, trend x r ax s e lag = Ok y /\ trend y r' ax s' e' lag' = Ok z /\ rt_frame z = rt_frame x /\
  forall i c o d, inside (rt_frame x) o d ->
    (open_cell (rt_frame x) o d -> rt_cell z i c o d =
       option_map (fun v => v * (trend_factor r (lagged_months (rt_frame x) ax s e lag o d) * trend_factor r' (lagged_months (rt_frame x) ax s' e' lag' o d))) (rt_cell x i c o d)) /\
    (~ open_cell (rt_frame x) o d -> rt_cell z i c o d = None).
Proof.
  intros W A. destruct (trend_cells x r ax s e lag W A) as (y & Ey & Fy & Cy). destruct (trend_cells y r' ax s' e' lag') as (z & Ez & Fz & Cz); [rewrite Fy; auto|auto|].
  rewrite Fy in Fz, Cz. exists y, z. split; [exact Ey|]. split; [exact Ez|]. split; [exact Fz|]. intros i c o d I. destruct (Cy i c o d I) as (C1 & C2). destruct (Cz i c o d I) as (D1 & D2).
  split; intros O; [|apply D2; auto]. rewrite D1, C1 by auto. destruct (rt_cell x i c o d); cbn [option_map]; [rewrite Rmult_assoc|]; reflexivity.
Qed.
Lemma detrend_factor r n : -1 < r -> trend_factor r n * trend_factor (1 / (1 + r) - 1) n = 1.
Proof.
  intros H. assert (P : 0 < / (1 + r)) by (apply Rinv_0_lt_compat; lra). rewrite tf_rates by (auto; unfold Rdiv; lra).
  replace ((1 + r) * (1 + (1 / (1 + r) - 1)) - 1) with 0 by (field; lra). apply tf_rate0.
Qed.
Lemma trend_inverse x r ax s e lag : wf (rt_frame x) -> real_axis ax -> blank_future_r x -> -1 < r ->
  exists y z, trend x r ax s e lag = Ok y /\ trend y (1 / (1 + r) - 1) ax s e lag = Ok z /\ same_cells x z.
Proof.
  intros W A B Hr. destruct (trend_twice x r ax s e lag (1 / (1 + r) - 1) s e lag W A) as (y & z & Ey & Ez & Fz & Cz). exists y, z. split; [exact Ey|]. split; [exact Ez|]. split; [exact Fz|].
  intros i c o d I. destruct (Cz i c o d I) as (C1 & C2). destruct (open_dec (rt_frame x) o d) as [O|O].
  - rewrite C1 by auto. rewrite detrend_factor by auto. destruct (rt_cell x i c o d); cbn [option_map]; [rewrite Rmult_1_r|]; reflexivity.
  - rewrite C2, B by auto. reflexivity.
Qed.
Lemma trend_rates x r r' ax s e lag : wf (rt_frame x) -> real_axis ax -> -1 < r -> -1 < r' ->
  exists y z w, trend x r ax s e lag = Ok y /\ trend y r' ax s e lag = Ok z /\ trend x ((1 + r) * (1 + r') - 1) ax s e lag = Ok w /\ same_cells z w.
Proof.
  intros W A Hr Hr'. destruct (trend_twice x r ax s e lag r' s e lag W A) as (y & z & Ey & Ez & Fz & Cz). destruct (trend_cells x ((1 + r) * (1 + r') - 1) ax s e lag W A) as (w & Ew & Fw & Cw).
  exists y, z, w. split; [exact Ey|]. split; [exact Ez|]. split; [exact Ew|]. split; [congruence|].
  rewrite Fz. intros i c o d I. destruct (Cz i c o d I) as (C1 & C2). destruct (Cw i c o d I) as (D1 & D2). destruct (open_dec (rt_frame x) o d) as [O|O].
  - rewrite C1, D1, tf_rates by auto. reflexivity.
  - rewrite C2, D2 by auto. reflexivity.
Qed.
Lemma months_adjacent t ax a b c o d : (a <= b <= c \/ c <= b <= a)%Z ->
  (trend_months t ax (Some a) (Some b) o d + trend_months t ax (Some b) (Some c) o d = trend_months t ax (Some a) (Some c) o d)%Z.
Proof.
  intros H. unfold trend_months. set (v := cell_date t ax o d). destruct (Z.ltb_spec a b), (Z.ltb_spec b c), (Z.ltb_spec a c); lia.
Qed.
Lemma trend_adjacent x r ax a b c : wf (rt_frame x) -> real_axis ax -> -1 < r -> (a <= b <= c \/ c <= b <= a)%Z ->
  exists y z w, trend x r ax (Some a) (Some b) None = Ok y /\ trend y r ax (Some b) (Some c) None = Ok z /\ trend x r ax (Some a) (Some c) None = Ok w /\ same_cells z w.
Proof.
  intros W A Hr H. destruct (trend_twice x r ax (Some a) (Some b) None r (Some b) (Some c) None W A) as (y & z & Ey & Ez & Fz & Cz). destruct (trend_cells x r ax (Some a) (Some c) None W A) as (w & Ew & Fw & Cw).
  exists y, z, w. split; [exact Ey|]. split; [exact Ez|]. split; [exact Ew|]. split; [congruence|].
  rewrite Fz. intros i k o d I. destruct (Cz i k o d I) as (C1 & C2). destruct (Cw i k o d I) as (D1 & D2). destruct (open_dec (rt_frame x) o d) as [O|O].
  - rewrite C1, D1 by auto. cbn [lagged_months]. rewrite tf_add, months_adjacent by auto. reflexivity.
  - rewrite C2, D2 by auto. reflexivity.
Qed.
(** Earlier dates are trended by at least as much. *)
Lemma months_mono t ax start stop o d o' d' : (cell_date t ax o d <= cell_date t ax o' d')%Z -> (trend_months t ax start stop o' d' <= trend_months t ax start stop o d)%Z.
Proof. intros H. unfold trend_months. destruct (_ <? _)%Z; lia. Qed.
Lemma trend_older x r ax s e : wf (rt_frame x) -> real_axis ax -> 0 <= r ->
  exists y, trend x r ax s e None = Ok y /\ forall i c o d o' d' v w v' w', inside (rt_frame x) o d -> inside (rt_frame x) o' d' ->
    (date_on (rt_frame x) ax o d <= date_on (rt_frame x) ax o' d')%Z -> 0 < v -> 0 < v' ->
    rt_cell x i c o d = Some v -> rt_cell x i c o' d' = Some v' -> rt_cell y i c o d = Some w -> rt_cell y i c o' d' = Some w' -> w' / v' <= w / v.
Proof.
  intros W A Hr. destruct (trend_cells x r ax s e None W A) as (y & Ey & Fy & Cy). exists y. split; [exact Ey|].
  intros i c o d o' d' v w v' w' I I' Hd Pv Pv' X X' Y Y'. destruct (Cy i c o d I) as (C1 & C2). destruct (Cy i c o' d' I') as (D1 & D2).
  destruct (open_dec (rt_frame x) o d) as [O|O]; [|rewrite C2 in Y by auto; discriminate]. destruct (open_dec (rt_frame x) o' d') as [O'|O']; [|rewrite D2 in Y' by auto; discriminate].
  rewrite C1, X in Y by auto. rewrite D1, X' in Y' by auto. cbn [option_map lagged_months] in Y, Y'. injection Y as <-. injection Y' as <-.
  replace (v * trend_factor r (trend_months (rt_frame x) ax s e o d) / v) with (trend_factor r (trend_months (rt_frame x) ax s e o d)) by (field; lra).
  replace (v' * trend_factor r (trend_months (rt_frame x) ax s e o' d') / v') with (trend_factor r (trend_months (rt_frame x) ax s e o' d')) by (field; lra).
  apply tf_mono; auto. apply months_mono. rewrite !cell_date_ok by auto. exact Hd.
Qed.

(** ** The estimator *)
Definition tfs (t : tri) (ax : trend_axis) (rates : list R) (dates : list (option Z * option Z)) (o d : nat) : R :=
  rprod (map (fun p => trend_factor (fst p) (trend_months t ax (fst (snd p)) (snd (snd p)) o d)) (combine rates dates)).
Lemma trend_all_ok ax rates : real_axis ax -> forall dates x, wf (rt_frame x) -> (List.length rates <= List.length dates)%nat ->
  exists y, trend_all x ax rates dates = Ok y /\ rt_frame y = rt_frame x /\
  forall i c o d, inside (rt_frame x) o d -> open_cell (rt_frame x) o d -> rt_cell y i c o d = option_map (fun v => v * tfs (rt_frame x) ax rates dates o d) (rt_cell x i c o d).
Proof.
  intros A. induction rates as [|r rates IH]; intros dates x W L.
  - exists x. split; [reflexivity|]. split; [reflexivity|]. intros i c o d I O. unfold tfs. cbn. destruct (rt_cell x i c o d); cbn; [rewrite Rmult_1_r|]; reflexivity.
  - destruct dates as [|[s e] dates]; [cbn in L; lia|]. cbn [trend_all]. destruct (trend_cells x r ax s e None W A) as (y & Ey & Fy & Cy). rewrite Ey. cbn [rbind].
    destruct (IH dates y) as (z & Ez & Fz & Cz); [rewrite Fy; auto|cbn in L; lia|]. rewrite Fy in Fz, Cz. exists z. split; [exact Ez|]. split; [exact Fz|].
    intros i c o d I O. rewrite Cz by auto. destruct (Cy i c o d I) as (C1 & _). rewrite C1 by auto. cbn [lagged_months]. unfold tfs at 2. cbn [combine map rprod fold_right fst snd]. 
    change (fold_right Rmult 1) with rprod. fold (tfs (rt_frame x) ax rates dates o d). destruct (rt_cell x i c o d); cbn [option_map]; [rewrite Rmult_assoc|]; reflexivity.
Qed.
Lemma trend_all_short ax rates : real_axis ax -> forall dates x, (List.length dates < List.length rates)%nat -> trend_all x ax rates dates = Err IndexError.
Proof.
  intros A. induction rates as [|r rates IH]; intros dates x L; [cbn in L; lia|]. destruct dates as [|[s e] dates]; [reflexivity|]. cbn [trend_all].
  assert (E : exists y, trend x r ax s e None = Ok y) by (unfold trend; destruct ax; [eexists; reflexivity..|destruct A; reflexivity]). destruct E as (y & ->). cbn [rbind]. apply IH. cbn in L. lia.
Qed.
Lemma trend_fit_ok ax rates dates x : real_axis ax -> wf (rt_frame x) -> (List.length rates <= List.length dates)%nat ->
  exists y, trend_fit x ax rates dates = Ok y /\ rt_frame y = rt_frame x /\
  forall i c o d v, inside (rt_frame x) o d -> open_cell (rt_frame x) o d -> rt_cell x i c o d = Some v -> v <> 0 -> rt_cell y i c o d = Some (tfs (rt_frame x) ax rates dates o d).
Proof.
  intros A W L. destruct (trend_all_ok ax rates A dates x W L) as (y & Ey & Fy & Cy). unfold trend_fit. rewrite Ey. cbn [rbind]. eexists. split; [reflexivity|]. split; [reflexivity|].
  intros i c o d v I O X V. cbn [rt_cell]. rewrite Cy, X by auto. cbn [option_map rdiv]. destruct (Req_EM_T v 0); [contradiction|]. f_equal. field. auto.
Qed.
Lemma rprod_perm l l' : Permutation l l' -> rprod l = rprod l'.
Proof. unfold rprod. induction 1 as [|a l l' _ IH|a b l|l1 l2 l3 _ IH1 _ IH2]; cbn [fold_right]; [reflexivity|rewrite IH; reflexivity|ring|congruence]. Qed.
Lemma trend_fit_product ax rates dates x : real_axis ax -> wf (rt_frame x) -> List.length dates = List.length rates -> Forall (fun r => -1 < r) rates ->
  exists y, trend_fit x ax rates dates = Ok y /\ rt_frame y = rt_frame x /\
  forall i c o d v, inside (rt_frame x) o d -> open_cell (rt_frame x) o d -> rt_cell x i c o d = Some v -> v <> 0 ->
    exists fs, rt_cell y i c o d = Some (rprod fs) /\
      Forall2 (fun f p => exists z, nearest (given (fst (snd p)) (vdate (rt_frame x))) (given (snd (snd p)) (nth 0 (odims (rt_frame x)) 0%Z)) (date_on (rt_frame x) ax o d) z /\
                             grows (fst p) (given (fst (snd p)) (vdate (rt_frame x)) - z) f) fs (combine rates dates).
Proof.
  intros A W L Hr. destruct (trend_fit_ok ax rates dates x A W ltac:(lia)) as (y & Ey & Fy & Cy). exists y. split; [exact Ey|]. split; [exact Fy|].
  intros i c o d v I O X V. exists (map (fun p => trend_factor (fst p) (trend_months (rt_frame x) ax (fst (snd p)) (snd (snd p)) o d)) (combine rates dates)).
  split; [eapply Cy; eauto|]. assert (Hp : Forall (fun p => -1 < fst p) (combine rates dates)).
  { apply Forall_forall. intros [r q] Hin. apply in_combine_l in Hin. rewrite Forall_forall in Hr. apply Hr; auto. }
  clear - W I Hp. induction Hp as [|[r [s e]] l H _ IH]; cbn [map]; constructor; auto. cbn [fst snd] in *. destruct (trend_months_ok (rt_frame x) ax s e o d W I) as (z & Hz & ->). exists z. split; [exact Hz|]. apply tf_grows; auto.
Qed.
Lemma trend_fit_order ax rates dates rates' dates' x : real_axis ax -> wf (rt_frame x) -> List.length dates = List.length rates -> List.length dates' = List.length rates' ->
  Permutation (combine rates dates) (combine rates' dates') ->
  exists y y', trend_fit x ax rates dates = Ok y /\ trend_fit x ax rates' dates' = Ok y' /\
  forall i c o d v, inside (rt_frame x) o d -> open_cell (rt_frame x) o d -> rt_cell x i c o d = Some v -> v <> 0 -> rt_cell y' i c o d = rt_cell y i c o d.
Proof.
  intros A W L L' P. destruct (trend_fit_ok ax rates dates x A W ltac:(lia)) as (y & Ey & Fy & Cy). destruct (trend_fit_ok ax rates' dates' x A W ltac:(lia)) as (y' & Ey' & Fy' & Cy').
  exists y, y'. split; [exact Ey|]. split; [exact Ey'|]. intros i c o d v I O X V. rewrite (Cy i c o d v), (Cy' i c o d v) by auto. f_equal. apply rprod_perm. apply Permutation_map. symmetry. exact P.
Qed.
