(** On-level factors: the estimator's factors on the latest diagonal. *)
From Coq Require Import Lia Sorted.
From Verif Require Import NumFacts P_Benk P_Core P_Methods TriFacts UnionFacts P_Olf P_Olf2 P_Olf3 BcastFacts SpecOlf.
Local Open Scope Z_scope.

(** The factors on the latest diagonal. *)
Lemma factors_on_diagonal (t : tri) (l : list cell) : wf t -> even_diag t -> (1 <= ax0 (values t))%nat -> (1 <= ax1 (values t))%nat -> List.length l = ax2 (values t) ->
  exists u, (do z <- mul_arr t (scalar_arr 0%Qc); do o <- add_arr z (scalar_arr 1%Qc); do m <- mul_arr o (column_arr l); latest_diagonal m) = Ok u /\
    kdims u = kdims t /\ key_labels u = key_labels t /\ vdims u = vdims t /\ odims u = odims t /\ vdate u = vdate t /\
    ax0 (values u) = ax0 (values t) /\ ax1 (values u) = ax1 (values t) /\ ax2 (values u) = ax2 (values t) /\ ax3 (values u) = 1%nat /\
    forall i c o, (i < ax0 (values t))%nat -> (c < ax1 (values t))%nat -> (o < ax2 (values t))%nat -> stores (cel u i c o 0%nat) (nz (nth o l None)).
Proof.
  intros W E H0 H1 Hl. pose proof (wf_o1 _ W) as O1. pose proof (wf_d1 _ W) as D1.
  destruct (op_arr_ok OMul t (scalar_arr 0%Qc)) as (z & Ez & Rz); [unfold bok; cbn; lia|]. change (mul_arr t _) with (op_arr OMul t (scalar_arr 0%Qc)). rewrite Ez. cbn [rbind].
  pose proof (ar_0 _ _ _ _ Rz) as Z0. pose proof (ar_1 _ _ _ _ Rz) as Z1. pose proof (ar_2 _ _ _ _ Rz) as Z2. pose proof (ar_3 _ _ _ _ Rz) as Z3. cbn [scalar_arr ax0 ax1 ax2 ax3] in Z0, Z1, Z2, Z3. rewrite Nat.max_l in Z0, Z1, Z2, Z3 by auto.
  destruct (op_arr_ok OAdd z (scalar_arr 1%Qc)) as (y & Ey & Ry); [unfold bok; cbn; lia|]. change (add_arr z _) with (op_arr OAdd z (scalar_arr 1%Qc)). rewrite Ey. cbn [rbind].
  pose proof (ar_0 _ _ _ _ Ry) as Y0. pose proof (ar_1 _ _ _ _ Ry) as Y1. pose proof (ar_2 _ _ _ _ Ry) as Y2. pose proof (ar_3 _ _ _ _ Ry) as Y3. cbn [scalar_arr ax0 ax1 ax2 ax3] in Y0, Y1, Y2, Y3. rewrite Nat.max_l in Y0, Y1, Y2, Y3 by lia. rewrite Z0 in Y0. rewrite Z1 in Y1. rewrite Z2 in Y2. rewrite Z3 in Y3.
  destruct (op_arr_ok OMul y (column_arr l)) as (m & Em & Rm); [unfold bok; cbn; lia|]. change (mul_arr y _) with (op_arr OMul y (column_arr l)). rewrite Em. cbn [rbind].
  pose proof (ar_0 _ _ _ _ Rm) as M0. pose proof (ar_1 _ _ _ _ Rm) as M1. pose proof (ar_2 _ _ _ _ Rm) as M2. pose proof (ar_3 _ _ _ _ Rm) as M3. cbn [column_arr ax0 ax1 ax2 ax3] in M0, M1, M2, M3. rewrite Nat.max_l in M0, M1, M2, M3 by lia. rewrite Y0 in M0. rewrite Y1 in M1. rewrite Y2 in M2. rewrite Y3 in M3.
  assert (Fz : same_frame t z) by (destruct Rz as [? ? ? ? ? ? (? & ? & ? & ?) ? ? ? ? _]; constructor; auto; try lia; try congruence).
  assert (Fy : same_frame z y) by (destruct Ry as [? ? ? ? ? ? (? & ? & ? & ?) ? ? ? ? _]; constructor; auto; try lia; try congruence).
  assert (Fm : same_frame y m) by (destruct Rm as [? ? ? ? ? ? (? & ? & ? & ?) ? ? ? ? _]; constructor; auto; try lia; try congruence).
  pose proof (wf_same_frame _ _ W Fz) as Wz. pose proof (wf_same_frame _ _ Wz Fy) as Wy. pose proof (wf_same_frame _ _ Wy Fm) as Wm.
  assert (Mo : forall o d, month_of m o d = month_of t o d).
  { intros. rewrite (month_same_frame _ _ _ _ Fm), (month_same_frame _ _ _ _ Fy), (month_same_frame _ _ _ _ Fz). reflexivity. }
  assert (Vd : vdate m = vdate t) by (rewrite (ar_vd _ _ _ _ Rm), (ar_vd _ _ _ _ Ry), (ar_vd _ _ _ _ Rz); auto).
  assert (Em' : even_diag m).
  { destruct E as [E1 (a & s & k & Hs & E2)]. split.
    - intros o Ho. destruct (E1 o) as (d & Hd & Hm); [lia|]. exists d. rewrite Mo, Vd, M3. auto.
    - exists a, s, k. split; auto. rewrite M3. intros d Hd. specialize (E2 d Hd). rewrite <- E2.
      split; (intros (o & Ho & Hm); exists o; rewrite ?Mo, ?Vd, ?M2 in *; auto). }
  destruct (latest_diagonal_ok m Wm Em') as (u & Eu & Uk & Ukl & Uv & Uo & Uvd & U0 & U1 & U2 & U3 & Uc & _).
  exists u. split; [auto|]. rewrite Uk, Ukl, Uv, Uo, Uvd, U0, U1, U2, U3.
  rewrite (ar_k _ _ _ _ Rm), (ar_k _ _ _ _ Ry), (ar_k _ _ _ _ Rz), (ar_kl _ _ _ _ Rm), (ar_kl _ _ _ _ Ry), (ar_kl _ _ _ _ Rz), (ar_v _ _ _ _ Rm), (ar_v _ _ _ _ Ry), (ar_v _ _ _ _ Rz), (ar_o _ _ _ _ Rm), (ar_o _ _ _ _ Ry), (ar_o _ _ _ _ Rz).
  do 5 (split; [auto|]). do 4 (split; [lia|]). intros i c o Hi Hc Ho.
  destruct (proj1 E o Ho) as (d & Hd & Hm). assert (Rg : in_range m i c o d) by (unfold in_range; lia).
  specialize (Uc i c o d Rg). rewrite Mo, Vd in Uc. specialize (Uc Hm).
  assert (A : amount m i c o d = nz (nth o l None)).
  { unfold amount. rewrite (ar_cell _ _ _ _ Rm). rewrite bav_in by lia. fold (cel y i c o d). rewrite (ar_cell _ _ _ _ Ry), bav_scalar.
    assert (Nt : nan_triangle y o d = Some 1%Qc).
    { rewrite nan_triangle_cases by (auto; rewrite ?Y2, ?Y3; auto). rewrite (month_same_frame _ _ _ _ Fy), (month_same_frame _ _ _ _ Fz), (ar_vd _ _ _ _ Ry), (ar_vd _ _ _ _ Rz), Hm, Z.ltb_irrefl. destruct (_ =? 1)%nat; reflexivity. }
    rewrite Nt, (bav_in (values z)) by lia. fold (cel z i c o d). rewrite (ar_cell _ _ _ _ Rz), bav_scalar, bav_in by lia.
    unfold bav, bidx. cbn [column_arr ax0 ax1 ax2 ax3 av].
    replace (nth (if (List.length l =? 1)%nat then 0%nat else o) l None) with (nth o l None) by (destruct (Nat.eqb_spec (List.length l) 1); [f_equal; lia|auto]).
    assert (ZZ : (n2n (cmul (cop OAdd (cop OMul (av (values t) i c o d) (Some 0%Qc)) (Some 1%Qc)) (Some (nz (Some 1%Qc))))) = Some 1%Qc).
    { assert (Ne : (1 <> 0)%Qc) by (intros X; apply (f_equal this) in X; discriminate X).
      assert (Q : forall q : Qc, q = 1%Qc -> n2n (Some q) = Some 1%Qc) by (intros q ->; apply n2n_Some; auto).
      destruct (av (values t) i c o d); cbn [cop cmul cadd nz]; unfold nz_add; cbn [nz cadd cmul]; apply Q; ring. }
    rewrite ZZ. cbn [cop cmul]. destruct (nth o l None) as [q|]; cbn [cmul nz]; [ring|reflexivity]. }
  rewrite A in Uc. exact Uc.
Qed.

Lemma rows_snd (F : Z -> Qc) lo hi : map snd (map (fun p => (p, Some (F p))) (zrange lo hi)) = map (fun p => Some (F p)) (zrange lo hi).
Proof. rewrite map_map. reflexivity. Qed.
Lemma zrange_S lo hi : lo <= hi -> zrange lo hi = lo :: zrange (lo + 1) hi.
Proof.
  intros H. unfold zrange. replace (Z.to_nat (hi - lo + 1)) with (S (Z.to_nat (hi - (lo + 1) + 1))) by lia. cbn [seq map]. f_equal; [lia|].
  rewrite <- seq_shift, map_map. apply map_ext. intros; lia.
Qed.
Lemma years_ends p0 p1 : p0 <= p1 -> nth 0 (map (fun p => 12 * p) (zrange p0 p1)) 0 = 12 * p0 /\ last (map (fun p => 12 * p) (zrange p0 p1)) 0 = 12 * p1.
Proof.
  intros H. split.
  - rewrite nth_zrange by lia. lia.
  - unfold zrange. replace (Z.to_nat (p1 - p0 + 1)) with (S (Z.to_nat (p1 - p0))) by lia. rewrite seq_S, !map_app. cbn [map]. rewrite last_last. lia.
Qed.
Section Fit.
Context (ch : history) (t : tri) (p0 p1 : Z) (ap : approximation) (v : bool).
Hypotheses (W : wf t) (E : even_diag t) (H0 : (1 <= ax0 (values t))%nat) (H1 : (1 <= ax1 (values t))%nat) (Hg : ograin t = GY)
  (Ho : odims t = map (fun p => 12 * p) (zrange p0 p1)).
Lemma fit_order : p0 <= p1.
Proof using W Ho. clear H0 H1. pose proof (wf_o1 _ W) as O1. rewrite (wf_o _ W), Ho, map_length, len_zrange in O1. lia. Qed.
Lemma fit_len : ax2 (values t) = Z.to_nat (p1 - p0 + 1).
Proof using W Ho. rewrite (wf_o _ W), Ho, map_length, len_zrange. reflexivity. Qed.
Lemma fit_args : fit_olf ch t ap v =
  (do f <- parallelogram_olf (merged ch) (12 * p0) (12 * p1 + 11) GY ap v;
   do z <- mul_arr t (scalar_arr 0%Qc); do o <- add_arr z (scalar_arr 1%Qc); do m <- mul_arr o (column_arr (map snd f)); latest_diagonal m).
Proof.
  unfold fit_olf. rewrite Hg, Ho. destruct (years_ends p0 p1 fit_order) as [-> ->]. replace (12 * p1 + origin_len GY - 1) with (12 * p1 + 11) by (cbn; lia). reflexivity.
Qed.
Lemma fit_rows (F : Z -> Qc) : (forall x, F x <> 0%Qc) ->
  parallelogram_olf (merged ch) (12 * p0) (12 * p1 + 11) GY ap v = Ok (map (fun p => (p, Some (F (12 * p)))) (zrange p0 p1)) ->
  exists u, fit_olf ch t ap v = Ok u /\ on_diagonal t u F.
Proof.
  intros Fn P. rewrite fit_args, P. cbn [rbind]. rewrite (rows_snd (fun p => F (12 * p))).
  destruct (factors_on_diagonal t (map (fun p => Some (F (12 * p))) (zrange p0 p1)) W E H0 H1) as (u & Eu & Uk & Ukl & Uv & Uo & Uvd & U0 & U1 & U2 & U3 & Uc).
  { rewrite map_length, len_zrange, fit_len. reflexivity. }
  exists u. split; [exact Eu|]. unfold on_diagonal. do 9 (split; [assumption|]). intros i c o Hi Hc Hoo. specialize (Uc i c o Hi Hc Hoo).
  rewrite fit_len in Hoo. rewrite nth_zrange in Uc by auto. rewrite Ho, nth_zrange by auto. apply Uc. cbn [nz]. apply Fn.
Qed.
End Fit.
Lemma month_level_merged ch x : month_level (merged ch) x = month_level ch x.
Proof. apply merged_rate. Qed.
Lemma earning_ext w f g m : (forall x, f x = g x) -> earning w f m = earning w g m.
Proof. intros H. unfold earning. rewrite !H. do 3 f_equal. f_equal. apply sumn_ext. intros; apply H. Qed.
Lemma average_ext n f g s : (forall x, f x = g x) -> average n f s = average n g s.
Proof. intros H. unfold average. f_equal. apply sumn_ext. intros; apply H. Qed.
Lemma fit_by_month ch t p0 p1 v : wf t -> even_diag t -> (1 <= ax0 (values t))%nat -> (1 <= ax1 (values t))%nat -> ograin t = GY -> odims t = map (fun p => 12 * p) (zrange p0 p1) ->
  positive_changes ch -> on_month_starts ch ->
  exists u, fit_olf ch t ByMonth v = Ok u /\
    on_diagonal t u (fun o => month_level ch (12 * p1 + 11) / average 12 (if v then month_level ch else earning 12 (month_level ch)) o)%Qc.
Proof.
  intros W E H0 H1 Hg Ho P M. apply (fit_rows ch t p0 p1); auto.
  - intros x. apply Qc_pos_ne, Qcdiv_pos; [apply rate_pos, P|]. apply average_pos; [lia|]. intros y. destruct v; [apply rate_pos, P|apply earning_pos; [lia|intros; apply rate_pos, P]].
  - pose proof (fit_order _ _ _ W Ho). rewrite years_by_month; [|apply merged_sound; auto|apply merged_months; auto|].
    + replace (12 * p0 / 12) with p0 by (Z.to_euclidean_division_equations; lia). replace ((12 * p1 + 11) / 12) with p1 by (Z.to_euclidean_division_equations; lia).
      f_equal. apply map_ext. intros p. do 2 f_equal. rewrite month_level_merged. f_equal. apply average_ext. intros x. destruct v; [apply month_level_merged|apply earning_ext, month_level_merged].
    + unfold whole_years. Z.to_euclidean_division_equations; lia.
Qed.
Lemma day_series_ext v w f g m : (forall x, f x = g x) -> day_series v w f m = day_series v w g m.
Proof. intros H. unfold day_series. destruct v; [apply H|apply earning_ext, H]. Qed.
Lemma day_average_ext v f g a p : (forall x, f x = g x) -> day_average v f a p = day_average v g a p.
Proof. intros H. unfold day_average. destruct (leap_year p), (p =? a); apply average_ext; intros; apply day_series_ext, H. Qed.
Lemma day_average_pos v f a p : (forall x, (0 < f x)%Qc) -> (0 < day_average v f a p)%Qc.
Proof.
  intros H. assert (S : forall w x, (1 <= w)%nat -> (0 < day_series v w f x)%Qc) by (intros w x Hw; unfold day_series; destruct v; [apply H|apply earning_pos; auto]).
  assert (N1 : (1 <= 365)%nat) by (apply Nat.leb_le; reflexivity). assert (N2 : (1 <= 366)%nat) by (apply Nat.leb_le; reflexivity).
  unfold day_average. destruct (leap_year p), (p =? a); apply average_pos; auto.
Qed.
Lemma fit_by_day ch t p0 p1 v : wf t -> even_diag t -> (1 <= ax0 (values t))%nat -> (1 <= ax1 (values t))%nat -> ograin t = GY -> odims t = map (fun p => 12 * p) (zrange p0 p1) ->
  positive_changes ch -> leap_year (p0 - 1) = false ->
  exists u, fit_olf ch t ByDay v = Ok u /\
    on_diagonal t u (fun o => rate_level ch (year_start (p1 + 1) - 1)%Z / day_average v (rate_level ch) p0 (o / 12)%Z)%Qc.
Proof.
  intros W E H0 H1 Hg Ho P L. apply (fit_rows ch t p0 p1); auto.
  - intros x. apply Qc_pos_ne, Qcdiv_pos; [apply rate_pos, P|]. apply day_average_pos. intros; apply rate_pos, P.
  - pose proof (fit_order _ _ _ W Ho). rewrite years_by_day; [|apply merged_sound; auto|auto|auto].
    f_equal. apply map_ext. intros p. do 2 f_equal. rewrite merged_rate. f_equal. replace (12 * p / 12) with p by (Z.to_euclidean_division_equations; lia). apply day_average_ext, merged_rate.
Qed.
(** The first origin follows a leap year. *)
Lemma fit_after_leap ch t p0 p1 v : wf t -> (1 <= ax0 (values t))%nat -> (1 <= ax1 (values t))%nat -> ograin t = GY -> odims t = map (fun p => 12 * p) (zrange p0 p1) ->
  positive_changes ch -> leap_year (p0 - 1) = true -> p0 < p1 -> exists e, fit_olf ch t ByDay v = Err e.
Proof.
  intros W H0 H1 Hg Ho P L Hp. rewrite (fit_args ch t p0 p1) by auto. rewrite years_after_leap; [|apply merged_sound; auto|lia|auto]. cbn [rbind].
  pose proof (wf_o1 _ W) as O1. pose proof (wf_d1 _ W) as D1. pose proof (fit_len _ _ _ W Ho) as A2.
  destruct (op_arr_ok OMul t (scalar_arr 0%Qc)) as (z & Ez & Rz); [unfold bok; cbn; lia|]. change (mul_arr t _) with (op_arr OMul t (scalar_arr 0%Qc)). rewrite Ez. cbn [rbind].
  pose proof (ar_0 _ _ _ _ Rz) as Z0. pose proof (ar_1 _ _ _ _ Rz) as Z1. pose proof (ar_2 _ _ _ _ Rz) as Z2. pose proof (ar_3 _ _ _ _ Rz) as Z3. cbn [scalar_arr ax0 ax1 ax2 ax3] in Z0, Z1, Z2, Z3. rewrite Nat.max_l in Z0, Z1, Z2, Z3 by auto.
  destruct (op_arr_ok OAdd z (scalar_arr 1%Qc)) as (y & Ey & Ry); [unfold bok; cbn; lia|]. change (add_arr z _) with (op_arr OAdd z (scalar_arr 1%Qc)). rewrite Ey. cbn [rbind].
  pose proof (ar_2 _ _ _ _ Ry) as Y2. cbn [scalar_arr ax0 ax1 ax2 ax3] in Y2. rewrite Nat.max_l in Y2 by lia.
  match goal with |- context [column_arr ?l] => assert (Ll : List.length l = Z.to_nat (p1 - p0 + 2)) by (rewrite !map_length, len_zrange; lia); set (L' := l) in * end.
  unfold mul_arr, bmap2. cbn [column_arr ax0 ax1 ax2 ax3].
  assert (B : exists e, bdim (ax2 (values y)) (List.length L') = Err e) by (unfold bdim; rewrite Y2, Z2, A2, Ll; repeat match goal with |- context [Nat.eqb ?a ?b] => destruct (Nat.eqb_spec a b); try lia end; eexists; reflexivity).
  destruct B as (e & B). rewrite B. destruct (bdim (ax0 (values y)) 1); cbn [rbind]; [|eexists; reflexivity]. destruct (bdim (ax1 (values y)) 1); cbn [rbind]; eexists; reflexivity.
Qed.

(** ** Changes that do not matter *)
Lemma level_ext ch ch' idx i : (forall j, change_at ch (idx j) = change_at ch' (idx j)) -> level ch idx i = level ch' idx i.
Proof. intros H. unfold level. apply prodn_ext. intros j _. rewrite H. reflexivity. Qed.
Lemma rolling_ext w f g i : (forall j, f j = g j) -> rolling w f i = rolling w g i.
Proof. intros H. unfold rolling. destruct (_ <? _)%nat; auto. do 2 f_equal. apply sumn_ext. auto. Qed.
Lemma smoothed_ext w f g i : (forall j, f j = g j) -> smoothed w f i = smoothed w g i.
Proof. intros H. unfold smoothed. destruct i; auto. rewrite !(rolling_ext w f g) by auto. reflexivity. Qed.
Lemma means_ext per f g k n : (forall j, f j = g j) -> period_means per f k n = period_means per g k n.
Proof. intros H. unfold period_means. apply map_ext. intros p. f_equal. f_equal. apply map_ext. auto. Qed.
Lemma mid_month_ignored d r ch a b g v : NoDup (map fst ((d, r) :: ch)) -> within_a_month d ->
  parallelogram_olf ((d, r) :: ch) a b g ByMonth v = parallelogram_olf ch a b g ByMonth v.
Proof.
  intros N M. assert (N' : NoDup (map fst ch)) by (inversion N; auto).
  unfold parallelogram_olf. rewrite !distinct_ok by auto. cbn [negb].
  assert (L : forall i, level ((d, r) :: ch) (index_at ByMonth a) i = level ch (index_at ByMonth a) i).
  { intros i. apply level_ext. intros j. cbn [change_at]. destruct (Z.eqb_spec d (index_at ByMonth a j)) as [Ed|]; auto. exfalso. apply (M _ Ed). }
  destruct g; auto; cbv zeta; rewrite !L;
    rewrite !(means_ext _ (if v then fun i => Some (level ((d, r) :: ch) (index_at ByMonth a) i) else smoothed 12 (level ((d, r) :: ch) (index_at ByMonth a))) (if v then fun i => Some (level ch (index_at ByMonth a) i) else smoothed 12 (level ch (index_at ByMonth a))))
      by (intros j; destruct v; [rewrite L; reflexivity|apply smoothed_ext, L]); reflexivity.
Qed.
Lemma rate_same ch d e : (forall c, In c ch -> fst c <= d \/ e < fst c) -> d <= e -> forall x, d <= x <= e -> rate_level ch x = rate_level ch e.
Proof.
  intros H He x Hx. unfold rate_level. f_equal. apply map_ext_in. intros c Hc. specialize (H c Hc). destruct (Z.leb_spec (fst c) x), (Z.leb_spec (fst c) e); auto; lia.
Qed.
Lemma sumn_same n (f : nat -> Qc) c : (forall j, (j < n)%nat -> f j = c) -> sumn n f = (qc (Z.of_nat n) * c)%Qc.
Proof.
  induction n as [|n IH]; intros H; [cbn [sumn]; change (Z.of_nat 0) with 0; rewrite qcZ_0; ring|]. cbn [sumn]. rewrite IH by (intros; apply H; lia). rewrite H by lia. rewrite qc_S. ring.
Qed.
Lemma average_same n f s c : (1 <= n)%nat -> (forall x, s <= x < s + Z.of_nat n -> f x = c) -> average n f s = c.
Proof.
  intros Hn H. unfold average. rewrite (sumn_same n _ c) by (intros; apply H; lia). assert (qc (Z.of_nat n) <> 0%Qc) by (apply qc_ne; auto). field. auto.
Qed.
Lemma earning_same w f m c : (1 <= w)%nat -> (forall x, m - Z.of_nat w <= x <= m -> f x = c) -> earning w f m = c.
Proof.
  intros Hw H. unfold earning. rewrite (sumn_same _ _ c) by (intros; apply H; lia). rewrite !H by lia. rewrite Nat2Z.inj_sub by auto. change (Z.of_nat 1) with 1. rewrite qcZ_minus, qcZ_1, qcZ_mult, qcZ_2.
  pose proof two_ne. assert (qc (Z.of_nat w) <> 0%Qc) by (apply qc_ne; auto). field. auto.
Qed.
Lemma settled ch a b v p : sound_history ch -> on_month_starts ch -> whole_years a b -> a / 12 <= p <= b / 12 -> no_change_since ch p b ->
  exists rows, parallelogram_olf ch a b GY ByMonth v = Ok rows /\ In (p, Some 1%Qc) rows.
Proof.
  intros SH M Hy Hp N. rewrite years_by_month by auto. eexists; split; [reflexivity|]. apply in_map_iff. exists p.
  assert (Hb : 12 * p + 11 <= b) by (destruct Hy as (_ & Hb & _); Z.to_euclidean_division_equations; lia).
  assert (S : forall x, 12 * p - 12 <= x <= b -> month_level ch x = month_level ch b).
  { intros x Hx. unfold month_level. apply (rate_same ch (first_day (12 * p - 12))); [exact N|apply first_day_le; lia|split; apply first_day_le; lia]. }
  split; [|apply zrange_in; auto]. do 2 f_equal. rewrite (average_same 12 _ _ (month_level ch b)).
  - assert (month_level ch b <> 0%Qc) by (apply Qc_pos_ne, rate_pos, SH). field. auto.
  - lia.
  - intros x Hx. destruct v; [apply S; lia|]. apply earning_same; [lia|]. intros y Hyy. apply S. lia.
Qed.
