(** Expected increments of the bootstrap. *)
From Coq Require Import Lia.
From Verif Require Export P_Tail P_FullExp P_Corr5 P_Clark4 SpecBoot.
Local Open Scope nat_scope.

Lemma firstn_range k a m : firstn k (seq a m) = seq a (Nat.min k m).
Proof. revert a m. induction k as [|k IH]; intros a [|m]; cbn; auto. rewrite IH. reflexivity. Qed.

Section Boot.
Variables (b : boot_params) (t : tri) (n : nat).
Hypotheses (I : boot_input t n) (F : fittable (boot_dev b) t).

Lemma bn_dims : ax0 (values t) = 1 /\ ax1 (values t) = 1 /\ ax2 (values t) = n /\ ax3 (values t) = n.
Proof using I. destruct (bn_square _ _ I) as (o0 & a0 & h & (_ & E2 & E3) & _). split; [apply I|]. split; [apply I|]. auto. Qed.
Lemma bn_method : method_input t.
Proof using I.
  pose proof bn_dims as (E0 & E1 & _). destruct (bn_square _ _ I) as (o0 & a0 & h & (R & _) & _). pose proof (bn_wf _ _ I).
  constructor; try apply I; try lia. eapply regular_even_diag; eauto.
Qed.
Lemma bn_future o d : o < n -> d < n -> (future t o d <-> n <= o + d).
Proof using I. intros Ho Hd. destruct (bn_square _ _ I) as (o0 & a0 & h & Q & _). rewrite (square_future _ _ _ _ _ _ _ Q Ho Hd). lia. Qed.
Lemma bn_latest o : o < n -> month_of t o (n - 1 - o) = vdate t.
Proof using I. intros Ho. destruct (bn_square _ _ I) as (o0 & a0 & h & Q & _). rewrite (square_month _ _ _ _ _ _ _ Q Ho) by lia. rewrite (square_vdate _ _ _ _ _ Q). replace (o + (n - 1 - o)) with (n - 1) by lia. reflexivity. Qed.
Lemma bn_oldest : oldest_complete t.
Proof using I. unfold oldest_complete. pose proof bn_dims as (_ & _ & _ & ->). pose proof (bn_n _ _ I). rewrite <- (bn_latest 0) by lia. rewrite Nat.sub_0_r. lia. Qed.
Lemma bn_room : room_after t 1.
Proof using I.
  destruct (bn_square _ _ I) as (o0 & a0 & h & ((_ & _ & Ro & Rd & _) & E2 & E3) & G & U1 & U2). pose proof (bn_n _ _ I) as Hn. rewrite E3 in Rd. rewrite E2 in Ro.
  eexists. split; [exact Rd|]. rewrite E3, Ro, !nth_map_seq by lia. rewrite G.
  replace (n - 1) with (n - 2 + 1) by lia. rewrite !Nat.mul_0_r.
  assert (h * (n - 2 + 1) = h * (n - 2) + h) by nia. assert (h * (2 * n) = h * (n - 2) + h * (n - 2) + 4 * h) by nia. assert (h * n = h * (n - 2) + 2 * h) by nia.
  unfold ULT_VAL. repeat split; lia.
Qed.
Lemma bn_nan o d : o < n -> d < n -> nan_triangle t o d = if o + d <? n then Some 1%Qc else None.
Proof using I.
  intros Ho Hd. pose proof bn_dims as (_ & _ & E2 & E3). pose proof (bn_n _ _ I) as Hn. rewrite nan_triangle_cases by (try apply I; lia). rewrite E2, E3. destruct (Nat.eqb_spec (Nat.min n n) 1); [lia|].
  pose proof (bn_future o d Ho Hd) as X. unfold future in X. destruct (Z.ltb_spec (vdate t) (month_of t o d)); destruct (Nat.ltb_spec (o + d) n); auto; exfalso; intuition lia.
Qed.

(** The chain ladder on the selected factors. *)
Lemma chain : exists f l u, dev_fit (boot_dev b) t = Ok f /\ cl_fit t (Some (f_ldf f)) = Ok (l, u) /\ pattern_for t l /\ ultimate_frame t u /\ n < ax3 (values l) /\
  (forall d, d < n - 1 -> factor (cel (f_ldf f) 0 0 0 d) = step_of b t n d) /\
  (forall d, d < n -> to_ultimate l 0 0 d = prodn (n - 1 - d) (fun k => step_of b t n (d + k))) /\
  (forall o, o < n -> stores (cel u 0 0 o 0) (latest_of t n o * prodn o (fun k => step_of b t n (n - 1 - o + k)))%Qc) /\
  (forall o d, o < n -> S d < n -> cell01 (av (f_w f) 0 0 o d)) /\
  (forall o d, o + S d < n -> pos_weight (av (f_w f) 0 0 o d) = link_used b t d o) /\ projectable t l.
Proof using I F.
  pose proof bn_dims as (E0 & E1 & E2 & E3). pose proof bn_method as MI. pose proof (bn_n _ _ I) as Hn. pose proof (bn_wf _ _ I) as W.
  destruct (dev_fit_ok (boot_dev b) t W (bn_blank _ _ I) (bn_pat _ _ I) ltac:(lia) bn_oldest F) as (f & Ef & FR & U).
  assert (AT : attaches_at default_tail t (n - 1)) by (unfold attaches_at; cbn; lia).
  destruct (tail_pattern default_tail t (f_ldf f) (n - 1) MI ltac:(lia) (fit_result_fitted _ _ _ FR) decay_ok_default AT ltac:(lia) bn_room) as (l & El & PF & X3 & C1 & C2).
  { cbn [default_tail tp_years]. destruct (dgrain t); vm_compute periods_per_year; lia. }
  cbn [default_tail tp_years tp_tail] in X3, C2.
  destruct (cl_ultimate_ok t l MI PF) as (u & Eu & UF & UC).
  assert (ST : forall d, d < n - 1 -> factor (cel (f_ldf f) 0 0 0 d) = step_of b t n d).
  { intros d Hd. rewrite (fr_cell _ _ _ FR 0 0 d Volume (bp_n_periods b)) by (reflexivity || lia). rewrite E2. reflexivity. }
  assert (PP : 1 <= periods_per_year (dgrain t)) by (destruct (dgrain t); vm_compute; lia).
  assert (TU : forall d, d < n -> to_ultimate l 0 0 d = prodn (n - 1 - d) (fun k => step_of b t n (d + k))).
  { intros d Hd. rewrite (tail_to_ultimate default_tail (f_ldf f) l (n - 1) 0 0 d); cbn [default_tail tp_tail]; try lia; auto; [|discriminate].
    rewrite Qcmult_1_r. apply prodn_ext. intros k Hk. apply ST. lia. }
  exists f, l, u. split; [auto|]. split.
  { unfold cl_fit, validate_X. cbn [rbind]. rewrite <- (wf_d _ W), (fr_d _ _ _ FR).
    assert (LD : List.length (dlist (dmap (firstn (ax3 (values t) - 1)) (ddims t))) = (ax3 (values t) - 1)%nat).
    { pose proof (wf_d _ W). destruct (ddims t); cbn [dmap dlist] in *; rewrite firstn_length; lia. }
    rewrite LD. destruct (Nat.eqb_spec (ax3 (values t) - (ax3 (values t) - 1)) 1); [|lia]. rewrite El. cbn [rbind]. rewrite Eu. reflexivity. }
  split; [auto|]. split; [auto|]. split; [lia|]. split; [exact ST|]. split; [exact TU|]. split.
  { intros o Ho. specialize (UC 0 0 o (n - 1 - o)). rewrite TU in UC by lia. replace (n - 1 - (n - 1 - o)) with o in UC by lia. apply UC; [unfold in_range; lia|apply bn_latest; auto]. }
  destruct (dev_fit_inv (boot_dev b) t f W ltac:(lia) (fp_avg _ _ F) (fp_np _ _ F) (fp_fit _ _ F) (fp_fill _ _ F) Ef) as (lr & w1 & w2 & FF).
  split; [intros o d Ho Hd; apply (ff_01 _ _ _ _ _ _ FF); [unfold in_range|]; lia|]. split.
  { intros o d Hd. specialize (U 0 0 o d (bp_n_periods b)). unfold link_used. change (plain_development b) with (boot_dev b). rewrite <- U; [|unfold in_range; lia|lia|reflexivity]. unfold used.
    pose proof (bn_full _ _ I o d ltac:(lia)). pose proof (bn_full _ _ I o (S d) ltac:(lia)).
    destruct (Qc_eqb_spec (amount t 0 0 o d) 0%Qc); [contradiction|]. destruct (Qc_eqb_spec (amount t 0 0 o (S d)) 0%Qc); [contradiction|]. cbn. rewrite !andb_true_r. reflexivity. }
  destruct (tail_ok default_tail t (f_ldf f) (n - 1)) as (r & Er & _ & _ & _ & _ & _ & _ & Rd & _).
  { apply fitted_factors_for; auto; [lia| |apply (fit_result_fitted _ _ _ FR)]. destruct bn_room as (xs & Ex & _). eauto. }
  { apply decay_ok_default. } { exact AT. } { lia. }
  { rewrite (fr_3 _ _ _ FR), E3. cbn [default_tail tp_years]. destruct (dgrain t); vm_compute periods_per_year; lia. }
  assert (r = l) by congruence. subst r.
  destruct (bn_square _ _ I) as (o0 & a0 & h & Q & G & U1 & U2). pose proof Q as ((H1 & _ & Ro & RD & _) & _ & _). rewrite E3 in RD. rewrite E2 in Ro.
  rewrite (fr_d _ _ _ FR), RD in Rd. cbn [dmap dlist] in Rd. rewrite E3 in Rd. cbn [default_tail tp_years] in Rd.
  assert (FN : firstn (n - 1) (map (fun d => (a0 + Z.of_nat (h * d))%Z) (seq 0 n)) = map (fun d => (a0 + Z.of_nat (h * d))%Z) (seq 0 (n - 1))).
  { rewrite firstn_map. f_equal. clear. rewrite firstn_range. f_equal. lia. }
  rewrite FN in Rd. rewrite last_nth_len, map_length, seq_length in Rd. rewrite nth_map_seq in Rd by lia.
  assert (GP : (Z.of_nat h * Z.of_nat (periods_per_year (dgrain t)))%Z = 12%Z) by (rewrite <- G; destruct (dgrain t); reflexivity).
  assert (BD : forall a, In a (dlist (ddims l)) -> (a <= a0 + Z.of_nat (h * (n - 1)) + 12)%Z).
  { rewrite Rd. cbn [dlist]. intros a Ha. apply in_app_or in Ha. destruct Ha as [Ha|Ha]; apply in_map_iff in Ha; destruct Ha as (j & <- & Hj); apply in_seq in Hj.
    - assert (h * j <= h * (n - 1)) by nia. lia.
    - rewrite G. replace (n - 1 - 1) with (n - 2) by lia. assert (h * (n - 1) = h * (n - 2) + h) by nia. assert (Z.of_nat h * (Z.of_nat j + 1) <= Z.of_nat h * (Z.of_nat (periods_per_year (dgrain t)) + 1))%Z by nia. nia. }
  assert (h * n = h * (n - 1) + h) by nia. assert (h * (2 * n) = h * (n - 1) + h * (n - 1) + 2 * h) by nia.
  intros ages EA. rewrite EA in BD. cbn [dlist] in BD. split; [intros a Ha; apply BD in Ha; lia|].
  intros o a Ho Ha. apply BD in Ha. rewrite Ro in Ho. apply in_map_iff in Ho. destruct Ho as (j & <- & Hj). apply in_seq in Hj.
  assert (h * j <= h * (n - 1)) by nia. unfold ULT_VAL. lia.
Qed.
End Boot.
