(** Residuals, scale and samples of the bootstrap. *)
From Coq Require Import Lia Lra.
From Verif Require Export P_Mack P_Clark3 P_Boot2.
From Verif Require Import SpecBoot.
Local Open Scope nat_scope.

Lemma flat_map_ext_in {A B} (f g : A -> list B) l : (forall x, In x l -> f x = g x) -> flat_map f l = flat_map g l.
Proof. induction l as [|x l IH]; intros H; [reflexivity|]. cbn. rewrite H by (left; auto). f_equal. apply IH. intros; apply H; right; auto. Qed.
Lemma flat_map_if {A B} (p : A -> bool) (f : A -> B) l : flat_map (fun x => if p x then [f x] else []) l = map f (filter p l).
Proof. induction l as [|x l IH]; [reflexivity|]. cbn. rewrite IH. destruct (p x); reflexivity. Qed.
Lemma flat_map_none {A B} (f : A -> list B) l : (forall x, In x l -> f x = []) -> flat_map f l = [].
Proof. induction l as [|x l IH]; intros H; [reflexivity|]. cbn. rewrite H by (left; auto). apply IH. intros; apply H; right; auto. Qed.
Lemma filter_flat {A B} (p : B -> bool) (f : A -> list B) l : filter p (flat_map f l) = flat_map (fun x => filter p (f x)) l.
Proof. induction l as [|x l IH]; [reflexivity|]. cbn. rewrite filter_app, IH. reflexivity. Qed.
Lemma map_flat {A B C} (g : B -> C) (f : A -> list B) l : map g (flat_map f l) = flat_map (fun x => map g (f x)) l.
Proof. induction l as [|x l IH]; [reflexivity|]. cbn. rewrite map_app, IH. reflexivity. Qed.
Lemma filter_map_pair {A B} (p : B -> bool) (f : A -> B) l : filter p (map f l) = map f (filter (fun x => p (f x)) l).
Proof. induction l as [|x l IH]; [reflexivity|]. cbn. rewrite IH. destruct (p (f x)); reflexivity. Qed.

Lemma rsuml_shift m l : rsuml (map (fun v => v - m)%R l) = (rsuml l - INR (List.length l) * m)%R.
Proof. induction l as [|x l IH]; [cbn; lra|]. cbn [map rsuml List.length]. rewrite IH, S_INR. lra. Qed.
Lemma centred_sum l : l <> [] -> rsuml (centred l) = 0%R.
Proof.
  intros H. unfold centred. rewrite rsuml_shift. assert (INR (List.length l) <> 0)%R by (apply not_0_INR; destruct l; cbn; congruence). field. auto.
Qed.
Lemma centred_length l : List.length (centred l) = List.length l. Proof. apply map_length. Qed.
Lemma rcumsum_some f g d : (forall k, k <= d -> f k = Some (g k)) -> rcumsum f d = Some (rsumn (S d) g).
Proof.
  intros H. revert H. induction d as [|d IH]; intros H; [cbn; rewrite H by lia; f_equal; lra|].
  cbn [rcumsum]. rewrite IH by (intros; apply H; lia). rewrite H by lia. reflexivity.
Qed.
Lemma rcumsum_none f d : (exists k, k <= d /\ f k = None) -> rcumsum f d = None.
Proof.
  induction d as [|d IH]; intros (k & Hk & E).
  - replace k with 0 in E by lia. exact E.
  - cbn [rcumsum]. destruct (Nat.eq_dec k (S d)) as [->|]; [rewrite E; destruct (rcumsum f d); reflexivity|]. rewrite IH; [reflexivity|exists k; split; [lia|auto]].
Qed.

Section Boot.
Variables (b : boot_params) (t : tri) (n : nat).
Hypotheses (I : boot_input t n) (F : fittable (boot_dev b) t).

Lemma corner : expected_in b t n (n - 1) 0 = increment_of t 0 0 (n - 1) 0.
Proof using I.
  cbn [expected_in increment_of]. unfold expected_at, latest_of. pose proof (bn_n _ _ I). replace (n - 1 - (n - 1)) with 0 by lia. cbn [Nat.sub prodn]. field. discriminate.
Qed.

(** The cells of the residuals. *)
Record pieces (w e : arr) (inc : tri) : Prop := {
  pc_e : boot_expected b t = Ok (w, e);
  pc_i : cum_to_incr t = Ok inc;
  pc_cell : forall o d, o < n -> d < n -> av e 0 0 o d = if o + d <? n then Some (expected_in b t n o d) else None;
  pc_late : forall o d, o < n -> d < n -> n <= o + d -> boot_resid inc w e o d = None;
  pc_known : all_expected b t n -> forall o d, o + d < n -> nzr (boot_resid inc w e o d) = if counted b t o d then residual b t n o d else 0%R }.

Lemma pieces_ok : exists w e inc, pieces w e inc.
Proof using I F.
  pose proof (bn_dims t n I) as (E0 & E1 & E2 & E3). pose proof (bn_n _ _ I) as Hn. pose proof (bn_wf _ _ I) as W.
  destruct (expected_ok b t n I F) as (w & e & Ee & EC & W1 & W2).
  destruct (cum_to_incr_cell t W (bn_pat _ _ I)) as (inc & Ei & _ & _ & _ & IC); [rewrite (bn_cum _ _ I); discriminate|lia|].
  assert (INC : forall o d, o + d < n -> stores (cel inc 0 0 o d) (increment_of t 0 0 o d)).
  { intros o d Hd. rewrite IC by (unfold in_range; lia). destruct d as [|d].
    - pose proof (bn_full _ _ I o 0 Hd) as N0. cbn [increment_of]. unfold stores. split; [contradiction|]. intros _. unfold amount in *. destruct (cel t 0 0 o 0); [reflexivity|]. cbn [nz] in N0. congruence.
    - assert (K : diff_kept t o (S d) = true).
      { unfold diff_kept. apply orb_true_iff. right. apply negb_true_iff, Z.ltb_ge. pose proof (bn_future t n I o (S d) ltac:(lia) ltac:(lia)) as X. unfold future in X. destruct (Z.le_gt_cases (month_of t o (S d)) (vdate t)); [lia|]. exfalso. intuition lia. }
      rewrite K. cbn [n2n increment_of]. unfold stores. destruct (Qc_eqb_spec (amount t 0 0 o (S d) - amount t 0 0 o d)%Qc 0%Qc); split; intros; auto; contradiction. }
  exists w, e, inc. constructor; auto.
  - intros o d Ho Hd L. unfold boot_resid. rewrite EC by auto. destruct (Nat.ltb_spec (o + d) n); [lia|]. cbn [r_of option_map]. destruct (r_of (cel inc 0 0 o d)); reflexivity.
  - intros NE o d Hd. unfold boot_resid. rewrite EC by lia. destruct (Nat.ltb_spec (o + d) n); [|lia]. cbn [r_of option_map rabs rsqrt].
    set (x := expected_in b t n o d) in *. assert (PX : (0 < Rabs (rv x))%R) by (apply Rabs_pos_lt, rv_neq, NE; auto).
    destruct (Rlt_dec (Rabs (rv x)) 0); [lra|]. pose proof (sqrt_lt_R0 _ PX) as PS.
    unfold counted. destruct (INC o d Hd) as (I0 & I1). destruct (Qc_eqb_spec (increment_of t 0 0 o d) 0%Qc) as [Z|Z].
    + rewrite (I0 Z). cbn. rewrite andb_false_r. reflexivity.
    + rewrite (I1 Z). cbn [r_of option_map rsub rdiv negb]. rewrite andb_true_r. destruct (Req_EM_T (sqrt (Rabs (rv x))) 0); [lra|].
      change ((rv (increment_of t 0 0 o d) - rv x) / sqrt (Rabs (rv x)))%R with (residual b t n o d).
      destruct (Nat.eq_dec o (n - 1)) as [->|No].
      * assert (d = 0) by lia. subst d. assert (R0 : residual b t n (n - 1) 0 = 0%R) by (unfold residual; rewrite corner; unfold Rdiv; ring). rewrite R0.
        destruct (link_used b t (0 - 1) (n - 1)); destruct (r_of (av w 0 0 (n - 1) (0 - 1))); cbn [rmul nzr]; ring.
      * assert (H1 : o + S (d - 1) < n) by lia. specialize (W2 o (d - 1) H1). rewrite <- W2. destruct (W1 o (d - 1) ltac:(lia) ltac:(lia)) as [-> | [-> | ->]]; cbn [r_of option_map rmul nzr pos_weight]; [reflexivity| |].
        -- rewrite rv_0. assert (Qc_ltb 0 0 = false) as -> by reflexivity. ring.
        -- rewrite rv_1. assert (Qc_ltb 0 1 = true) as -> by reflexivity. ring.
Qed.

Lemma pool_raw w e inc : pieces w e inc -> all_expected b t n -> nonzero_cells n n (boot_resid inc w e) = raw_residuals b t n.
Proof using I.
  intros P NE. unfold nonzero_cells, raw_residuals, cells_by_origin. rewrite filter_flat, map_flat. apply flat_map_ext_in. intros o Ho. apply in_seq in Ho.
  rewrite filter_map_pair, map_map. cbn [fst snd].
  replace (seq 0 n) with (seq 0 (n - o) ++ seq (n - o) o) by (rewrite <- seq_app; f_equal; lia). rewrite flat_map_app.
  rewrite (flat_map_none _ (seq (n - o) o)); [rewrite app_nil_r|].
  2:{ intros d Hd. apply in_seq in Hd. rewrite (pc_late _ _ _ P) by lia. reflexivity. }
  rewrite <- (flat_map_if (fun d => drawn b t n (o, d)) (fun d => residual b t n o d)). apply flat_map_ext_in. intros d Hd. apply in_seq in Hd.
  pose proof (pc_known _ _ _ P NE o d ltac:(lia)) as K. unfold drawn. cbn [fst snd]. destruct (boot_resid inc w e o d) as [v|]; cbn [nzr] in K.
  - rewrite K. destruct (counted b t o d); cbn [andb].
    + destruct (Req_EM_T (residual b t n o d) 0); reflexivity.
    + destruct (Req_EM_T 0 0); [reflexivity|congruence].
  - destruct (counted b t o d); cbn [andb]; [|reflexivity]. rewrite <- K. destruct (Req_EM_T 0 0); [reflexivity|congruence].
Qed.

Lemma scale_ok w e inc : pieces w e inc -> all_expected b t n ->
  boot_scale t (boot_resid inc w e) = rdiv (Some (known_sum n (fun o d => if counted b t o d then residual b t n o d ^ 2 else 0)%R)) (Some (INR ((n - 1) * (n - 2)) / 2)%R).
Proof using I.
  intros P NE. pose proof (bn_dims t n I) as (E0 & E1 & E2 & E3). pose proof (bn_n _ _ I) as Hn. unfold boot_scale. rewrite E2, E3. f_equal; f_equal.
  - unfold known_sum. apply rsumn_ext. intros o Ho. rewrite (rsumn_cut n (n - o)).
    + apply rsumn_ext. intros d Hd. rewrite (pc_known _ _ _ P NE) by lia. destruct (counted b t o d); [reflexivity|]. ring.
    + lia.
    + intros d A B. rewrite (pc_late _ _ _ P) by lia. cbn. ring.
  - assert (X : rsumn n (fun o => rsumn n (fun d => nzr (nan_r t o d))) = known_sum n (fun _ _ => 1%R)).
    { unfold known_sum. apply rsumn_ext. intros o Ho. rewrite (rsumn_cut n (n - o)).
      - apply rsumn_ext. intros d Hd. unfold nan_r. rewrite (bn_nan t n I) by lia. destruct (Nat.ltb_spec (o + d) n); [reflexivity|lia].
      - lia.
      - intros d A B. unfold nan_r. rewrite (bn_nan t n I) by lia. destruct (Nat.ltb_spec (o + d) n); [lia|reflexivity]. }
    rewrite X, known_sum_one. rewrite !mult_INR, !plus_INR, !minus_INR by lia. cbn [INR]. lra.
Qed.
End Boot.
