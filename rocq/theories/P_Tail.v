(** Constant tails. *)
From Coq Require Import Lia Sorted.
From Verif Require Export P_Methods.
Local Open Scope Z_scope.

Lemma zfirst_ok f l k : (k < List.length l)%nat -> f (nth k l 0) = true -> (forall j, (j < k)%nat -> f (nth j l 0) = false) -> zfirst f l = Ok k.
Proof.
  revert k; induction l as [|x l IH]; intros k Hk Hf Hl; [simpl in Hk; lia|].
  destruct k as [|k]; cbn.
  - cbn in Hf. rewrite Hf. reflexivity.
  - pose proof (Hl 0%nat ltac:(lia)) as H0. cbn in H0. rewrite H0. rewrite (IH k); auto.
    + simpl in Hk; lia.
    + intros j Hj. apply (Hl (S j)). lia.
Qed.
Lemma attach_ok p t k : attaches_at p t k -> ax3 (values t) = List.length (dlist (ddims t)) ->
  match tp_attach p with
  | None => Ok (List.length (dlist (ddims t)) - 1)%nat
  | Some a => if a =? 0 then Ok (List.length (dlist (ddims t)) - 1)%nat else zfirst (fun x => a <=? x) (dlist (ddims t))
  end = Ok k.
Proof.
  unfold attaches_at. intros H L. destruct (tp_attach p) as [a|].
  - destruct H as (H0 & H1 & H2 & H3). destruct (Z.eqb_spec a 0); [congruence|].
    apply zfirst_ok; [lia|apply Z.leb_le; auto|]. intros j Hj. apply Z.leb_gt. auto.
  - subst. rewrite L. reflexivity.
Qed.
Lemma decay_factor_ne p k : decay_ok p -> decay_factor (tp_tail p) (tp_decay p) (tp_seed p) k <> 0%Qc.
Proof.
  unfold decay_ok, decay_factor. intros H. destruct (Qc_eqb_spec (tp_tail p) 1%Qc); [discriminate|]. destruct H; [congruence|auto].
Qed.
Lemma per_year_periods g : per_year g = periods_per_year g.
Proof. destruct g; reflexivity. Qed.
Lemma grain_step_months g : grain_step g = grain_months g.
Proof. destruct g; reflexivity. Qed.

Lemma tail_ok p t l k : factors_for t l -> decay_ok p -> attaches_at p t k -> (1 <= k)%nat ->
  let m := S (periods_per_year (dgrain t) * tp_years p) in
  let n := (ax3 (values l) + m)%nat in
  (n - k <= 1000)%nat ->
  exists r, tail_constant p t l = Ok r /\
    kdims r = kdims l /\ key_labels r = key_labels l /\ vdims r = vdims l /\ odims r = odims l /\ vdate r = vdate l /\ same_flags l r /\
    ddims r = Ages (dlist (ddims l) ++ map (fun j => last (dlist (ddims l)) 0 + grain_months (dgrain t) * (Z.of_nat j + 1)) (seq 0 m)) /\
    ax0 (values r) = ax0 (values l) /\ ax1 (values r) = ax1 (values l) /\ ax2 (values r) = 1%nat /\ ax3 (values r) = n /\
    (forall i c o d, (d < k)%nat -> cel r i c o d = if (d <? ax3 (values l))%nat then cel l i c o d else Some 1%Qc) /\
    (forall i c o, prodn (n - k) (fun j => amount r i c o (k + j)%nat) = tp_tail p) /\
    (tp_tail p = 1%Qc -> forall i c o d, (k <= d < n)%nat -> cel r i c o d = Some 1%Qc).
Proof.
  intros FF DO AT K1 m n N. unfold tail_constant, tail_base. destruct (ff_d _ _ FF) as (xs & Ed & Lx). destruct (ff_3 _ _ FF) as (L3 & L4 & Lt).
  assert (Kt : (k < ax3 (values t))%nat).
  { unfold attaches_at in AT. destruct (tp_attach p); [tauto|]. subst k. lia. }
  rewrite Ed. cbn [rbind]. rewrite (attach_ok p t k) by auto. cbn [rbind]. unfold apply_decay.
  cbn [set_ddims set_dims set_values values ax0 ax1 ax2 ax3]. rewrite per_year_periods. fold m n.
  destruct (Nat.eqb_spec k 0); [lia|]. destruct (Nat.ltb_spec 1000 (n - k)); [lia|].
  eexists; split; [reflexivity|]. cbn [set_values set_ddims set_dims values kdims key_labels vdims odims ddims vdate ax0 ax1 ax2 ax3 dlist].
  do 5 (split; [reflexivity|]). split; [repeat split|].
  split. { f_equal. f_equal. rewrite grain_step_months. apply map_ext. intros j. lia. }
  do 2 (split; [reflexivity|]). split; [apply FF|]. split; [reflexivity|].
  set (f := decay_factor (tp_tail p) (tp_decay p) (tp_seed p)).
  assert (Fne : forall j, f j <> 0%Qc) by (intros; apply decay_factor_ne; auto).
  assert (NK : (n - (n - k) = k)%nat) by (unfold n, m in *; lia).
  assert (K2 : (k <= ax3 (values l))%nat) by lia.
  match goal with |- (forall i c o d, _ -> cel ?r i c o d = _) /\ _ => set (u := r) end.
  assert (C : forall i c o d, cel u i c o d = if (d <? k)%nat then (if (d <? ax3 (values l))%nat then cel l i c o d else Some 1%Qc)
     else if (d =? n - 1)%nat then cdiv (Some (tp_tail p)) (Some (prodn (n - k - 1) f)) else Some (f (d - k)%nat)).
  { intros. unfold u, cel. cbn [set_values values av]. rewrite NK. reflexivity. }
  clearbody u. split; [|split].
  - intros i c o d Hd. rewrite C. destruct (Nat.ltb_spec d k); [reflexivity|lia].
  - intros i c o. assert (E : exists q, (n - k = S q)%nat) by (exists (n - k - 1)%nat; unfold n, m in *; lia). destruct E as (q & E).
    rewrite E. cbn [prodn]. unfold amount. rewrite (prodn_ext q _ f).
    + rewrite C. destruct (Nat.ltb_spec (k + q) k); [lia|]. destruct (Nat.eqb_spec (k + q) (n - 1)); [|lia].
      replace (n - k - 1)%nat with q by lia.
      rewrite cdiv_Some by (apply prodn_ne; auto). cbn [nz]. field. apply prodn_ne; auto.
    + intros j Hj. rewrite C. destruct (Nat.ltb_spec (k + j) k); [lia|]. destruct (Nat.eqb_spec (k + j) (n - 1)); [lia|]. cbn [nz]. f_equal. lia.
  - intros T i c o d Hd. assert (F1 : forall j, f j = 1%Qc) by (intros; unfold f, decay_factor; rewrite T; destruct (Qc_eqb_spec 1%Qc 1%Qc); [reflexivity|congruence]).
    rewrite C. destruct (Nat.ltb_spec d k); [lia|].
    rewrite prodn_1 by auto. rewrite T. destruct (Nat.eqb_spec d (n - 1)); [|rewrite F1; reflexivity].
    rewrite cdiv_Some by discriminate. reflexivity.
Qed.

Lemma prodn_ne_each n f i : (i < n)%nat -> prodn n f <> 0%Qc -> f i <> 0%Qc.
Proof.
  induction n as [|n IH]; intros Hi H; [lia|]. cbn [prodn] in H. intros E. apply H.
  destruct (Nat.eq_dec i n) as [->|]; [rewrite E; ring|]. exfalso. apply (IH ltac:(lia)); auto. intros E2. apply H. rewrite E2. ring.
Qed.
Lemma last_nth_len (l : list Z) : last l 0 = nth (List.length l - 1) l 0.
Proof.
  induction l as [|x l IH]; [reflexivity|]. destruct l as [|y l]; [reflexivity|]. change (last (x :: y :: l) 0) with (last (y :: l) 0). rewrite IH.
  cbn [List.length]. replace (S (S (Datatypes.length l)) - 1)%nat with (S (S (Datatypes.length l) - 1)) by lia. reflexivity.
Qed.
Lemma sorted_snoc l x : StronglySorted Z.lt l -> (forall y, In y l -> y < x) -> StronglySorted Z.lt (l ++ [x]).
Proof.
  intros S H. induction S as [|y l S IH F]; cbn; [repeat constructor|]. constructor.
  - apply IH. intros z Hz. apply H. right; auto.
  - apply Forall_app. split; auto. constructor; auto. apply H. left; auto.
Qed.
Lemma sorted_extend l a h m : StronglySorted Z.lt l -> (forall y, In y l -> y <= a) -> 0 < h ->
  StronglySorted Z.lt (l ++ map (fun j => a + h * (Z.of_nat j + 1)) (seq 0 m)).
Proof.
  intros S H Hh. induction m as [|m IH]; [rewrite app_nil_r; auto|].
  rewrite seq_S, map_app, app_assoc. cbn [map Nat.add]. apply sorted_snoc; auto.
  intros y Hy. apply in_app_or in Hy. destruct Hy as [Hy|Hy].
  - apply H in Hy. nia.
  - apply in_map_iff in Hy. destruct Hy as (j & <- & Hj). apply in_seq in Hj. nia.
Qed.
Lemma firstn_snoc (l : list Z) n : List.length l = S n -> l = firstn n l ++ [nth n l 0].
Proof.
  revert n; induction l as [|x l IH]; intros n H; [discriminate|]. destruct n as [|n].
  - destruct l; [reflexivity|discriminate].
  - cbn. f_equal. apply IH. cbn in H; lia.
Qed.
Lemma fitted_factors_for t l : wf t -> (2 <= ax3 (values t))%nat -> (exists xs, ddims t = Ages xs) -> fitted_factors t l -> factors_for t l.
Proof.
  intros W N2 (xs & Ex) F. constructor.
  - apply F.
  - exists (firstn (ax3 (values t) - 1) xs). rewrite (fd_d _ _ F), Ex. split; [reflexivity|]. rewrite firstn_length, (fd_3 _ _ F).
    pose proof (wf_d _ W) as L. rewrite Ex in L. cbn [dlist] in L. lia.
  - rewrite (fd_3 _ _ F). split; [lia|]. split; [lia|]. apply (wf_d _ W).
Qed.

(** A tail turns fitted factors into a pattern for the triangle. *)
Lemma tail_pattern p t l k : method_input t -> (2 <= ax3 (values t))%nat -> fitted_factors t l -> decay_ok p -> attaches_at p t k -> (1 <= k)%nat ->
  room_after t (tp_years p) -> (ax3 (values t) + periods_per_year (dgrain t) * tp_years p - k <= 1000)%nat ->
  exists r, tail_constant p t l = Ok r /\ pattern_for t r /\
    ax3 (values r) = (ax3 (values t) + periods_per_year (dgrain t) * tp_years p)%nat /\
    (forall i c o d, (d < k)%nat -> cel r i c o d = cel l i c o d) /\
    (forall i c o, prodn (ax3 (values r) - k) (fun j => amount r i c o (k + j)%nat) = tp_tail p).
Proof.
  intros MI N2 F DO AT K1 (xs & Ex & R1 & R2 & R3) BIG. pose proof (mi_wf _ MI) as W.
  pose proof (fitted_factors_for t l W N2 ltac:(eauto) F) as FF.
  set (P := periods_per_year (dgrain t)). set (g := grain_months (dgrain t)) in *.
  assert (G : Z.of_nat P * g = 12 /\ 0 < g) by (unfold P, g; destruct (dgrain t); vm_compute; auto). destruct G as [G1 G2].
  pose proof (wf_d _ W) as Lx. rewrite Ex in Lx. cbn [dlist] in Lx.
  pose proof (wf_dev _ W) as WD. rewrite Ex in WD. destruct WD as (WD1 & WD2 & WD3).
  pose proof (wf_dsort _ W) as SX. rewrite Ex in SX. cbn [dlist] in SX.
  assert (Kt : (k < ax3 (values t))%nat).
  { unfold attaches_at in AT. destruct (tp_attach p); [tauto|]. subst k. lia. }
  assert (A1 : 1 <= nth (ax3 (values t) - 1) xs 0) by (apply WD1, nth_In; lia).
  assert (E3 : (ax3 (values l) + S (P * tp_years p) = ax3 (values t) + P * tp_years p)%nat) by (rewrite (fd_3 _ _ F); lia).
  destruct (tail_ok p t l k FF DO AT K1) as (r & Er & Rk & Rkl & Rv & Ro & Rvd & (Fl1 & Fl2 & Fl3 & Fl4) & Rd & X0 & X1 & X2 & X3 & C1 & C2 & C3).
  { fold P. rewrite E3. exact BIG. }
  fold P in Rd, X3, C2. rewrite E3 in X3, C2.
  assert (RD : ddims r = Ages (xs ++ map (fun j => nth (ax3 (values t) - 1) xs 0 + g * (Z.of_nat j + 1)) (seq 0 (P * tp_years p)))).
  { rewrite Rd, (fd_d _ _ F), Ex. cbn [dmap dlist]. f_equal.
    assert (LF : List.length (firstn (ax3 (values t) - 1) xs) = (ax3 (values t) - 1)%nat) by (rewrite firstn_length; lia).
    assert (LL : last (firstn (ax3 (values t) - 1) xs) 0 = nth (ax3 (values t) - 2) xs 0).
    { rewrite last_nth_len, LF. replace (ax3 (values t) - 1 - 1)%nat with (ax3 (values t) - 2)%nat by lia.
      rewrite (firstn_snoc xs (ax3 (values t) - 1)) at 2 by lia. rewrite app_nth1 by lia. reflexivity. }
    rewrite LL. rewrite (firstn_snoc xs (ax3 (values t) - 1)) at 2 by lia. rewrite <- app_assoc. f_equal.
    cbn [seq map]. change (grain_months (dgrain t)) with g. cbn [app]. f_equal; [rewrite R1; lia|].
    rewrite <- seq_shift, map_map. apply map_ext. intros j. rewrite R1. lia. }
  exists r. split; [exact Er|]. split; [|split; [exact X3|split]].
  - assert (XL : forall a, In a (dlist (ddims r)) -> (1 <= a <= 9999) /\ (In a xs \/ (nth (ax3 (values t) - 1) xs 0 <= a <= nth (ax3 (values t) - 1) xs 0 + 12 * Z.of_nat (tp_years p)))).
    { rewrite RD. cbn [dlist]. intros a Ha. apply in_app_or in Ha. destruct Ha as [Ha|Ha]; [auto|].
      apply in_map_iff in Ha. destruct Ha as (j & <- & Hj). apply in_seq in Hj.
      assert (g * (Z.of_nat j + 1) <= 12 * Z.of_nat (tp_years p)) by nia. assert (0 < g * (Z.of_nat j + 1)) by nia. split; [lia|right; lia]. }
    assert (WR : wf r).
    { constructor.
      - rewrite X0, Rk, (fd_0 _ _ F), (fd_k _ _ F). apply W.
      - rewrite X1, Rv, (fd_1 _ _ F), (fd_v _ _ F). apply W.
      - rewrite X2, Ro, (fd_o _ _ F). reflexivity.
      - rewrite X3, RD. cbn [dlist]. rewrite app_length, map_length, seq_length. lia.
      - lia.
      - lia.
      - rewrite Ro, (fd_o _ _ F). repeat constructor.
      - rewrite RD. cbn [dlist]. apply sorted_extend; auto. intros y Hy. destruct (In_nth _ _ 0 Hy) as (q & Hq & <-). apply sorted_nth_le; auto; lia.
      - rewrite Rvd, (fd_vd _ _ F). lia.
      - rewrite RD. rewrite RD in XL. cbn [dlist] in XL. pose proof (wf_o1 _ W). pose proof (wf_o _ W). split; [intros a Ha; apply (XL a Ha)|]. rewrite Ro, (fd_o _ _ F), Rvd, (fd_vd _ _ F).
        assert (I0 : In (nth 0 (odims t) 0) (odims t)) by (apply nth_In; lia). split.
        + intros o [<-|[]]. pose proof (WD2 _ I0). pose proof (wf_vd _ W). lia.
        + intros o a [<-|[]] Ha Na. destruct (XL a Ha) as [_ [Hx|Hx]]; [apply WD3; auto|lia]. }
    constructor; auto; try congruence; try (rewrite ?Rk, ?Rkl, ?Rv, ?Ro, ?Rvd; apply F).
    + exists xs, (map (fun j => nth (ax3 (values t) - 1) xs 0 + g * (Z.of_nat j + 1)) (seq 0 (P * tp_years p))). auto.
    + rewrite Fl2. apply F.
    + rewrite Fl1, (fd_cum _ _ F). discriminate.
    + rewrite Fl3. apply F.
    + rewrite Fl4. apply F.
  - intros i c o d Hd. rewrite C1 by auto. destruct (Nat.ltb_spec d (ax3 (values l))); [reflexivity|]. rewrite (fd_3 _ _ F) in *. lia.
  - intros. rewrite X3. apply C2.
Qed.

Lemma tail_to_ultimate p l r k i c d : tp_tail p <> 0%Qc -> (d <= k)%nat -> (k <= ax3 (values r))%nat ->
  (forall d', (d' < k)%nat -> cel r i c 0 d' = cel l i c 0 d') ->
  prodn (ax3 (values r) - k) (fun j => amount r i c 0 (k + j)%nat) = tp_tail p ->
  to_ultimate r i c d = (prodn (k - d) (fun j => factor (cel l i c 0 (d + j)%nat)) * tp_tail p)%Qc.
Proof.
  intros T D K C P. unfold to_ultimate. replace (ax3 (values r) - d)%nat with ((k - d) + (ax3 (values r) - k))%nat by lia.
  rewrite prodn_app. f_equal.
  - apply prodn_ext. intros j Hj. rewrite C by lia. reflexivity.
  - rewrite <- P. apply prodn_ext. intros j Hj. replace (d + (k - d + j))%nat with (k + j)%nat by lia.
    unfold factor, amount. destruct (Qc_eqb_spec (nz (cel r i c 0%nat (k + j)%nat)) 0%Qc) as [e|]; [|reflexivity]. exfalso.
    rewrite <- P in T. apply (prodn_ne_each _ _ j Hj T). exact e.
Qed.
Lemma fit_result_fitted p t u : fit_result p t u -> fitted_factors t u.
Proof. intros F. destruct F. constructor; auto. Qed.

(** Development, tail, chain ladder. *)
Theorem cl_end_to_end p q t : method_input t -> (2 <= ax3 (values t))%nat -> oldest_complete t -> fittable p t ->
  tp_attach q = None -> tp_tail q <> 0%Qc -> decay_ok q -> room_after t (tp_years q) -> (periods_per_year (dgrain t) * tp_years q < 1000)%nat ->
  exists f l u, dev_fit p t = Ok f /\ tail_constant q t (f_ldf f) = Ok l /\ pattern_for t l /\ cl_fit t (Some l) = Ok (l, u) /\ ultimate_frame t u /\
  forall i c o d, in_range t i c o d -> month_of t o d = vdate t ->
    stores (cel u i c o 0%nat)
      (amount t i c o d * (prodn (ax3 (values t) - 1 - d) (fun j => factor (cel (f_ldf f) i c 0 (d + j)%nat)) * tp_tail q))%Qc.
Proof.
  intros MI N2 OC FT QA QT QD QR QY. pose proof (mi_wf _ MI) as W.
  destruct (dev_fit_ok p t W (mi_blank _ MI) (mi_pat _ MI) N2 OC FT) as (f & Ef & FR & _).
  assert (AT : attaches_at q t (ax3 (values t) - 1)) by (unfold attaches_at; rewrite QA; reflexivity).
  destruct (tail_pattern q t (f_ldf f) (ax3 (values t) - 1) MI N2 (fit_result_fitted _ _ _ FR) QD AT ltac:(lia) QR ltac:(lia)) as (l & El & PF & X3 & C1 & C2).
  destruct (cl_ultimate_ok t l MI PF) as (u & Eu & UF & UC).
  exists f, l, u. do 3 (split; [assumption|]). split; [|split; [exact UF|]].
  - unfold cl_fit, validate_X. cbn [rbind].
    rewrite <- (wf_d _ (pf_wf _ _ PF)), <- (wf_d _ W).
    destruct (Nat.eqb_spec (ax3 (values t) - ax3 (values l)) 1); [lia|]. cbn [rbind]. rewrite Eu. reflexivity.
  - intros i c o d R M. rewrite <- (tail_to_ultimate q (f_ldf f) l (ax3 (values t) - 1) i c d); auto.
    + destruct R as (_ & _ & _ & R). lia.
    + lia.
Qed.
Lemma default_fittable t : fittable default_params t.
Proof.
  constructor; cbn; try (intros; discriminate); try (intros [H|H]; congruence); auto; try (intros d Hd; cbn; discriminate).
  intros d n Hd [= <-]. left. left. lia.
Qed.
Lemma decay_ok_default : decay_ok default_tail. Proof. left; reflexivity. Qed.
(** Without an estimator the factors are volume weighted and there is no tail. *)
Theorem cl_default t : method_input t -> (2 <= ax3 (values t))%nat -> oldest_complete t -> room_after t 1 ->
  exists l u, cl_fit t None = Ok (l, u) /\ pattern_for t l /\ ultimate_frame t u /\
  forall i c o d, in_range t i c o d -> month_of t o d = vdate t ->
    stores (cel u i c o 0%nat)
      (amount t i c o d * prodn (ax3 (values t) - 1 - d) (fun j =>
         factor (wavg Volume (ax2 (values t)) (has_ratio t i c (d + j)) (fun o => amount t i c o (d + j)) (fun o => amount t i c o (S (d + j))))))%Qc.
Proof.
  intros MI N2 OC QR. pose proof (mi_wf _ MI) as W.
  assert (FT : fittable default_params t) by apply default_fittable.
  destruct (dev_fit_ok default_params t W (mi_blank _ MI) (mi_pat _ MI) N2 OC FT) as (f & Ef & FR & _).
  assert (P1 : (periods_per_year (dgrain t) * 1 < 1000)%nat) by (destruct (dgrain t); vm_compute; lia).
  destruct (cl_end_to_end default_params default_tail t MI N2 OC FT eq_refl ltac:(discriminate) decay_ok_default QR P1) as (f' & l & u & Ef' & El & PF & Ec & UF & UC).
  rewrite Ef in Ef'. injection Ef' as <-.
  exists l, u. split; [|split; [auto|split; [auto|]]].
  - unfold cl_fit, validate_X in *. rewrite Ef. cbn [rbind] in *. rewrite <- (wf_d _ W), (fr_d _ _ _ FR).
    assert (LD : List.length (dlist (dmap (firstn (ax3 (values t) - 1)) (ddims t))) = (ax3 (values t) - 1)%nat).
    { pose proof (wf_d _ W). destruct (ddims t); cbn [dmap dlist] in *; rewrite firstn_length; lia. }
    rewrite LD. destruct (Nat.eqb_spec (ax3 (values t) - (ax3 (values t) - 1)) 1); [|lia]. rewrite El. cbn [rbind].
    rewrite <- (wf_d _ (pf_wf _ _ PF)), <- (wf_d _ W) in Ec.
    assert (ax3 (values t) <= ax3 (values l))%nat.
    { destruct (pf_d _ _ PF) as (xs & more & Ex & Em). pose proof (wf_d _ (pf_wf _ _ PF)) as A. pose proof (wf_d _ W) as B. rewrite Em in A. rewrite Ex in B. cbn [dlist] in *. rewrite app_length in A. lia. }
    destruct (Nat.eqb_spec (ax3 (values t) - ax3 (values l)) 1); [lia|]. exact Ec.
  - intros i c o d R M. pose proof R as (R0 & R1 & R2 & R3). specialize (UC i c o d R M). cbn [default_tail tp_tail] in UC. rewrite Qcmult_1_r in UC.
    erewrite prodn_ext; [exact UC|]. intros j Hj. cbn beta. f_equal. rewrite (fr_cell _ _ _ FR i c (d + j)%nat Volume (-1) R0 R1); try reflexivity; [|lia].
    unfold wavg, avg_num, avg_den, sum_over.
    assert (SE : forall o', selected default_params t (-1) i c (d + j) o' = has_ratio t i c (d + j) o').
    { intros o'. unfold selected, survives_high_low, survives_above_below, listed, val_listed, in_window. cbn [default_params p_drop p_drop_val p_high p_low p_above p_below p_preserve].
      destruct (has_ratio t i c (d + j) o'); [|reflexivity]. change (-1 <? 1) with true. cbn [orb andb negb count_at].
      rewrite andb_true_iff. split; [|reflexivity]. apply orb_true_iff. right. apply andb_true_iff. unfold how_many. split; apply Z.leb_le; lia. }
    rewrite !(sumn_ext _ (fun o0 => if has_ratio t i c (d + j) o0 then _ else 0%Qc) (fun o0 => if selected default_params t (-1) i c (d + j) o0 then _ else 0%Qc)) by (intros; rewrite SE; reflexivity). reflexivity.
Qed.
