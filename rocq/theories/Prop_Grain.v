(** Properties C07, C08 and C09: changing the grain. *)
From Coq Require Import Lia.
From Verif Require Import SpecGrain P_Grain P_Grain2 P_Grain3 P_Grain4 P_Grain5 Ex Prop_View.
Local Open Scope Z_scope.

(** C07. [grain] on a development triangle: every coarse origin holds at every kept
    valuation the total of the origins inside it, no origin is lost or counted
    twice, and the result has the requested grains. *)
Theorem C07_coarsen : forall t o0 a0 h m close og dg, wf t -> age_grid t o0 a0 h m -> no_gap t h m -> blank_future t ->
  data_beyond_first t -> before_ultimate t -> not_full_cumulative t ->
  (exists o d, (o < ax2 (values t))%nat /\ (d < ax3 (values t))%nat /\ month_of t o d = vdate t) ->
  ~ future t 0 0 -> 1 <= a0 -> allowed t og dg -> flag_known t dg -> (og <> ograin t -> origins_ready close t og) ->
  (dg <> dgrain t -> month_of t 0 0 < vdate t) ->
  let c0 := coarse_start close t og in
  vdate t < c0 + 9998 -> later_totals t og dg c0 ->
  exists u A' h' M', grain_to close og dg t = Ok u /\ age_grid u c0 A' h' M' /\ regrained t u og dg c0.
Proof. exact grain_age. Qed.
Print Assumptions C07_coarsen.

(** C07. The same for a valuation triangle. *)
Theorem C07_coarsen_valuations : forall t o0 a0 h m close og dg, wf t -> val_grid t o0 a0 h m -> no_future t ->
  month_of t 0 (ax3 (values t) - 1) = vdate t -> 1 <= a0 -> allowed t og dg -> flag_known t dg ->
  (og <> ograin t -> origins_ready close t og) -> (dg <> dgrain t -> (2 <= ax3 (values t))%nat) ->
  exists u, grain_to close og dg t = Ok u /\ wf u /\ is_val_tri u = true /\ regrained t u og dg (coarse_start close t og).
Proof. exact grain_val. Qed.
Print Assumptions C07_coarsen_valuations.

(** C07. Hence the total of all origins at a kept valuation is unchanged. *)
Theorem C07_totals_unchanged : forall t u og dg c0 i c v, regrained t u og dg c0 ->
  (i < ax0 (values t))%nat -> (c < ax1 (values t))%nat -> kept_valuation t dg v ->
  sumn (ax2 (values u)) (fun p => window u i c p (v - 1) v) =
  sumn (ax2 (values t)) (fun o => window t i c o (match is_cumulative t with Some true => v - 1 | _ => v - grain_months dg end) v).
Proof. exact totals_kept. Qed.
Print Assumptions C07_totals_unchanged.

(** C08. Coarsening the development alone: the origins stay, the valuation date is
    kept and so is the latest diagonal. *)
Theorem C08_development : forall t o0 a0 h m close dg, wf t -> age_grid t o0 a0 h m -> no_gap t h m -> blank_future t ->
  data_beyond_first t -> before_ultimate t -> not_full_cumulative t ->
  (exists o d, (o < ax2 (values t))%nat /\ (d < ax3 (values t))%nat /\ month_of t o d = vdate t) ->
  month_of t 0 0 < vdate t -> 1 <= a0 -> nested (dgrain t) dg -> grain_months dg <= grain_months (ograin t) -> flag_known t dg ->
  vdate t < o0 + 9998 -> later_totals t (ograin t) dg o0 ->
  exists u, grain_to close (ograin t) dg t = Ok u /\ regrained t u (ograin t) dg o0 /\ odims u = odims t /\
    (is_cumulative t = Some true -> forall i c o, (i < ax0 (values t))%nat -> (c < ax1 (values t))%nat -> (o < ax2 (values t))%nat ->
       window u i c o (vdate t - 1) (vdate t) = window t i c o (vdate t - 1) (vdate t)).
Proof.
  intros t o0 a0 h m close dg W G Hg B D U NF Ex V0 Ha N1 N2 Fl SH LT.
  assert (E : coarse_start close t (ograin t) = o0).
  { unfold coarse_start. rewrite (proj2 (grain_eqb_eq _ _)) by auto. destruct G as (_ & _ & -> & _).
    rewrite P_View.hd_map_seq by apply W. lia. }
  destruct (grain_age t o0 a0 h m close (ograin t) dg) as (u & A' & h' & M' & Eu & Gu & R); rewrite ?E; auto.
  { unfold future. lia. }
  { split; [apply Z.divide_refl|]. auto. }
  { congruence. }
  rewrite E in R. exists u. split; [auto|]. split; [auto|].
  assert (L : List.length (odims u) = ax2 (values u)) by (rewrite (rg_odims _ _ _ _ _ R), map_length, seq_length; auto).
  assert (Go : forall k, nth k (odims t) 0 = if (k <? ax2 (values t))%nat then o0 + grain_months (ograin t) * Z.of_nat k else 0).
  { intros k. destruct G as (_ & _ & Eo & _ & _ & _ & Eg). destruct (Nat.ltb_spec k (ax2 (values t))).
    - rewrite Eo, ArrFacts.nth_map_seq by auto. rewrite Eg, <- Nat2Z.inj_mul. reflexivity.
    - apply nth_overflow. rewrite <- (wf_o _ W). auto. }
  assert (E2 : ax2 (values u) = ax2 (values t)).
  { (* the coarse origins are the old ones *)
    pose proof (months_pos (ograin t)). pose proof (wf_o1 _ W).
    destruct (rg_cover _ _ _ _ _ R (ax2 (values t) - 1)%nat ltac:(lia)) as (p & Hp & Hin).
    rewrite (rg_odims _ _ _ _ _ R), ArrFacts.nth_map_seq, Go in Hin by auto.
    destruct (Nat.ltb_spec (ax2 (values t) - 1) (ax2 (values t))); [|lia].
    assert (p = ax2 (values t) - 1)%nat by (assert (Z.of_nat p < Z.of_nat (ax2 (values t) - 1) + 1) by nia;
      assert (Z.of_nat (ax2 (values t) - 1) < Z.of_nat p + 1) by nia; lia).
    pose proof (rg_last _ _ _ _ _ R (ax2 (values u) - 1)%nat ltac:(lia)) as La.
    rewrite (rg_odims _ _ _ _ _ R), ArrFacts.nth_map_seq in La by lia.
    rewrite (TriFacts.last_nth (odims t)), <- (wf_o _ W), Go in La.
    destruct (Nat.ltb_spec (ax2 (values t) - 1) (ax2 (values t))); [|lia]. nia. }
  assert (Eod : odims u = odims t).
  { apply (nth_ext _ _ 0 0); [rewrite L, E2; apply W|]. intros k Hk. rewrite L in Hk.
    rewrite Go, (rg_odims _ _ _ _ _ R), ArrFacts.nth_map_seq by auto. rewrite E2 in Hk.
    destruct (Nat.ltb_spec k (ax2 (values t))); [auto|lia]. }
  split; [auto|]. intros Hc i c o Hi Hcc Ho.
  rewrite (rg_amount _ _ _ _ _ R); auto; [|rewrite E2; auto|exists 0%nat; lia].
  rewrite Hc, Eod. pose proof (months_pos (ograin t)). apply block_self; auto; [|lia].
  intros k Hk. rewrite !Go. destruct (Nat.ltb_spec k (ax2 (values t))), (Nat.ltb_spec o (ax2 (values t))); try lia. nia.
Qed.
Print Assumptions C08_development.

(** C08. Increments are added up, none is lost: over any whole number of new
    periods back from a kept valuation the coarse origin has the total of its old
    origins. *)
Theorem C08_increments_add_up : forall t u og dg c0 i c p v (J : nat), regrained t u og dg c0 -> is_cumulative t <> Some true ->
  (i < ax0 (values t))%nat -> (c < ax1 (values t))%nat -> (p < ax2 (values u))%nat -> kept_valuation t dg v ->
  window u i c p (v - grain_months dg * Z.of_nat J) v =
  block t i c (nth p (odims u) 0) (grain_months og) (v - grain_months dg * Z.of_nat J) v.
Proof. exact increments_in. Qed.
Print Assumptions C08_increments_add_up.

(** C08. Coarsening commutes with accumulation: the coarse running total at a kept
    valuation is the sum of the coarse increments up to it. *)
Theorem C08_commutes_with_accumulation : forall s x u o0 a0 h m dl og dg c0 i c p v (J : nat), wf s -> regular s o0 a0 h m dl ->
  is_pattern s = false -> is_cumulative s <> Some true -> (Z.of_nat h | grain_months dg) ->
  regrained s x og dg c0 -> regrained (incr_to_cum s) u og dg c0 ->
  (i < ax0 (values s))%nat -> (c < ax1 (values s))%nat -> (p < ax2 (values u))%nat -> (p < ax2 (values x))%nat -> kept_valuation s dg v ->
  v - grain_months dg * Z.of_nat J < month_of s 0 0 ->
  window u i c p (v - 1) v = window x i c p (v - grain_months dg * Z.of_nat J) v.
Proof. exact accumulate_commutes. Qed.
Print Assumptions C08_commutes_with_accumulation.

(** C09. What is rejected, and how, on any triangle whatever. *)
Theorem C09_not_nested_rejected : forall close og dg t, ~ (nested (ograin t) og /\ nested (dgrain t) dg) ->
  grain_to close og dg t = Err ValueError.
Proof.
  intros close og dg t H. unfold grain_to.
  destruct (valid_grain (ograin t) og) eqn:E1; [|reflexivity]. destruct (valid_grain (dgrain t) dg) eqn:E2; [|reflexivity].
  exfalso. apply H. split; apply valid_grain_nested; auto.
Qed.
Print Assumptions C09_not_nested_rejected.
Theorem C09_unknown_flag_rejected : forall close og dg t, nested (ograin t) og -> nested (dgrain t) dg ->
  is_cumulative t = None -> dg <> dgrain t -> (2 <= ax3 (values t))%nat -> grain_to close og dg t = Err AttributeError.
Proof.
  intros close og dg t H1 H2 H3 H4 H5. unfold grain_to.
  rewrite (proj2 (valid_grain_nested _ _) H1), (proj2 (valid_grain_nested _ _) H2), H3. cbn [andb negb].
  destruct (grain_eqb dg (dgrain t)) eqn:E; [apply grain_eqb_eq in E; congruence|].
  destruct (Nat.ltb_spec 1 (ax3 (values t))); [reflexivity|lia].
Qed.
Print Assumptions C09_unknown_flag_rejected.
Theorem C09_finer_origin_rejected : forall close og dg t, nested (ograin t) og -> nested (dgrain t) dg ->
  is_cumulative t <> None -> grain_months og < grain_months dg -> grain_to close og dg t = Err ValueError.
Proof.
  intros close og dg t H1 H2 H3 H4. unfold grain_to.
  rewrite (proj2 (valid_grain_nested _ _) H1), (proj2 (valid_grain_nested _ _) H2). cbn [andb negb].
  destruct (is_cumulative t); [|congruence]. cbn [andb].
  destruct (grain_rank dg <? grain_rank og)%nat eqn:E; [reflexivity|]. apply grain_rank_le in E. lia.
Qed.
Print Assumptions C09_finer_origin_rejected.
(** C09. Legal requests are accepted: [C07_coarsen] and [C07_coarsen_valuations]
    return a triangle for every [allowed] request; here every legal change of the
    development grain alone. *)
Theorem C09_legal_development_accepted : forall t o0 a0 h m close dg, wf t -> val_grid t o0 a0 h m -> no_future t ->
  month_of t 0 (ax3 (values t) - 1) = vdate t -> 1 <= a0 -> (2 <= ax3 (values t))%nat ->
  is_cumulative t <> None -> nested (dgrain t) dg -> grain_months dg <= grain_months (ograin t) ->
  exists u, grain_to close (ograin t) dg t = Ok u /\ ograin u = ograin t /\ dgrain u = dg.
Proof.
  intros t o0 a0 h m close dg W V NF L Ha H2 Fl N1 N2.
  destruct (grain_val t o0 a0 h m close (ograin t) dg) as (u & E & _ & _ & R); auto.
  - split; [apply Z.divide_refl|auto].
  - left; auto.
  - congruence.
  - exists u. split; [auto|]. split; [apply R|apply R].
Qed.
Print Assumptions C09_legal_development_accepted.

(** ** Cases that meet the hypotheses *)
Definition mtri (og dg : grain) (o0 a0 : Z) (h m no nd : nat) (vd : Z) (cum : option bool) : tri :=
  Tri [["Total"%string]] ["Total"%string] ["paid"%string] (map (fun k => o0 + Z.of_nat (h * m * k)) (seq 0 no))
    (Ages (map (fun k => a0 + Z.of_nat (h * k)) (seq 0 nd)))
    (Arr 1 1 no nd (fun _ _ o d => if o0 + Z.of_nat (h * m * o) + a0 + Z.of_nat (h * d) - 1 <=? vd
       then Some (qc (Z.of_nat (100 * (1 + o) + 10 * d))) else None)) vd cum false og dg.
(** 24 months of monthly data to yearly origins with quarterly ages. *)
Definition exmon : tri := mtri GM GM (y 2001) 1 1 1 24 24 (dec 2002) (Some true).
Lemma exmon_grid : age_grid exmon (y 2001) 1 1 1.
Proof. unfold age_grid. repeat split; try (cbn; lia). intros k Hk. change (k < 24)%nat in Hk. lia. Qed.
Example C07_coarsen_hyps : wf exmon /\ age_grid exmon (y 2001) 1 1 1 /\ no_gap exmon 1 1 /\ blank_future exmon /\
  data_beyond_first exmon /\ before_ultimate exmon /\ not_full_cumulative exmon /\
  (exists o d, (o < ax2 (values exmon))%nat /\ (d < ax3 (values exmon))%nat /\ month_of exmon o d = vdate exmon) /\
  ~ future exmon 0 0 /\ allowed exmon GY GQ /\ flag_known exmon GQ /\ origins_ready 11 exmon GY /\ month_of exmon 0 0 < vdate exmon /\
  vdate exmon < coarse_start 11 exmon GY + 9998 /\ later_totals exmon GY GQ (coarse_start 11 exmon GY).
Proof.
  split; [apply wfb_ok; vm_compute; reflexivity|]. split; [apply exmon_grid|]. split; [right; left; cbn; lia|].
  split; [apply blank_futureb_ok; vm_compute; reflexivity|]. split.
  { right. exists 0%nat, 0%nat, 1%nat, 0%nat. repeat split; cbn; try lia. discriminate. }
  split; [apply before_ultimateb_ok; vm_compute; reflexivity|]. split.
  { right. split; [cbn; lia|]. split; [cbn; lia|]. exists 1%nat, 23%nat. repeat split; try (cbn; lia). }
  split; [exists 0%nat, 23%nat; repeat split; cbn; lia|]. split; [vm_compute; discriminate|].
  split. { split; [exists 12; reflexivity|]. split; [exists 3; reflexivity|cbn; lia]. }
  split; [left; discriminate|]. split.
  { split; [exists (2001 * 12 - 12); reflexivity|]. split; [exact I|]. split; [discriminate|]. left. vm_compute. split; reflexivity. }
  split; [vm_compute; reflexivity|]. split; [vm_compute; reflexivity|].
  right. exists 0%nat, 0%nat, 1%nat, (vdate exmon). split; [cbn; lia|]. split; [cbn; lia|]. split; [lia|].
  split; [exists 0%nat; reflexivity|]. intros E. apply (f_equal (fun q => Qc_eqb q 0)) in E. vm_compute in E. discriminate.
Qed.
Example C07_coarsen_test : exists u, grain_to 11 GY GQ exmon = Ok u /\ odims u = [y 2001; y 2002] /\
  ddims u = Ages [3; 6; 9; 12; 15; 18; 21; 24] /\ cel u 0 0 0 0 = Some (qc (120 + 210 + 300)) /\ cel u 0 0 1 4 = None.
Proof.
  exists (Ex.get exmon (grain_to 11 GY GQ exmon)). split; [apply get_ok; vm_compute; reflexivity|].
  split; [vm_compute; reflexivity|]. split; [vm_compute; reflexivity|]. split; apply cell_eqb_eq; vm_compute; reflexivity.
Qed.
(** Quarterly increments to yearly ones. *)
Definition exqinc : tri := Tri [["Total"%string]] ["Total"%string] ["paid"%string] [y 2001; y 2002]
  (Ages [3; 6; 9; 12; 15; 18; 21; 24])
  (arr_of [[Some 1; Some 2; N; Some 4; Some 5; Some 6; Some 7; Some 8]; [Some 10; N; Some 30; Some 40; N; N; N; N]]) (dec 2002)
  (Some false) false GY GQ.
Lemma exqinc_grid : age_grid exqinc (y 2001) 3 3 4.
Proof. unfold age_grid. repeat split; try (cbn; lia). intros k Hk. change (k < 8)%nat in Hk. lia. Qed.
Example C08_development_hyps : wf exqinc /\ age_grid exqinc (y 2001) 3 3 4 /\ no_gap exqinc 3 4 /\ blank_future exqinc /\
  data_beyond_first exqinc /\ before_ultimate exqinc /\ not_full_cumulative exqinc /\
  (exists o d, (o < ax2 (values exqinc))%nat /\ (d < ax3 (values exqinc))%nat /\ month_of exqinc o d = vdate exqinc) /\
  month_of exqinc 0 0 < vdate exqinc /\ nested (dgrain exqinc) GY /\ flag_known exqinc GY /\
  vdate exqinc < y 2001 + 9998 /\ later_totals exqinc GY GY (y 2001) /\
  regular exqinc (y 2001) 3 3 4 3 /\ is_cumulative exqinc <> Some true /\ (Z.of_nat 3 | grain_months GY).
Proof.
  split; [apply wfb_ok; vm_compute; reflexivity|]. split; [apply exqinc_grid|]. split; [right; left; cbn; lia|].
  split; [apply blank_futureb_ok; vm_compute; reflexivity|]. split.
  { right. exists 0%nat, 0%nat, 1%nat, 0%nat. repeat split; cbn; try lia. discriminate. }
  split; [apply before_ultimateb_ok; vm_compute; reflexivity|]. split; [left; discriminate|].
  split; [exists 0%nat, 7%nat; repeat split; cbn; lia|]. split; [vm_compute; reflexivity|].
  split; [exists 4; reflexivity|]. split; [left; discriminate|]. split; [vm_compute; reflexivity|]. split.
  { right. exists 0%nat, 0%nat, 1%nat, (dec 2002). split; [cbn; lia|]. split; [cbn; lia|]. split; [lia|].
    split; [exists 0%nat; reflexivity|]. intros E. apply (f_equal (fun q => Qc_eqb q 0)) in E. vm_compute in E. discriminate. }
  split. { unfold regular. repeat split; try (cbn; lia). intros k Hk. change (k < 8)%nat in Hk. lia. }
  split; [discriminate|exists 4; reflexivity].
Qed.
Example C08_development_test : exists u, grain_to 11 GY GY exqinc = Ok u /\ ddims u = Ages [12; 24] /\
  cel u 0 0 0 0 = Some (qc 7) /\ cel u 0 0 0 1 = Some (qc 26) /\ cel u 0 0 1 0 = Some (qc 80).
Proof.
  exists (Ex.get exqinc (grain_to 11 GY GY exqinc)). split; [apply get_ok; vm_compute; reflexivity|].
  split; [vm_compute; reflexivity|]. repeat split; apply cell_eqb_eq; vm_compute; reflexivity.
Qed.
Definition exqval : tri := Ex.get exqinc (dev_to_val exqinc).
Example C07_coarsen_valuations_hyps : wf exqval /\ val_grid exqval (y 2001) 3 3 4 /\ no_future exqval /\
  month_of exqval 0 (ax3 (values exqval) - 1) = vdate exqval /\ allowed exqval GY GY /\ flag_known exqval GY /\ (2 <= ax3 (values exqval))%nat.
Proof.
  split; [apply wfb_ok; vm_compute; reflexivity|]. split; [unfold val_grid; repeat split; cbn; lia|].
  split; [apply no_futureb_ok; vm_compute; reflexivity|]. split; [vm_compute; reflexivity|].
  split; [|split; [left; discriminate|cbn; lia]]. split; [exists 1; reflexivity|]. split; [exists 4; reflexivity|cbn; lia].
Qed.

(** ** Where the claims fail *)
(** Six months from October 2001 to quarters: the two quarters are taken for months,
    and the first quarter of 2002, worth 400 in January (age 1), shows 400 at age 3
    (March). *)
Definition exyend : tri := mtri GM GM (y 2001 + 9) 1 1 1 6 6 (y 2002 + 2) (Some true).
Theorem C07_quarters_over_year_end_refuted : exists t u, wf t /\ age_grid t (y 2001 + 9) 1 1 1 /\ blank_future t /\ allowed t GQ GM /\
  grain_to 11 GQ GM t = Ok u /\ ograin u = GM /\ odims u = [y 2001 + 9; y 2002] /\ ddims u = Ages [1; 2; 3; 4; 5; 6] /\
  block t 0 0 (y 2002) 3 (y 2002 - 1) (y 2002) = qc 400 /\ cel u 0 0 1 0 = None /\ cel u 0 0 1 2 = Some (qc 400).
Proof.
  exists exyend, (Ex.get exyend (grain_to 11 GQ GM exyend)). split; [apply wfb_ok; vm_compute; reflexivity|].
  split. { unfold age_grid. repeat split; try (cbn; lia). intros k Hk. change (k < 6)%nat in Hk. lia. }
  split; [apply blank_futureb_ok; vm_compute; reflexivity|].
  split. { split; [exists 3; reflexivity|]. split; [exists 1; reflexivity|cbn; lia]. }
  split; [apply get_ok; vm_compute; reflexivity|]. do 3 (split; [vm_compute; reflexivity|]).
  split; [apply qeqb; vm_compute; reflexivity|]. split; apply cell_eqb_eq; vm_compute; reflexivity.
Qed.
Print Assumptions C07_quarters_over_year_end_refuted.
(** The same triangle to quarters by quarters is refused with a [KeyError]. *)
Theorem C09_quarters_over_year_end_refuted : exists t, wf t /\ blank_future t /\ allowed t GQ GQ /\ is_cumulative t = Some true /\
  grain_to 11 GQ GQ t = Err KeyError.
Proof.
  exists exyend. split; [apply wfb_ok; vm_compute; reflexivity|]. split; [apply blank_futureb_ok; vm_compute; reflexivity|].
  split. { split; [exists 3; reflexivity|]. split; [exists 3; reflexivity|cbn; lia]. }
  split; vm_compute; reflexivity.
Qed.
Print Assumptions C09_quarters_over_year_end_refuted.
(** Quarterly origins from the second quarter of 2001 to years: 100 valued June 2001
    (age 6 of 2001) is shown at age 4. *)
Definition expart : tri := mtri GQ GQ (y 2001 + 3) 3 3 1 7 7 (dec 2002) (Some true).
Theorem C07_partial_first_year_refuted : exists t u, wf t /\ age_grid t (y 2001 + 3) 3 3 1 /\ blank_future t /\ allowed t GY GQ /\
  grain_to 11 GY GQ t = Ok u /\ odims u = [y 2001; y 2002] /\ ddims u = Ages [1; 4; 7; 10; 13; 16; 19; 22] /\
  block t 0 0 (y 2001) 12 (y 2001 + 4) (y 2001 + 5) = qc 100 /\ month_of u 0 1 = y 2001 + 3 /\ cel u 0 0 0 1 = Some (qc 100).
Proof.
  exists expart, (Ex.get expart (grain_to 11 GY GQ expart)). split; [apply wfb_ok; vm_compute; reflexivity|].
  split. { unfold age_grid. repeat split; try (cbn; lia). intros k Hk. change (k < 7)%nat in Hk. lia. }
  split; [apply blank_futureb_ok; vm_compute; reflexivity|].
  split. { split; [exists 4; reflexivity|]. split; [exists 1; reflexivity|cbn; lia]. }
  split; [apply get_ok; vm_compute; reflexivity|]. do 2 (split; [vm_compute; reflexivity|]).
  split; [apply qeqb; vm_compute; reflexivity|]. split; [vm_compute; reflexivity|]. apply cell_eqb_eq; vm_compute; reflexivity.
Qed.
Print Assumptions C07_partial_first_year_refuted.
(** Half-years cannot be turned into years although they nest. *)
Definition exhalf : tri := mtri GS GS (y 2001) 6 6 1 4 4 (dec 2002) (Some true).
Theorem C09_half_years_refuted : exists t, wf t /\ age_grid t (y 2001) 6 6 1 /\ blank_future t /\ allowed t GY GY /\
  is_cumulative t = Some true /\ grain_to 11 GY GY t = Err ValueError.
Proof.
  exists exhalf. split; [apply wfb_ok; vm_compute; reflexivity|].
  split. { unfold age_grid. repeat split; try (cbn; lia). intros k Hk. change (k < 4)%nat in Hk. lia. }
  split; [apply blank_futureb_ok; vm_compute; reflexivity|].
  split. { split; [exists 2; reflexivity|]. split; [exists 2; reflexivity|cbn; lia]. }
  split; vm_compute; reflexivity.
Qed.
Print Assumptions C09_half_years_refuted.
(** Two quarters to a half-year: the one half-year is taken for a year. *)
Definition exonehalf : tri := mtri GQ GQ (y 2001) 3 3 1 2 2 (y 2001 + 5) (Some true).
Theorem C07_single_half_year_refuted : exists t u, wf t /\ age_grid t (y 2001) 3 3 1 /\ blank_future t /\ allowed t GS GQ /\
  grain_to 11 GS GQ t = Ok u /\ ograin u = GY.
Proof.
  exists exonehalf, (Ex.get exonehalf (grain_to 11 GS GQ exonehalf)). split; [apply wfb_ok; vm_compute; reflexivity|].
  split. { unfold age_grid. repeat split; try (cbn; lia). intros k Hk. change (k < 2)%nat in Hk. lia. }
  split; [apply blank_futureb_ok; vm_compute; reflexivity|].
  split. { split; [exists 2; reflexivity|]. split; [exists 1; reflexivity|cbn; lia]. }
  split; [apply get_ok; vm_compute; reflexivity|]. vm_compute; reflexivity.
Qed.
Print Assumptions C07_single_half_year_refuted.
