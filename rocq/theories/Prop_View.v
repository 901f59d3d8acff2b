(** Property C06: the development and the valuation view. *)
From Coq Require Import Lia.
From Verif Require Import SpecView P_View P_ViewFull P_ViewUlt Ex.
Local Open Scope Z_scope.

(** C06. [dev_to_val] files every amount under the month at whose end it is valued:
    nothing is lost, added or moved to another origin; the columns of the result
    are the known valuations in order. *)
Theorem C06_to_valuation : forall t o0 a0 h m, wf t -> age_grid t o0 a0 h m -> no_gap t h m ->
  blank_future t -> data_beyond_first t -> before_ultimate t -> not_full_cumulative t ->
  exists u vs, dev_to_val t = Ok u /\ same_data_by_date t u /\ ddims u = Vals vs /\ StronglySorted Z.lt vs /\
    ax3 (values u) = List.length vs /\
    forall v, In v vs <-> exists o d, (o < ax2 (values t))%nat /\ (d < ax3 (values t))%nat /\ month_of t o d = v /\ v <= vdate t.
Proof.
  intros t o0 a0 h m W G Hg B D U F. destruct (to_valuation t o0 a0 h m W G Hg B D U F) as (u & E & _ & _ & SD & L & Ed).
  exists u, (known_valuations t). repeat (split; [auto; fail|]). split; [apply UnionFacts.zunion_sorted|]. split; [auto|].
  intros v. apply known_in; auto.
Qed.
Print Assumptions C06_to_valuation.

(** C06. Converting back gives every amount its original age. *)
Theorem C06_round_trip : forall t o0 a0 h m, wf t -> age_grid t o0 a0 h m -> no_gap t h m ->
  blank_future t -> data_beyond_first t -> before_ultimate t -> not_full_cumulative t -> short_history t -> ~ future t 0 0 ->
  exists u w, dev_to_val t = Ok u /\ val_to_dev u = Ok w /\ same_data_by_date t w /\ age_grid w o0 a0 h m.
Proof. exact view_round_trip. Qed.
Print Assumptions C06_round_trip.

(** C06. [val_to_dev] on any valuation triangle that starts with the first origin. *)
Theorem C06_to_ages : forall t o0 a0 h m, wf t -> val_grid t o0 a0 h m -> no_future t -> before_ultimate t -> short_history t ->
  (2 <= ax3 (values t) \/ ax2 (values t) = 1)%nat -> nothing_before t a0 -> data_beyond_first t ->
  exists u, val_to_dev t = Ok u /\ same_data_by_date t u /\ age_grid u o0 a0 h m.
Proof.
  intros t o0 a0 h m W G NF U SH N2 NB D. destruct (to_ages t o0 a0 h m W G NF U SH N2 NB D) as (u & E & _ & A & _ & SD & _).
  exists u. auto.
Qed.
Print Assumptions C06_to_ages.

(** C06. A single diagonal at the valuation date is spread over the right ages. *)
Theorem C06_diagonal_to_ages : forall t o0 h m, wf t -> ddims t = Vals [vdate t] ->
  (1 <= h)%nat -> (1 <= m)%nat ->
  odims t = map (fun k => o0 + Z.of_nat (h * m * k))%Z (seq 0 (ax2 (values t))) ->
  grain_months (dgrain t) = Z.of_nat h -> grain_months (ograin t) = Z.of_nat (h * m) ->
  before_ultimate t -> short_history t -> m = 1%nat \/ data_beyond_first t ->
  exists u, val_to_dev t = Ok u /\ same_data_by_date t u /\
    age_grid u o0 (vdate t - last (odims t) 0 + 1) h m.
Proof. exact diagonal_ages. Qed.
Print Assumptions C06_diagonal_to_ages.

(** C06. A full cumulative triangle shows at every valuation the running total known
    by then (the last age reached is carried forward). *)
Theorem C06_full_to_valuation : forall t o0 a0 h m, wf t -> age_grid t o0 a0 h m -> no_future t -> is_pattern t = false ->
  is_cumulative t = Some true -> (2 <= ax3 (values t))%nat -> no_gap t h m -> before_ultimate t ->
  amounts_beyond_first t (ax3 (values t)) ->
  exists u vs, dev_to_val t = Ok u /\ same_rows t u /\ ddims u = Vals vs /\ StronglySorted Z.lt vs /\
    ax3 (values u) = List.length vs /\
    (forall v, In v vs <-> exists o d, (o < ax2 (values t))%nat /\ (d < ax3 (values t))%nat /\ month_of t o d = v) /\
    forall i c o k, in_range u i c o k -> exists q, total_at t i c o (month_of u o k) q /\ stores (cel u i c o k) q.
Proof. exact full_to_valuation. Qed.
Print Assumptions C06_full_to_valuation.

(** C06. The same with an ultimate column. *)
Theorem C06_ultimate_to_valuation : forall t o0 a0 h m, wf t -> ultimate_grid t o0 a0 h m -> no_future t -> is_pattern t = false ->
  is_cumulative t = Some true ->
  (ax2 (values t) = 1 \/ m <= ax3 (values t) - 1)%nat ->
  amounts_beyond_first t (ax3 (values t) - 1) ->
  exists u vs, dev_to_val t = Ok u /\ same_rows t u /\ ddims u = Vals vs /\ StronglySorted Z.lt vs /\
    ax3 (values u) = List.length vs /\
    (forall v, In v vs <-> exists o d, (o < ax2 (values t))%nat /\ (d < ax3 (values t))%nat /\ month_of t o d = v) /\
    forall i c o k, in_range u i c o k -> exists q, total_at t i c o (month_of u o k) q /\ stores (cel u i c o k) q.
Proof. exact ultimate_to_valuation. Qed.
Print Assumptions C06_ultimate_to_valuation.

(** C06. [val_to_dev] on a valuation triangle with an ultimate column: the ages every origin has
    reached at the last valuation, each amount at its age, and the ultimate column. *)
Theorem C06_ultimate_to_ages : forall t o0 a0 h m, let n := (ax3 (values t) - 1)%nat in
  wf t -> ultimate_val_grid t o0 a0 h m -> vdate t = ULT_VAL ->
  1 <= a0 -> o0 + a0 - 1 + Z.of_nat (h * (n - 1 + m * (ax2 (values t) - 1))) < 12 * 2261 -> a0 + Z.of_nat (h * (n - 1)) < 9999 ->
  (m * (ax2 (values t) - 1) < n)%nat ->
  (forall i c o d, in_range t i c o d -> (d < n)%nat -> cel t i c o d <> None -> (m * o <= d)%nat) ->
  (ax2 (values t) = 1%nat \/ exists i c o d, in_range t i c o d /\ (1 <= o)%nat /\ (d < n)%nat /\ cel t i c o d <> None) ->
  exists u, val_to_dev t = Ok u /\ same_rows t u /\ ultimate_grid u o0 a0 h m /\ ax3 (values u) = (n - m * (ax2 (values t) - 1) + 1)%nat /\
    (forall i c o d, in_range u i c o d -> (d < ax3 (values u) - 1)%nat -> cel u i c o d = cel t i c o (d + m * o)) /\
    (forall i c o, (i < ax0 (values t))%nat -> (c < ax1 (values t))%nat -> (o < ax2 (values t))%nat -> cel u i c o (ax3 (values u) - 1) = cel t i c o n).
Proof. exact ultimate_to_ages. Qed.
Print Assumptions C06_ultimate_to_ages.

(** C06. A full cumulative triangle with ultimates comes back with its ages and amounts. *)
Theorem C06_ultimate_round_trip : forall t o0 a0 h m, let n := (ax3 (values t) - 1)%nat in
  wf t -> ultimate_grid t o0 a0 h m -> no_future t -> is_pattern t = false -> is_cumulative t = Some true ->
  (ax2 (values t) = 1 \/ m <= n)%nat -> amounts_beyond_first t n ->
  o0 + a0 - 1 + Z.of_nat (h * (n - 1 + 2 * m * (ax2 (values t) - 1))) < 12 * 2261 -> a0 + Z.of_nat (h * (n - 1 + m * (ax2 (values t) - 1))) < 9999 ->
  exists u w, dev_to_val t = Ok u /\ val_to_dev u = Ok w /\ same_rows t w /\ ddims w = ddims t /\ ax3 (values w) = ax3 (values t) /\
    forall i c o d, in_range t i c o d -> stores (cel w i c o d) (amount t i c o d).
Proof. exact ultimate_round_trip. Qed.
Print Assumptions C06_ultimate_round_trip.

(** C06. A full cumulative triangle without ultimates comes back with its amounts at their
    ages, followed by ages at which its last running total is repeated as far as the last
    known valuation reaches. *)
Theorem C06_full_way_back : forall t o0 a0 h m, let n := ax3 (values t) in let n' := (n + m * (ax2 (values t) - 1))%nat in
  wf t -> age_grid t o0 a0 h m -> no_future t -> is_pattern t = false -> is_cumulative t = Some true -> (2 <= n)%nat -> no_gap t h m ->
  before_ultimate t -> amounts_beyond_first t n -> short_history t ->
  exists u w, dev_to_val t = Ok u /\ val_to_dev u = Ok w /\ same_rows t w /\ age_grid w o0 a0 h m /\ ax3 (values w) = n' /\
    forall i c o d, in_range w i c o d ->
      if (d + m * o <? n')%nat then stores (cel w i c o d) (amount t i c o (Nat.min d (n - 1))) else cel w i c o d = None.
Proof. exact full_way_back. Qed.
Print Assumptions C06_full_way_back.

(** ** Examples *)
Definition before_ultimateb (t : tri) : bool :=
  forallb (fun o => forallb (fun d => month_of t o d <? 12 * 2261) (seq 0 (ax3 (values t)))) (seq 0 (ax2 (values t))).
Lemma before_ultimateb_ok t : before_ultimateb t = true -> before_ultimate t.
Proof.
  intros H o d Ho Hd. unfold before_ultimateb in H. rewrite forallb_forall in H. specialize (H o ltac:(apply in_seq; lia)).
  rewrite forallb_forall in H. specialize (H d ltac:(apply in_seq; lia)). apply Z.ltb_lt in H. auto.
Qed.

(** Two accident years in quarterly development, ages 3 to 24. *)
Definition exvq : tri := Tri [["Total"%string]] ["Total"%string] ["paid"%string] [y 2001; y 2002] (Ages [3; 6; 9; 12; 15; 18; 21; 24])
  (arr_of [[Some 1; Some 2; N; Some 4; Some 5; Some 6; Some 7; Some 8]; [Some 10; N; Some 30; Some 40; N; N; N; N]]) (dec 2002)
  (Some true) false GY GQ.
Lemma exvq_grid : age_grid exvq (y 2001) 3 3 4.
Proof.
  unfold age_grid. repeat split; try (cbn; lia). intros k Hk. change (k < 8)%nat in Hk. lia.
Qed.
Example C06_to_valuation_hyps : wf exvq /\ age_grid exvq (y 2001) 3 3 4 /\ no_gap exvq 3 4 /\ blank_future exvq /\
  data_beyond_first exvq /\ before_ultimate exvq /\ not_full_cumulative exvq /\ short_history exvq /\ ~ future exvq 0 0.
Proof.
  split; [apply wfb_ok; vm_compute; reflexivity|]. split; [apply exvq_grid|]. split; [right; left; cbn; lia|].
  split; [apply blank_futureb_ok; vm_compute; reflexivity|]. split.
  { right. exists 0%nat, 0%nat, 1%nat, 0%nat. repeat split; cbn; try lia. discriminate. }
  split; [apply before_ultimateb_ok; vm_compute; reflexivity|]. split.
  { right. split; [cbn; lia|]. split; [cbn; lia|]. exists 1%nat, 7%nat. repeat split; cbn; lia. }
  split; [vm_compute; reflexivity|]. vm_compute. discriminate.
Qed.
Example C06_to_valuation_test : exists u, dev_to_val exvq = Ok u /\ cel u 0 0 1 4 = Some (qc 10) /\ cel u 0 0 1 3 = None /\
  ddims u = Vals [12 * 2001 + 2; 12 * 2001 + 5; 12 * 2001 + 8; 12 * 2001 + 11; 12 * 2002 + 2; 12 * 2002 + 5; 12 * 2002 + 8; 12 * 2002 + 11].
Proof.
  exists (Ex.get exvq (dev_to_val exvq)). split; [apply get_ok; vm_compute; reflexivity|].
  split; [apply cell_eqb_eq; vm_compute; reflexivity|]. split; vm_compute; reflexivity.
Qed.

(** The valuation triangle of three accident years. *)
Definition exval : tri := tri_of
  [[Some 100; Some 150; Some 175]; [N; Some 120; Some 180]; [N; N; Some 90]]
  [y 2001; y 2002; y 2003] (Vals [dec 2001; dec 2002; dec 2003]) (dec 2003) (Some true) false.
Example C06_to_ages_hyps : wf exval /\ val_grid exval (y 2001) 12 12 1 /\ no_future exval /\ before_ultimate exval /\
  short_history exval /\ nothing_before exval 12 /\ data_beyond_first exval.
Proof.
  split; [apply wfb_ok; vm_compute; reflexivity|]. split; [unfold val_grid; repeat split; cbn; lia|].
  split; [apply no_futureb_ok; vm_compute; reflexivity|]. split; [apply before_ultimateb_ok; vm_compute; reflexivity|].
  split; [vm_compute; reflexivity|]. split.
  { intros i c o d (Hi & Hc & Ho & Hd) H. change (o < 3)%nat in Ho. change (d < 3)%nat in Hd.
    destruct o as [|[|[|o]]]; [| | |lia]; (destruct d as [|[|[|d]]]; [| | |lia]); try (vm_compute; discriminate);
      exfalso; apply H; reflexivity. }
  right. exists 0%nat, 0%nat, 1%nat, 1%nat. repeat split; cbn; try lia. discriminate.
Qed.
(** A diagonal of annual origins in quarterly development. *)
Definition exdiag : tri := Tri [["Total"%string]] ["Total"%string] ["paid"%string] [y 2001; y 2002; y 2003] (Vals [dec 2003])
  (arr_of [[Some 1]; [Some 2]; [N]]) (dec 2003) (Some true) false GY GQ.
Example C06_diagonal_hyps : wf exdiag /\ before_ultimate exdiag /\ short_history exdiag /\ data_beyond_first exdiag /\
  grain_months (dgrain exdiag) = Z.of_nat 3 /\ grain_months (ograin exdiag) = Z.of_nat (3 * 4) /\
  odims exdiag = map (fun k => y 2001 + Z.of_nat (3 * 4 * k)) (seq 0 3).
Proof.
  split; [apply wfb_ok; vm_compute; reflexivity|]. split; [apply before_ultimateb_ok; vm_compute; reflexivity|].
  split; [vm_compute; reflexivity|]. split; [|repeat split].
  right. exists 0%nat, 0%nat, 1%nat, 0%nat. repeat split; cbn; try lia. discriminate.
Qed.
(** A completed square and the same with ultimates. *)
Definition exfull : tri := tri_of
  [[Some 100; Some 150; Some 175]; [Some 120; Some 180; Some 210]; [Some 90; Some 135; Some 157]]
  [y 2001; y 2002; y 2003] (Ages [12; 24; 36]) (dec 2005) (Some true) false.
Definition exult : tri := tri_of
  [[Some 100; Some 150; Some 175; Some 180]; [Some 120; Some 180; Some 210; Some 220]; [Some 90; Some 135; Some 157; Some 170]]
  [y 2001; y 2002; y 2003] (Ages [12; 24; 36; 9999]) ULT_VAL (Some true) false.
Example C06_full_hyps : wf exfull /\ age_grid exfull (y 2001) 12 12 1 /\ no_future exfull /\ no_gap exfull 12 1 /\
  before_ultimate exfull /\ short_history exfull /\ amounts_beyond_first exfull 3.
Proof.
  split; [apply wfb_ok; vm_compute; reflexivity|]. split.
  { unfold age_grid; repeat split; try (cbn; lia). intros k Hk. change (k < 3)%nat in Hk. lia. }
  split; [apply no_futureb_ok; vm_compute; reflexivity|]. split; [right; left; cbn; lia|].
  split; [apply before_ultimateb_ok; vm_compute; reflexivity|]. split; [unfold short_history; cbn; lia|].
  right. exists 0%nat, 0%nat, 1%nat, 1%nat. repeat split; cbn; try lia. discriminate.
Qed.
Example C06_ultimate_hyps : wf exult /\ ultimate_grid exult (y 2001) 12 12 1 /\ no_future exult /\ amounts_beyond_first exult 3.
Proof.
  split; [apply wfb_ok; vm_compute; reflexivity|]. split; [unfold ultimate_grid; repeat split; cbn; lia|].
  split; [apply no_futureb_ok; vm_compute; reflexivity|].
  right. exists 0%nat, 0%nat, 1%nat, 1%nat. repeat split; cbn; try lia. discriminate.
Qed.

Example C06_ultimate_round_trip_hyps : (ax2 (values exult) = 1 \/ 1 <= ax3 (values exult) - 1)%nat /\
  y 2001 + 12 - 1 + Z.of_nat (12 * (3 - 1 + 2 * 1 * (3 - 1))) < 12 * 2261 /\ 12 + Z.of_nat (12 * (3 - 1 + 1 * (3 - 1))) < 9999.
Proof. split; [right; cbn; lia|]. split; reflexivity. Qed.

(** ** Where the claim fails *)
(** Data in the first origin only: the amount valued December 2001 is shown under
    December 2003. *)
Definition exfirst : tri := tri_of [[Some 100; N; N]; [N; N; N]; [N; N; N]]
  [y 2001; y 2002; y 2003] (Ages [12; 24; 36]) (dec 2003) (Some true) false.
Theorem C06_first_origin_only_refuted : exists t u, wf t /\ blank_future t /\ dev_to_val t = Ok u /\
  cel t 0 0 0 0 = Some (qc 100) /\ month_of t 0 0 = dec 2001 /\
  ddims u = Vals [dec 2001; dec 2002; dec 2003] /\
  cel u 0 0 0 0 = None /\ cel u 0 0 0 2 = Some (qc 100).
Proof.
  exists exfirst, (Ex.get exfirst (dev_to_val exfirst)). split; [apply wfb_ok; vm_compute; reflexivity|].
  split; [apply blank_futureb_ok; vm_compute; reflexivity|]. split; [apply get_ok; vm_compute; reflexivity|].
  repeat split; try (vm_compute; reflexivity); apply cell_eqb_eq; vm_compute; reflexivity.
Qed.
Print Assumptions C06_first_origin_only_refuted.

(** A valuation triangle whose first valuation is after the first origin's first
    age: accident year 2001 valued December 2002 comes back at age 48. *)
Definition exlate : tri := tri_of
  [[Some 150; Some 175]; [Some 120; Some 180]; [N; Some 90]]
  [y 2001; y 2002; y 2003] (Vals [dec 2002; dec 2003]) (dec 2003) (Some true) false.
Theorem C06_later_valuations_refuted : exists t u l d, wf t /\ no_future t /\ val_to_dev t = Ok u /\
  cel t 0 0 0 0 = Some (qc 150) /\ month_of t 0 0 = dec 2002 /\
  ddims u = Ages l /\ nth d l 0 = 48 /\ cel u 0 0 0 d = Some (qc 150).
Proof.
  exists exlate, (Ex.get exlate (val_to_dev exlate)), [24; 36; 48; 60], 2%nat. split; [apply wfb_ok; vm_compute; reflexivity|].
  split; [apply no_futureb_ok; vm_compute; reflexivity|]. split; [apply get_ok; vm_compute; reflexivity|].
  repeat split; try (vm_compute; reflexivity); apply cell_eqb_eq; vm_compute; reflexivity.
Qed.
Print Assumptions C06_later_valuations_refuted.

(** Annual origins cut to their first two quarterly ages: the conversion fails. *)
Definition exfew : tri := Tri [["Total"%string]] ["Total"%string] ["paid"%string] [y 2001; y 2002; y 2003] (Ages [3; 6])
  (arr_of [[Some 1; Some 2]; [Some 3; Some 4]; [Some 5; Some 6]]) (dec 2003) (Some false) false GY GQ.
Theorem C06_few_ages_refuted : exists t e, wf t /\ no_future t /\ age_grid t (y 2001) 3 3 4 /\ dev_to_val t = Err e.
Proof.
  exists exfew, IndexError. split; [apply wfb_ok; vm_compute; reflexivity|]. split; [apply no_futureb_ok; vm_compute; reflexivity|].
  split; [|vm_compute; reflexivity]. unfold age_grid; repeat split; try (cbn; lia). intros k Hk. change (k < 2)%nat in Hk. lia.
Qed.
Print Assumptions C06_few_ages_refuted.
