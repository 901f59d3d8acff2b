(** Property theorems: summary of a fitted reserving method. *)
From Coq Require Import Lia.
From Verif Require Import ExMethods P_Voting P_Core P_Corr5 P_Methods P_Diag1 P_Diag2 P_Diag3 P_Diag4 P_Diag5 SpecDiag.
Local Open Scope nat_scope.

Lemma uf_alike t u : wf t -> ultimate_frame t u -> alike t u.
Proof. intros W F. destruct (wf_ultimate t u W F) as (Wu & _). destruct F. constructor; auto. Qed.

Lemma diag_all name t l ult ex n : fitted_yearly t l ult n -> match ex with None => True | Some e => ultimate_frame t e end ->
  exists u, model_diagnostics name t l ult ex = Ok u /\
  key_labels u = ("Measure" :: "Model" :: key_labels t)%string /\ kdims u = flat_map (fun col => map (fun k => col :: name :: k) (kdims t)) (vdims t) /\
  vdims u = diag_names ex /\ odims u = odims t /\ ddims u = Vals [vdate t] /\ vdate u = vdate t /\
  forall i c o, i < ax0 (values t) -> c < ax1 (values t) -> o < n ->
    entry u t name "Latest" i c o = sumn n (fun d => amount t i c o d) /\ entry u t name "Quarter Incremental" i c o = 0%Qc /\
    entry u t name "Year Incremental" i c o = latest_amount t n i c o /\ entry u t name "IBNR" i c o = (amount ult i c o 0 - latest_amount t n i c o)%Qc /\
    entry u t name "Ultimate" i c o = amount ult i c o 0 /\ entry u t name "Run Off 1" i c o = (expected_at l ult i c o (n - o) - expected_at l ult i c o (n - 1 - o))%Qc /\
    forall e, ex = Some e -> entry u t name "Apriori" i c o = amount e i c o 0.
Proof.
  intros F He. destruct F as [Y PF UF EA PJ BU AB]. destruct Y as [W B N3 A0 A1 (o0 & a0 & Q & Ha) OG DG Cm Pt Uk Uv _].
  pose proof Q as (R & E2 & E3). assert (U : uniq_labels t) by (split; auto).
  assert (MI : method_input t) by (constructor; auto; eapply regular_even_diag; eauto).
  destruct (ibnr_ok t ult MI UF) as (ib & Eib & Fib & Cib).
  destruct (run_off_ok t l ult n o0 a0 W A0 A1 Q N3 OG DG PF UF EA PJ BU AB) as (run & Erun & Arun & Crun).
  destruct (all_ok name t n o0 a0 l ib ult run ex W B U A0 A1 Q N3 DG Cm) as (u & Eu & U1 & U2 & U3 & U4 & U5 & U6 & C); auto; [apply uf_alike; auto..| |].
  { destruct ex; auto. apply uf_alike; auto. }
  exists u. repeat (split; [auto; fail|]). intros i c o Hi Hc Ho.
  assert (Hm : n <= ax3 (values l)) by (edestruct (run_ages t l ult n o0 a0) as (Hm & _); eauto).
  assert (L : 6 <= List.length (diag_names ex)) by (destruct ex; cbn; lia).
  assert (G : forall k, k < 6 -> entry u t name (nth k (diag_names ex) EmptyString) i c o = nth k (diag_values t n ib ult run ex i c o) 0%Qc) by (intros k Hk; apply C; auto; lia).
  assert (Nm : forall k, k < 6 -> nth k (diag_names ex) EmptyString = nth k (diag_names None) EmptyString) by (intros k Hk; destruct ex; do 6 (destruct k as [|k]; [reflexivity|]); lia).
  split. { pose proof (G 0 ltac:(lia)) as X. rewrite Nm in X by lia. exact X. }
  split. { pose proof (G 1 ltac:(lia)) as X. rewrite Nm in X by lia. exact X. }
  split. { pose proof (G 2 ltac:(lia)) as X. rewrite Nm in X by lia. exact X. }
  split. { pose proof (G 3 ltac:(lia)) as X. rewrite Nm in X by lia. cbn [nth diag_names diag_values app] in X. rewrite X. unfold latest_amount. apply stores_nz. apply Cib; [unfold in_range; lia|].
    rewrite (square_month _ _ _ _ _ _ _ Q) by lia. rewrite (square_vdate _ _ _ _ _ Q). lia. }
  split. { pose proof (G 4 ltac:(lia)) as X. rewrite Nm in X by lia. exact X. }
  split. { pose proof (G 5 ltac:(lia)) as X. rewrite Nm in X by lia. cbn [nth diag_names diag_values app] in X. rewrite X, Crun by auto. unfold expected_at. rewrite (Nat.min_l (n - 1 - o)) by lia. reflexivity. }
  intros e ->. apply (C i c o 6); auto; cbn; lia.
Qed.

(** C68. For every row, column and origin the summary holds the ultimate, the reserve left after the latest amount and the increment
    expected for the next year. *)
Theorem C68_summary : forall name t l ult ex n, fitted_yearly t l ult n -> match ex with None => True | Some e => ultimate_frame t e end ->
  exists u, model_diagnostics name t l ult ex = Ok u /\
  key_labels u = ("Measure" :: "Model" :: key_labels t)%string /\ kdims u = flat_map (fun col => map (fun k => col :: name :: k) (kdims t)) (vdims t) /\
  vdims u = (["Latest"; "Quarter Incremental"; "Year Incremental"; "IBNR"; "Ultimate"; "Run Off 1"]%string ++ match ex with None => [] | Some _ => ["Apriori"%string] end)%list /\
  odims u = odims t /\ ddims u = Vals [vdate t] /\ vdate u = vdate t /\
  forall i c o, i < ax0 (values t) -> c < ax1 (values t) -> o < n ->
    entry u t name "Ultimate" i c o = amount ult i c o 0 /\
    entry u t name "IBNR" i c o = (amount ult i c o 0 - latest_amount t n i c o)%Qc /\
    entry u t name "Run Off 1" i c o = (expected_at l ult i c o (n - o) - expected_at l ult i c o (n - 1 - o))%Qc /\
    entry u t name "Quarter Incremental" i c o = 0%Qc /\
    forall e, ex = Some e -> entry u t name "Apriori" i c o = amount e i c o 0.
Proof.
  intros name t l ult ex n F He. destruct (diag_all name t l ult ex n F He) as (u & Eu & U1 & U2 & U3 & U4 & U5 & U6 & C). exists u. repeat (split; [auto; fail|]).
  intros i c o Hi Hc Ho. destruct (C i c o Hi Hc Ho) as (_ & C2 & _ & C4 & C5 & C6 & C7). auto.
Qed.
Print Assumptions C68_summary.

(** C68. The column "Latest" adds the amounts of all known ages of the cumulative triangle: more than the latest amount wherever an
    origin has an earlier age and amounts are positive. *)
Theorem C68_latest : forall name t l ult n u, fitted_yearly t l ult n -> model_diagnostics name t l ult None = Ok u ->
  forall i c o, i < ax0 (values t) -> c < ax1 (values t) -> o < n ->
    entry u t name "Latest" i c o = (latest_amount t n i c o + sumn (n - 1 - o) (fun d => amount t i c o d))%Qc /\
    ((forall d, d < n - 1 - o -> (0 < amount t i c o d)%Qc) -> o + 1 < n -> (latest_amount t n i c o < entry u t name "Latest" i c o)%Qc).
Proof.
  intros name t l ult n u F Eu i c o Hi Hc Ho. destruct (diag_all name t l ult None n F I) as (u' & Eu' & _ & _ & _ & _ & _ & _ & C). rewrite Eu in Eu'. injection Eu' as <-.
  destruct (C i c o Hi Hc Ho) as (C1 & _). destruct F as [Y _ _ _ _ _ _]. destruct Y as [W B N3 A0 A1 (o0 & a0 & Q & Ha) _ _ _ _ _ _ _]. pose proof Q as (R & E2 & E3).
  assert (X : entry u t name "Latest" i c o = (latest_amount t n i c o + sumn (n - 1 - o) (fun d => amount t i c o d))%Qc).
  { rewrite C1. assert (Z : forall k, n - o <= k <= n -> sumn k (fun d => amount t i c o d) = sumn (n - o) (fun d => amount t i c o d)).
    { induction k as [|k IH]; intros Hk; [replace (n - o) with 0 by lia; reflexivity|]. destruct (Nat.eq_dec (S k) (n - o)) as [->|]; [reflexivity|].
      cbn [sumn]. rewrite IH by lia. unfold amount at 2. rewrite B; [cbn [nz]; ring|unfold in_range; lia|]. apply (square_future t n o0 a0 12); auto; lia. }
    rewrite Z by lia. replace (n - o) with (S (n - 1 - o)) by lia. cbn [sumn]. unfold latest_amount. ring. }
  split; [exact X|]. intros Hp Hlt. rewrite X.
  assert (P : forall k, (forall d, d < k -> (0 < amount t i c o d)%Qc) -> (0 <= sumn k (fun d => amount t i c o d))%Qc /\ (0 < k -> (0 < sumn k (fun d => amount t i c o d))%Qc)).
  { induction k as [|k IH]; intros H; [split; [apply Qcle_refl|intros L; lia]|]. cbn [sumn]. destruct IH as (I1 & _); [intros; apply H; lia|]. specialize (H k ltac:(lia)).
    assert (0 < sumn k (fun d => amount t i c o d) + amount t i c o k)%Qc.
    { apply Qclt_le_trans with (0 + amount t i c o k)%Qc; [rewrite Qcplus_0_l; auto|]. apply Qcplus_le_compat; [auto|apply Qcle_refl]. }
    split; [apply Qclt_le_weak; auto|auto]. }
  destruct (P (n - 1 - o) Hp) as (_ & P2). specialize (P2 ltac:(lia)).
  apply Qclt_minus_iff. match goal with |- (0 < ?x)%Qc => replace x with (sumn (n - 1 - o) (fun d => amount t i c o d)) by ring end. auto.
Qed.
Print Assumptions C68_latest.
(** C68. The column "Year Incremental" holds the latest amount itself, and so what came in during the last year only for an origin
    without an amount a year earlier. *)
Theorem C68_year : forall name t l ult n u, fitted_yearly t l ult n -> model_diagnostics name t l ult None = Ok u ->
  forall i c o, i < ax0 (values t) -> c < ax1 (values t) -> o < n ->
    entry u t name "Year Incremental" i c o = latest_amount t n i c o /\
    (entry u t name "Year Incremental" i c o = last_year t n i c o <-> o + 1 = n \/ amount t i c o (n - 2 - o) = 0%Qc).
Proof.
  intros name t l ult n u F Eu i c o Hi Hc Ho. destruct (diag_all name t l ult None n F I) as (u' & Eu' & _ & _ & _ & _ & _ & _ & C). rewrite Eu in Eu'. injection Eu' as <-.
  destruct (C i c o Hi Hc Ho) as (_ & _ & C3 & _). split; [auto|]. rewrite C3. unfold last_year, latest_amount. destruct (Nat.ltb_spec (o + 1) n) as [L|L].
  - split.
    + intros E. right. set (a := amount t i c o (n - 1 - o)) in *. set (b := amount t i c o (n - 2 - o)) in *.
      replace b with (a - (a - b))%Qc by ring. rewrite <- E. ring.
    + intros [E|E]; [lia|]. rewrite E. ring.
  - split; [intros _; left; lia|]. intros _. ring.
Qed.
Print Assumptions C68_year.

(** Ultimates of 240, 252 and 189 for [ex3], with the factors of ExMethods. *)
Definition exult68 : tri := Tri (kdims ex3) (key_labels ex3) (vdims ex3) (odims ex3) (Vals [ULT_VAL])
  (Arr 1 1 3 1 (fun _ _ o _ => nth o [Some (qc 240); Some (qc 252); Some (qc 189)] None)) ULT_VAL (Some true) false GY GY.
Lemma ex3_yearly : yearly ex3 3.
Proof.
  constructor; try reflexivity; try apply ex3_method; try (cbn; lia).
  - exists (y 2001), 12%Z. split; [|lia]. split; [|split; reflexivity]. split; [lia|]. split; [lia|]. split; [reflexivity|]. split; [reflexivity|]. split; [intros k Hk; cbn in Hk; lia|]. split; [vm_compute; reflexivity|cbn; lia].
  - repeat constructor. intros [].
  - repeat constructor. intros [].
  - intros o d Ho Hd. cbn in Ho, Hd. do 3 (destruct o as [|o]; [do 3 (destruct d as [|d]; [vm_compute; reflexivity|]); lia|]). lia.
Qed.
Lemma ex3_fitted : fitted_yearly ex3 expat exult68 3.
Proof.
  constructor.
  - apply ex3_yearly.
  - apply expat_pattern.
  - constructor; reflexivity.
  - intros ages d E Hd. injection E as <-. cbn in Hd. do 3 (destruct d as [|d]; [vm_compute; reflexivity|]). lia.
  - intros ages E. injection E as <-. split.
    + intros a [<-|[<-|[<-|[<-|[]]]]]; lia.
    + intros o a [<-|[<-|[<-|[]]]] [<-|[<-|[<-|[<-|[]]]]]; vm_compute; reflexivity.
  - intros ages o a E. injection E as <-. intros [<-|[<-|[<-|[]]]] [<-|[<-|[<-|[<-|[]]]]]; vm_compute; reflexivity.
  - exists 0, 0, 1, 0. split; [cbn; lia|]. split; [cbn; lia|]. split; [lia|]. split; [cbn; lia|]. vm_compute. discriminate.
Qed.
Definition exsum : tri := Ex.get ex3 (model_diagnostics "Chainladder" ex3 expat exult68 None).
Example C68_hyps : fitted_yearly ex3 expat exult68 3 /\ model_diagnostics "Chainladder" ex3 expat exult68 None = Ok exsum /\
  entry exsum ex3 "Chainladder" "Ultimate" 0 0 2 = qc 189 /\ entry exsum ex3 "Chainladder" "IBNR" 0 0 2 = qc 99 /\
  entry exsum ex3 "Chainladder" "Run Off 1" 0 0 2 = qc 45 /\ entry exsum ex3 "Chainladder" "Run Off 1" 0 0 0 = qc 40.
Proof.
  split; [apply ex3_fitted|]. split; [apply get_ok; vm_compute; reflexivity|]. repeat split; apply qeqb; vm_compute; reflexivity.
Qed.

(** C68. "Latest" is not the latest amount: 425 for an origin with 100, 150 and 175. *)
Theorem C68_latest_refuted : exists name t l ult n u i c o, fitted_yearly t l ult n /\ model_diagnostics name t l ult None = Ok u /\
  i < ax0 (values t) /\ c < ax1 (values t) /\ o < n /\ latest_amount t n i c o = qc 175 /\ entry u t name "Latest" i c o = qc 425.
Proof.
  exists "Chainladder"%string, ex3, expat, exult68, 3, exsum, 0, 0, 0. split; [apply ex3_fitted|]. split; [apply get_ok; vm_compute; reflexivity|].
  split; [cbn; lia|]. split; [cbn; lia|]. split; [lia|]. split; apply qeqb; vm_compute; reflexivity.
Qed.
Print Assumptions C68_latest_refuted.
(** C68. "Year Incremental" is not what came in during the last year: 175 rather than 25. *)
Theorem C68_year_refuted : exists name t l ult n u i c o, fitted_yearly t l ult n /\ model_diagnostics name t l ult None = Ok u /\
  i < ax0 (values t) /\ c < ax1 (values t) /\ o < n /\ last_year t n i c o = qc 25 /\ entry u t name "Year Incremental" i c o = qc 175.
Proof.
  exists "Chainladder"%string, ex3, expat, exult68, 3, exsum, 0, 0, 0. split; [apply ex3_fitted|]. split; [apply get_ok; vm_compute; reflexivity|].
  split; [cbn; lia|]. split; [cbn; lia|]. split; [lia|]. split; apply qeqb; vm_compute; reflexivity.
Qed.
Print Assumptions C68_year_refuted.

(** C68. With two origins the single earlier amount is subtracted from every cell: the year's 120 of the second origin become 20. *)
Definition fitted_summary (t : tri) : result tri := do f <- cl_fit t None; model_diagnostics "Chainladder" t (fst f) (snd f) None.
Theorem C68_two_origins_refuted : exists t u, wf t /\ blank_future t /\ square t 2 (y 2001) 12 12 /\ fitted_summary t = Ok u /\
  last_year t 2 0 0 1 = qc 120 /\ entry u t "Chainladder" "Year Incremental" 0 0 1 = qc 20.
Proof.
  exists ex2, (Ex.get ex2 (fitted_summary ex2)). split; [apply wfb_ok; vm_compute; reflexivity|]. split; [apply blank_futureb_ok; vm_compute; reflexivity|].
  split. { split; [|split; reflexivity]. split; [lia|]. split; [lia|]. split; [reflexivity|]. split; [reflexivity|]. split; [intros k Hk; cbn in Hk; lia|]. split; [vm_compute; reflexivity|cbn; lia]. }
  split; [apply get_ok; vm_compute; reflexivity|]. split; apply qeqb; vm_compute; reflexivity.
Qed.
Print Assumptions C68_two_origins_refuted.
(** C68. Quarterly: labels of the current year such as '2001Q1' sort after '2001-09-30', so the first run-off of a triangle valued in
    September is the first quarter of the year, which is over: 100 for an origin without reserve.  And the year's payments are reported
    as 0 if the triangle begins in that year. *)
Definition exq68 : tri := Tri (kdims ex3) (key_labels ex3) (vdims ex3) [y 2001; y 2001 + 3; y 2001 + 6]%Z (Ages [3; 6; 9]%Z)
  (Arr 1 1 3 3 (fun _ _ o d => nth d (nth o [[Some (qc 100); Some (qc 150); Some (qc 180)]; [Some (qc 120); Some (qc 180); None]; [Some (qc 100); None; None]] []) None))
  (y 2001 + 8)%Z (Some true) false GQ GQ.
Theorem C68_quarterly_refuted : exists t u, wf t /\ blank_future t /\ square t 3 (y 2001) 3 3 /\ dgrain t = GQ /\ fitted_summary t = Ok u /\
  entry u t "Chainladder" "IBNR" 0 0 0 = 0%Qc /\ entry u t "Chainladder" "Run Off 1" 0 0 0 = qc 100 /\
  amount t 0 0 0 2 = qc 180 /\ vdate t = (y 2001 + 8)%Z /\ entry u t "Chainladder" "Year Incremental" 0 0 0 = 0%Qc.
Proof.
  exists exq68, (Ex.get ex2 (fitted_summary exq68)). split; [apply wfb_ok; vm_compute; reflexivity|]. split; [apply blank_futureb_ok; vm_compute; reflexivity|].
  split. { split; [|split; reflexivity]. split; [lia|]. split; [lia|]. split; [reflexivity|]. split; [reflexivity|]. split; [intros k Hk; cbn in Hk; lia|]. split; [vm_compute; reflexivity|cbn; lia]. }
  split; [reflexivity|]. split; [apply get_ok; vm_compute; reflexivity|]. repeat split; apply qeqb; vm_compute; reflexivity.
Qed.
Print Assumptions C68_quarterly_refuted.
