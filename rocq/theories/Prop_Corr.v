(** Property C57: the test for calendar year effects. *)
From Coq Require Import Lia.
From Verif Require Import P_Corr P_Corr2 P_Corr3 P_Agg Ex SpecCorr.
Local Open Scope Z_scope.

(** C57. The large link ratios are those above the median of their age, the small ones those
    below it. *)
Theorem C57_large_above_median : forall lr i c o d x m, (o < ax2 (values lr))%nat -> cel lr i c o d = Some x ->
  is_median (ax2 (values lr)) (fun o' => cel lr i c o' d) m ->
  (is_large lr i c o d = true <-> (m < x)%Qc) /\ (is_small lr i c o d = true <-> (x < m)%Qc).
Proof.
  intros lr i c o d x m Ho E M. unfold is_large, is_small. rewrite E, !Nat.leb_le. split; symmetry.
  - exact (above_median (ax2 (values lr)) (fun o' => cel lr i c o' d) m o x M Ho E).
  - exact (below_median (ax2 (values lr)) (fun o' => cel lr i c o' d) m o x M Ho E).
Qed.
Print Assumptions C57_large_above_median.

(** C57. For every triangle on a grid of ages, and every level: one result per calendar
    period; it counts the large and the small link ratios observed in the period, and reports
    the smaller count with its mean, variance and probability for that many fair coins.  The
    link ratio of two ages is listed under the month of the earlier one. *)
Theorem C57_test : forall t o0 a0 h m p, wf t -> blank_future t -> is_pattern t = false -> age_grid t o0 a0 h m -> before_ultimate t ->
  (m < ax3 (values t))%nat -> ~ future t 0 m -> two_amounts t -> (0 <= p)%Qc -> (p <= 1)%Qc ->
  exists lr r vs, link_ratio t = Ok lr /\ valuation_test p lr = Ok r /\ valuation_months lr vs /\
    (forall i c o d, in_range lr i c o d -> age_to_age (cel t i c o d) (cel t i c o (S d)) (cel lr i c o d)) /\
    (forall o d, (o < ax2 (values lr))%nat -> (d < ax3 (values lr))%nat -> month_of t o (S d) = month_of lr o d + Z.of_nat h) /\
    (forall i c, (i < ax0 (values t))%nat -> (c < ax1 (values t))%nat ->
      List.length (r i c) = List.length vs /\
      forall e, (e < List.length vs)%nat ->
        exists x, nth_error (r i c) e = Some x /\
          reports p (in_period lr (nth e vs 0%Z) (is_large lr i c)) (in_period lr (nth e vs 0%Z) (is_small lr i c)) x).
Proof.
  intros t o0 a0 h m p W B Hp G U Hm Fm A P0 P1. destruct (link_testable t o0 a0 h m W B Hp G U Hm Fm A) as (lr & El & T & D0 & D1 & _ & _ & Mn & Cl).
  destruct (test_ok lr o0 a0 h m p T P0 P1) as (r & vs & Er & Vs & R). exists lr, r, vs. split; [exact El|]. split; [exact Er|]. split; [exact Vs|]. split; [exact Cl|]. split; [exact Mn|].
  rewrite <- D0, <- D1. exact R.
Qed.
Print Assumptions C57_test.

(** C57. The same for any triangle that already holds link ratios. *)
Theorem C57_test_link_ratios : forall lr o0 a0 h m p, testable lr o0 a0 h m -> (0 <= p)%Qc -> (p <= 1)%Qc ->
  exists r vs, valuation_test p lr = Ok r /\ valuation_months lr vs /\
    forall i c, (i < ax0 (values lr))%nat -> (c < ax1 (values lr))%nat ->
      List.length (r i c) = List.length vs /\
      forall e, (e < List.length vs)%nat ->
        exists x, nth_error (r i c) e = Some x /\
          reports p (in_period lr (nth e vs 0%Z) (is_large lr i c)) (in_period lr (nth e vs 0%Z) (is_small lr i c)) x.
Proof. exact test_ok. Qed.
Print Assumptions C57_test_link_ratios.

(** C57. The closed formulas, for every number of link ratios. *)
Theorem C57_mean : forall n, expected_z n = coins_mean n.
Proof. exact mean_ok. Qed.
Print Assumptions C57_mean.
Theorem C57_variance : forall n, variance_z n = coins_variance n.
Proof. exact variance_ok. Qed.
Print Assumptions C57_variance.
Theorem C57_probability : forall z n, prob_z z n = coins_prob n z.
Proof. exact prob_ok. Qed.
Print Assumptions C57_probability.

(** C57. A level outside 0 to 1 is refused. *)
Theorem C57_level : forall p lr, ~ ((0 <= p)%Qc /\ (p <= 1)%Qc) -> valuation_test p lr = Err ValueError.
Proof. exact test_bad. Qed.
Print Assumptions C57_level.

(** Seven accident years whose link ratios are 1 and 2 in alternate calendar years. *)
Definition waves : tri := tri_of
  [[Some 1; Some 1; Some 2; Some 2; Some 4; Some 4; Some 8];
   [Some 1; Some 2; Some 2; Some 4; Some 4; Some 8; None];
   [Some 1; Some 1; Some 2; Some 2; Some 4; None; None];
   [Some 1; Some 2; Some 2; Some 4; None; None; None];
   [Some 1; Some 1; Some 2; None; None; None; None];
   [Some 1; Some 2; None; None; None; None; None];
   [Some 1; None; None; None; None; None; None]]
  [y 2001; y 2002; y 2003; y 2004; y 2005; y 2006; y 2007] (Ages [12; 24; 36; 48; 60; 72; 84]) (dec 2007) (Some true) false.
Lemma waves_ok : wf waves /\ blank_future waves /\ is_pattern waves = false /\ age_grid waves (y 2001) 12 12 1 /\ before_ultimate waves /\
  (1 < ax3 (values waves))%nat /\ ~ future waves 0 1 /\ two_amounts waves.
Proof.
  split; [apply wfb_ok; vm_compute; reflexivity|]. split; [apply blank_futureb_ok; vm_compute; reflexivity|]. split; [reflexivity|].
  split. { repeat split; try (cbn; lia); try reflexivity. intros k Hk. cbn in Hk. lia. }
  split. { intros o d Ho Hd. cbn in Ho, Hd. do 7 (destruct o as [|o]; [do 7 (destruct d as [|d]; [vm_compute; reflexivity|]); lia|]). lia. }
  split; [cbn; lia|]. split; [vm_compute; intros H; discriminate H|].
  exists 0%nat, 0%nat, 1%nat, 0%nat. split; [repeat split; cbn; lia|]. split; [lia|]. split; vm_compute; intros E; apply (f_equal this) in E; discriminate E.
Qed.
Example C57_hyps : exists lr r vs, link_ratio waves = Ok lr /\ valuation_test (qc 1 / qc 10)%Qc lr = Ok r /\ valuation_months lr vs.
Proof.
  destruct waves_ok as (W & B & P & G & U & M & F & A).
  destruct (C57_test waves (y 2001) 12 12 1 (qc 1 / qc 10)%Qc W B P G U M F A) as (lr & r & vs & E1 & E2 & E3 & _); [vm_compute; discriminate|vm_compute; discriminate|].
  exists lr, r, vs. auto.
Qed.
Definition waves_results : bool :=
  match link_ratio waves with
  | Ok lr => match valuation_test (qc 1 / qc 10)%Qc lr with
             | Ok r => (List.length (r 0%nat 0%nat) =? 6)%nat && forallb (fun x => (ct_z x =? 0)%nat) (r 0%nat 0%nat) &&
                       forallb (fun xn => (ct_n (fst xn) =? snd xn)%nat) (combine (r 0%nat 0%nat) [1; 1; 3; 2; 5; 3]%nat) &&
                       forallb (fun xb => Bool.eqb (ct_critical (fst xb)) (snd xb)) (combine (r 0%nat 0%nat) [false; false; false; false; true; false]) &&
                       Qc_ltb (qc 4 * total_variance (r 0%nat 0%nat)) (total_expectation (r 0%nat 0%nat) * total_expectation (r 0%nat 0%nat))%Qc
             | _ => false end
  | _ => false end.
Example C57_waves : waves_results = true.
Proof. vm_compute. reflexivity. Qed.

(** C57, violated: the test over all calendar periods never rejects.  It compares the sum of
    the variances with a range around that same sum. *)
Theorem C57_total_never_rejects : forall ci2 l, (ci2 <= 0)%Qc -> total_critical ci2 l = false.
Proof. exact total_never. Qed.
Print Assumptions C57_total_never_rejects.
(** Not even when every calendar period holds only large or only small link ratios, with the
    statistic more than two standard deviations below its mean. *)
Theorem C57_total_refuted : exists t lr r p, wf t /\ link_ratio t = Ok lr /\ valuation_test p lr = Ok r /\
  let l := r 0%nat 0%nat in
  (forall x, In x l -> ct_z x = 0%nat) /\ (qc 4 * total_variance l < total_expectation l * total_expectation l)%Qc /\
  forall ci2, (ci2 <= 0)%Qc -> total_critical ci2 l = false.
Proof.
  assert (H := C57_waves). unfold waves_results in H. destruct (link_ratio waves) as [lr|] eqn:El; [|discriminate].
  destruct (valuation_test (qc 1 / qc 10)%Qc lr) as [r|] eqn:Er; [|discriminate].
  exists waves, lr, r, (qc 1 / qc 10)%Qc. split; [apply waves_ok|]. split; [exact El|]. split; [exact Er|]. cbv zeta.
  rewrite !andb_true_iff in H. destruct H as ((((_ & H1) & _) & _) & H2). split; [|split].
  - intros x Hx. rewrite forallb_forall in H1. apply Nat.eqb_eq, H1, Hx.
  - apply (reflect_iff _ _ (NumFacts.Qc_ltb_spec _ _)), H2.
  - intros ci2 Hc. exact (total_never ci2 (r 0%nat 0%nat) Hc).
Qed.
Print Assumptions C57_total_refuted.
