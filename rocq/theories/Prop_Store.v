(** Property theorems: saving estimators and pipelines as JSON and reading them back. *)
From Coq Require Import List String ZArith.
From Verif Require Import Store SpecStore P_Store.
Import ListNotations.
Local Open Scope string_scope.

(** C70. An estimator whose parameters are plain values - or a Berquist-Sherman adjustment that holds another such estimator - is saved and
    read back as the same class with the same parameters. *)
Theorem C70_estimator : forall c ps, savable (PEst c ps) -> exists j, to_json c ps = Ok j /\ read_est j = Ok (PEst c ps).
Proof. intros c ps H. exact (savable_rt _ H). Qed.
Print Assumptions C70_estimator.
(** Not vacuous: a development estimator with a dictionary, a list and an infinite bound, and an adjustment that holds it. *)
Definition ex_dev : pv := PEst "Development" [("average", PList [PText "volume"; PText "simple"]); ("drop", PNone); ("drop_above", PInf true); ("drop_below", zero); ("drop_high", PNone);
  ("drop_low", PList [PBool true; PBool false]); ("drop_valuation", PText "1990"); ("fillna", PNone); ("groupby", PNone); ("n_periods", PInt 5); ("preserve", PInt 1); ("sigma_interpolation", PText "mack")].
Example C70_savable_dev : savable ex_dev.
Proof. eapply sv_plain; [reflexivity|discriminate|reflexivity|]. repeat (constructor; [cbn; repeat constructor|]). constructor. Qed.
Example C70_savable_nested : savable (PEst "BerquistSherman" [("closed_count", PText "Closed"); ("incurred_amount", PText "Incurred"); ("paid_amount", PText "Paid"); ("reported_count", PText "Reported");
  ("reported_count_estimator", PEst "Chainladder" []); ("trend", PFloat (qcf 3 20))]).
Proof. apply sv_nested; [repeat constructor|]. eapply sv_plain; [reflexivity|discriminate|reflexivity|constructor]. Qed.

(** C70. What is read back in general: tuples as lists and keys of dictionaries as texts, everything else as it was. *)
Theorem C70_reads_as : forall c d ps qs, class_new c = Ok d -> c <> "BerquistSherman" -> map fst ps = map fst d ->
  Forall2 (fun x y => fst x = fst y /\ reads_as (snd x) (snd y)) ps qs -> exists j, to_json c ps = Ok j /\ read_est j = Ok (PEst c qs).
Proof. exact est_reads. Qed.
Print Assumptions C70_reads_as.
Example C70_reads_as_case : exists ps qs d, class_new "Trend" = Ok d /\ map fst ps = map fst d /\ ps <> qs /\
  Forall2 (fun x y => fst x = fst y /\ reads_as (snd x) (snd y)) ps qs.
Proof.
  exists [("axis", PText "origin"); ("dates", PTuple [PText "2020"; PNone]); ("trends", half)], [("axis", PText "origin"); ("dates", PList [PText "2020"; PNone]); ("trends", half)].
  eexists. split; [reflexivity|]. split; [reflexivity|]. split; [discriminate|]. repeat (constructor; [split; [reflexivity|cbn; repeat constructor]|]). constructor.
Qed.

(** C70. A document that gives some of the parameters: these take the values given, the others their defaults, whatever the order. *)
Theorem C70_some : forall c d js, class_new c = Ok d -> c <> "BerquistSherman" -> NoDup (map fst js) -> (forall k, In k (map fst js) -> In k (map fst d)) ->
  exists out, read_est (JDoc c js) = Ok (PEst c out) /\ map fst out = map fst d /\
    forall k v, under k v out <-> (exists j, under k j js /\ v = loads j) \/ (~ In k (map fst js) /\ under k v d).
Proof.
  intros c d js E N D H. set (new := map (fun x => (fst x, loads (snd x))) js).
  assert (M : map fst new = map fst js) by (unfold new; rewrite map_map; reflexivity).
  destruct (set_some new d) as [out [E1 [E2 E3]]]; [rewrite M; exact D|rewrite M; exact H|].
  exists out. split.
  - cbn [read_est]. rewrite E. cbn [rbind]. destruct (String.eqb_spec c "BerquistSherman"); [contradiction|]. fold new. rewrite E1. reflexivity.
  - split; [exact E2|]. intros k v. rewrite under_find, E3. unfold new. rewrite find_map. destruct (find k js) as [j|] eqn:F; cbn [option_map]; split.
    + intros X. inversion X. left. exists j. split; [apply under_find; exact F|reflexivity].
    + intros [[j' [U ->]]|[X _]]; [apply under_find in U; congruence|]. exfalso. apply X. apply find_in in F. apply (in_map fst) in F. exact F.
    + intros X. right. split; [apply find_none; exact F|apply under_find; exact X].
    + intros [[j' [U _]]|[_ U]]; [apply under_find in U; congruence|apply under_find; exact U].
Qed.
Print Assumptions C70_some.
Example C70_some_case : exists d, class_new "TailConstant" = Ok d /\ NoDup (map fst [("tail", JFloat (qcf 21 20)); ("decay", JFloat (qcf 1 4))]) /\
  (forall k, In k ["tail"; "decay"] -> In k (map fst d)).
Proof. eexists. split; [reflexivity|]. split; [apply nodupb_ok; reflexivity|]. cbn. intuition. Qed.

(** C70. A name that is no class of the library, or a parameter the class does not have, is an error. *)
Theorem C70_unknown : (forall c js e, class_new c = Err e -> read_est (JDoc c js) = Err e) /\
  (forall c d js k, class_new c = Ok d -> c <> "BerquistSherman" -> In k (map fst js) -> ~ In k (map fst d) -> read_est (JDoc c js) = Err ValueError) /\
  (forall c, find c classes = None -> exists e, class_new c = Err e).
Proof.
  split; [|split].
  - intros c js e E. cbn [read_est]. rewrite E. reflexivity.
  - intros c d js k E N I H. cbn [read_est]. rewrite E. cbn [rbind]. destruct (String.eqb_spec c "BerquistSherman"); [contradiction|]. rewrite (set_unknown _ _ k); [reflexivity| |exact H].
    rewrite map_map. exact I.
  - intros c H. unfold class_new. rewrite H. destruct (_ || _ || _)%bool; eexists; reflexivity.
Qed.
Print Assumptions C70_unknown.

(** C70. A function, triangle, data frame or foreign estimator anywhere inside a parameter makes saving fail; nothing is dropped silently. *)
Theorem C70_refused : forall c ps k x, In (k, x) ps -> holds_object x -> exists e, to_json c ps = Err e.
Proof. intros c ps k x I H. apply object_err. eapply ho_est; eauto. Qed.
Print Assumptions C70_refused.
Example C70_refused_case : exists k x, In (k, x) [("callable_axis", PInt 0); ("groupby", PNone); ("patterns", PObj); ("style", PText "ldf")] /\ holds_object x.
Proof. exists "patterns", PObj. split; [cbn; auto|constructor]. Qed.

(** C70. A pipeline of estimators with plain parameters is saved and read back with the same steps, names, classes and parameters in the same order. *)
Theorem C70_pipeline : forall steps, Forall step_savable steps -> exists d, pipe_to_json steps = Ok d /\ read_pipe d = Ok steps.
Proof. exact pipe_rt. Qed.
Print Assumptions C70_pipeline.
Example C70_pipeline_case : Forall step_savable [("dev", ("ClarkLDF", [("groupby", PNone); ("growth", PText "weibull")])); ("model", ("CapeCod", [("apriori_sigma", zero); ("decay", half); ("groupby", PNone); ("n_iters", PInt 1); ("random_state", PInt 42); ("trend", PFloat (qcf 1 20))]))].
Proof. repeat constructor; eapply sv_plain; try reflexivity; try discriminate; repeat constructor. Qed.
(** C70. A pipeline in which a parameter holds such an object, or an estimator, cannot be saved. *)
Theorem C70_pipeline_refused : forall steps n c ps k x, In (n, (c, ps)) steps -> In (k, x) ps -> holds_object x \/ (exists c' q, x = PEst c' q) -> exists e, pipe_to_json steps = Err e.
Proof.
  intros steps n c ps k x I J [H|[c' [q ->]]].
  - destruct (object_err _ H false) as [e E]. exact (pipe_err _ _ _ _ _ _ _ I J E).
  - exact (pipe_err _ _ _ _ _ _ TypeError I J eq_refl).
Qed.
Print Assumptions C70_pipeline_refused.

(** C70. Violated: a tuple comes back as a list.  [drop=("2001", 12)], one cell, becomes [["2001", 12]], which a fit takes for two cells. *)
Definition dev_drop (v : pv) : list (string * pv) := [("average", PText "volume"); ("drop", v); ("drop_above", PInf true); ("drop_below", zero); ("drop_high", PNone); ("drop_low", PNone);
  ("drop_valuation", PNone); ("fillna", PNone); ("groupby", PNone); ("n_periods", PInt (-1)); ("preserve", PInt 1); ("sigma_interpolation", PText "log-linear")].
Theorem C70_tuple_refuted : exists j, to_json "Development" (dev_drop (PTuple [PText "2001"; PInt 12])) = Ok j /\
  read_est j = Ok (PEst "Development" (dev_drop (PList [PText "2001"; PInt 12]))).
Proof. eexists. split; reflexivity. Qed.
Print Assumptions C70_tuple_refuted.
(** C70. Violated: the default tail curve does not survive: its pairs [fit_period] and [reg_threshold] come back as lists. *)
Theorem C70_tail_curve_refuted : exists d j out, class_new "TailCurve" = Ok d /\ to_json "TailCurve" d = Ok j /\ read_est j = Ok (PEst "TailCurve" out) /\
  under "fit_period" (PTuple [PNone; PNone]) d /\ under "fit_period" (PList [PNone; PNone]) out /\ out <> d.
Proof.
  eexists. eexists. eexists. split; [reflexivity|]. split; [reflexivity|]. split; [reflexivity|]. split; [apply under_find; reflexivity|]. split; [apply under_find; reflexivity|]. discriminate.
Qed.
Print Assumptions C70_tail_curve_refuted.
(** C70. Violated: patterns given by age come back with texts for ages, under which no age is found. *)
Theorem C70_patterns_refuted : forall q, exists j, let ps x := [("callable_axis", PInt 0); ("groupby", PNone); ("patterns", PDict [(x, PFloat q)]); ("style", PText "ldf")] in
  to_json "DevelopmentConstant" (ps (DInt 12)) = Ok j /\ read_est j = Ok (PEst "DevelopmentConstant" (ps (DText "12"))).
Proof. intros q. eexists. split; reflexivity. Qed.
Print Assumptions C70_patterns_refuted.
(** C70. Violated: a voting estimator can be neither saved nor read. *)
Theorem C70_voting_refuted : (forall n c ps r rest, to_json "VotingChainladder" (("estimators", PList (PTuple [PText n; PEst c ps] :: r)) :: rest) = Err TypeError) /\
  (forall js, read_est (JDoc "VotingChainladder" js) = Err TypeError).
Proof. split; intros; reflexivity. Qed.
Print Assumptions C70_voting_refuted.
(** C70. Violated: parameters of the Berquist-Sherman adjustment cannot be set unless its estimator is among them. *)
Theorem C70_berquist_refuted : forall read cur new, ~ In "reported_count_estimator" (map fst new) -> berq_set_params read cur new = Err KeyError.
Proof. intros read cur new H. unfold berq_set_params, rce. rewrite (none_find _ _ _ H). reflexivity. Qed.
Print Assumptions C70_berquist_refuted.
