(** Property theorems: pipelines do what their steps do one after the other. *)
From Coq Require Import List String Bool Lia.
From Verif Require Import Pipe SpecPipe P_Pipe.
Import ListNotations.
Local Open Scope string_scope.

(** C73. Fitting a pipeline is fitting its steps by hand, each to what the step before made of the data, with the weight of the call, or the one
    given for the step; it succeeds exactly if that does. *)
Theorem C73_fit : forall T P (steps : list (string * step (est T P))) X y w own fs,
  plain_names (map fst steps) -> ends_in_estimator steps -> weights_fit steps own -> (w <> None -> forall n, ~ In (n, SNone) steps) ->
  pipe_fit steps X y w (step_weights own) = Ok fs <-> by_hand y (weight_of w own) steps X fs.
Proof. intros. apply fit_spec; auto. Qed.
Print Assumptions C73_fit.
(** An estimator on numbers that is not symmetric in anything, for examples. *)
Definition toy (c : nat) : est nat nat := fun X y w =>
  Ok (Fitted (fun Z => Ok (2 * Z + c + match w with Some w => 3 * w | None => 0 end)%nat) (Some (fun Z w => Ok (3 * Z + X + c + match w with Some w => w | None => 0 end)%nat))).
Definition toy_steps := [("dev", SEst (toy 1)); ("skip", SPass); ("tail", SEst (toy 2)); ("model", SEst (toy 3))].
Example C73_fit_case : plain_names (map fst toy_steps) /\ ends_in_estimator toy_steps /\ weights_fit toy_steps [("tail", 5)]%nat /\ (forall n, ~ In (n, SNone) toy_steps).
Proof.
  split; [split|split; [|split]].
  - repeat constructor; cbn; intuition discriminate.
  - repeat constructor; apply plain_check; try reflexivity; cbn; intuition discriminate.
  - exists [("dev", SEst (toy 1)); ("skip", SPass); ("tail", SEst (toy 2))], "model", (toy 3). reflexivity.
  - split; [repeat constructor; cbn; intuition|]. intros n [<-|[]]. exists (SEst (toy 2)). split; [cbn; auto|discriminate].
  - intros n I. cbn in I. intuition discriminate.
Qed.
(** C73. Predicting passes the data through all fitted steps but the last and lets the last predict with the weight of the call. *)
Theorem C73_predict : forall T P (fs : list (step (fitted T P))) X w v, pipe_predict fs X w [] = Ok v <-> predicts w fs X v.
Proof. intros. apply predict_spec. Qed.
Print Assumptions C73_predict.
Example C73_predict_case : exists fs v, pipe_fit toy_steps 1%nat None (Some 4%nat) [] = Ok fs /\ predicts (Some 4%nat) fs 2%nat v.
Proof.
  destruct (pipe_fit toy_steps 1%nat None (Some 4%nat) []) as [fs|] eqn:E; [|vm_compute in E; discriminate]. exists fs.
  destruct (pipe_predict fs 2%nat (Some 4%nat) []) as [v|] eqn:Q; [|exfalso; cbn in E; inversion E; subst; cbn in Q; discriminate]. exists v. split; auto. apply C73_predict. exact Q.
Qed.
(** C73. [fit_predict] without further arguments is fitting and predicting the same data with the same weight. *)
Theorem C73_fit_predict : forall T P (steps : list (string * step (est T P))) X y w v,
  plain_names (map fst steps) -> ends_in_estimator steps -> (w <> None -> forall n, ~ In (n, SNone) steps) ->
  pipe_fit_predict steps X y w [] = Ok v <-> exists fs, by_hand y (fun _ => w) steps X fs /\ predicts w fs X v.
Proof.
  intros T P steps X y w v N L S.
  assert (F : forall fs, pipe_fit steps X y w [] = Ok fs <-> by_hand y (fun _ => w) steps X fs).
  { intros fs. change (@nil (string * T)) with (@step_weights T []). rewrite fit_spec; auto; [|split; [constructor|intros n []]].
    assert (W : forall n, weight_of w [] n = w) by (intros; destruct w; reflexivity).
    split; apply by_hand_ext; intros; rewrite W; reflexivity. }
  unfold pipe_fit_predict. split.
  - destruct (pipe_fit steps X y w []) as [fs|] eqn:E; cbn [rbind]; [|discriminate]. intros Q. exists fs. split; [apply F; auto|apply predict_spec; auto].
  - intros (fs & B & Q). apply F in B. rewrite B. cbn [rbind]. apply predict_spec; auto.
Qed.
Print Assumptions C73_fit_predict.
(** C73. Arguments for a step the pipeline does not have, and arguments that name no step, are refused. *)
Theorem C73_unknown : forall T P (steps : list (string * step (est T P))) X y k v,
  (forall a b, k <> a ++ "__" ++ b) -> pipe_fit steps X y None [(k, v)] = Err ValueError.
Proof. intros. unfold pipe_fit, super_fit. cbn. rewrite split_none by auto. reflexivity. Qed.
Print Assumptions C73_unknown.
Example C73_unknown_case : forall a b, "sample_weights" <> a ++ "__" ++ b.
Proof. apply (plain_check "sample_weights"); try reflexivity. cbn. intuition discriminate. Qed.
Theorem C73_unknown_step : forall T P (steps : list (string * step (est T P))) X y n p v,
  plain_name n -> ~ In n (map fst steps) -> pipe_fit steps X y None [(n ++ "__" ++ p, v)] = Err KeyError.
Proof.
  intros T P steps X y n p v (_ & A & B) N. unfold pipe_fit, super_fit. cbn [check_params]. rewrite split_app by auto.
  destruct (known_step steps n) eqn:E; [|reflexivity]. apply known_true in E. destruct E as (s & I & _). exfalso. apply N. apply in_map_iff. exists (n, s). auto.
Qed.
Print Assumptions C73_unknown_step.
Example C73_unknown_step_case : plain_name "mode" /\ ~ In "mode" (map fst toy_steps).
Proof. split; [apply plain_check; try reflexivity; cbn; intuition discriminate|cbn; intuition discriminate]. Qed.
(** C73. A second step of the same name is refused. *)
Theorem C73_twice : forall T P (steps : list (string * step (est T P))) X y fs, ~ NoDup (map fst steps) -> pipe_fit steps X y None [] <> Ok fs.
Proof.
  intros T P steps X y fs N. unfold pipe_fit, super_fit. cbn [check_params rbind]. destruct (valid_names (map fst steps)) eqn:E; [|discriminate].
  exfalso. apply N. apply andb_true_iff in E. destruct E as [E _]. clear N. induction (map fst steps) as [|x l IH]; constructor.
  - intros I. cbn in E. apply andb_true_iff in E. destruct E as [E _]. apply negb_true_iff in E. assert (Q : existsb (String.eqb x) l = true) by (apply existsb_exists; exists x; split; auto; apply String.eqb_refl). congruence.
  - apply IH. cbn in E. apply andb_true_iff in E. tauto.
Qed.
Print Assumptions C73_twice.

(** C73. Violated: [fit_predict] with an argument for a step never returns; it is passed to the [predict] of the last step. *)
Theorem C73_step_weights_refuted : forall T P (steps : list (string * step (est T P))) X y w own v, own <> [] -> pipe_fit_predict steps X y w (step_weights own) <> Ok v.
Proof.
  intros T P steps X y w own v N. unfold pipe_fit_predict. destruct (pipe_fit steps X y w (step_weights own)) as [fs|]; cbn [rbind]; [|discriminate].
  destruct own as [|[n x] own]; [contradiction|].
  assert (K : n ++ "__sample_weight" <> "sample_weight") by (intro Q; apply (f_equal String.length) in Q; rewrite app_length in Q; cbn in Q; lia).
  unfold pipe_predict. destruct w as [w|]; [|apply (predict_refuses _ _ _ _ (n ++ "__sample_weight") x); [left; reflexivity|exact K]].
  apply (predict_refuses _ _ _ _ (n ++ "__sample_weight") x); auto. cbn [step_weights map fst snd put].
  destruct (String.eqb_spec "sample_weight" (n ++ "__sample_weight")) as [Q|]; [exfalso; apply K; auto|left; reflexivity].
Qed.
Print Assumptions C73_step_weights_refuted.
(** C73. Violated: a pipeline with a step that was removed by setting it to None cannot be fitted with a weight. *)
Theorem C73_none_refuted : forall T P (steps : list (string * step (est T P))) X y w n, plain_names (map fst steps) -> In (n, SNone) steps -> pipe_fit steps X y (Some w) [] = Err KeyError.
Proof.
  intros T P steps X y w n [D F] I. unfold pipe_fit, super_fit. change (@nil (string * T)) with (@step_weights T []). rewrite fold_weights, check_err; auto.
  - apply Forall_forall. intros m J. apply all_put_names in J. rewrite Forall_forall in F. destruct J as [J|[]]; auto.
  - exists n. split; [apply all_put_names; left; apply in_map_iff; exists (n, SNone); auto|]. destruct (known_step steps n) eqn:E; auto. apply known_true in E. destruct E as (s & J & K).
    exfalso. apply K. clear - D I J. induction steps as [|[m t] r IH]; [destruct I|]. cbn in D. inversion D as [|? ? M D']; subst. destruct I as [I|I], J as [J|J].
    + congruence.
    + inversion I; subst. exfalso. apply M. apply in_map_iff. exists (n, s). auto.
    + inversion J; subst. exfalso. apply M. apply in_map_iff. exists (n, SNone). auto.
    + auto.
Qed.
Print Assumptions C73_none_refuted.
Example C73_none_case : plain_names (map fst [("dev", SEst (toy 1)); ("tail", SNone); ("model", SEst (toy 3))]) /\ exists fs, pipe_fit [("dev", SEst (toy 1)); ("tail", SNone); ("model", SEst (toy 3))] 1%nat None None [] = Ok fs.
Proof. split; [split; [repeat constructor; cbn; intuition discriminate|repeat constructor; apply plain_check; try reflexivity; cbn; intuition discriminate]|]. eexists. reflexivity. Qed.
(** C73. Violated: a pipeline with a step whose name ends in an underscore can be fitted without a weight but not with one. *)
Theorem C73_underscore_refuted : forall T P (e : est T P) X y w m, e X y None = Ok m ->
  pipe_fit [("dev_", SEst e)] X y None [] = Ok [SEst m] /\ pipe_fit [("dev_", SEst e)] X y (Some w) [] = Err KeyError.
Proof. intros T P e X y w m H. split; [|reflexivity]. cbn. rewrite H. reflexivity. Qed.
Print Assumptions C73_underscore_refuted.
