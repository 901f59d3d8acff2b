(** Property theorems: options. *)
From Coq Require Import List String.
From Verif Require Import Options SpecOptions P_Options.
Import ListNotations.
Local Open Scope string_scope.

(** C74. After any history of calls an option has the value it was given last, a reset giving the default, or the default if it was given none;
    the library reads that same value. *)
Theorem C74_value : forall h k v, no_assignment h -> (get_option (after h) k = Ok v <-> value_after h k v) /\ attribute (after h) k = get_option (after h) k.
Proof. intros h k v N. split; [apply value_get|]. unfold attribute. rewrite no_instance by auto. reflexivity. Qed.
Print Assumptions C74_value.
Example C74_value_case : let h := [CBackend "cupy"; CSet "ULT_VAL" (VText "2100-12-31"); CReset; CSparse false; CSet "AUTO_SPARSE" (VBool true); CBackend "sparse"] in
  no_assignment h /\ get_option (after h) "ARRAY_BACKEND" = Ok (VText "sparse") /\ get_option (after h) "ULT_VAL" = Ok (VText "2261-12-31 23:59:59.999999999").
Proof. split; [intros k v I; cbn in I; intuition discriminate|]. split; reflexivity. Qed.
(** C74. Violated: a misspelled option is accepted; it is stored under its own name and changes none of the options. *)
Theorem C74_misspelled_refuted : forall h k v, no_assignment h -> (forall d, ~ default k d) ->
  get_option (after (h ++ [CSet k v])) k = Ok v /\ forall m d, default m d -> attribute (after (h ++ [CSet k v])) m = attribute (after h) m.
Proof.
  intros h k v N M. unfold after. rewrite fold_left_app. change (fold_left do_call h initial) with (after h). cbn [fold_left do_call]. split; [rewrite get_set, String.eqb_refl; reflexivity|].
  intros m d D. unfold attribute. cbn [of_instance set_option]. destruct (oget m (of_instance (after h))); auto. rewrite get_set. destruct (String.eqb_spec m k) as [->|]; auto. exfalso. eapply M; eauto.
Qed.
Print Assumptions C74_misspelled_refuted.
Example C74_misspelled_case : forall d, ~ default "ARRAY_BACKENDS" d.
Proof. intros d D. inversion D. Qed.
(** C74. Violated: an option that was assigned, as in options.ULT_VAL = value, is used by the library but not seen by get_option, and no later call of set_option or reset_option changes it. *)
Theorem C74_assigned_refuted : forall h k v later, no_assignment later ->
  attribute (after (h ++ CAssign k v :: later)) k = Ok v /\ get_option (after (h ++ [CAssign k v])) k = get_option (after h) k.
Proof.
  intros h k v later N. split.
  - assert (G : oget k (of_instance (after (h ++ CAssign k v :: later))) = Some v); [|unfold attribute; rewrite G; reflexivity].
    unfold after. rewrite fold_left_app. cbn [fold_left do_call]. set (o := assign _ _ _). assert (Q : oget k (of_instance o) = Some v) by (unfold o; cbn; rewrite oget_oset, String.eqb_refl; reflexivity).
    clearbody o. revert o Q N. induction later as [|c r IH]; intros o Q N; auto. cbn [fold_left]. apply IH; [|intros m u I; apply (N m u); right; auto].
    destruct c as [m u| |s|b|m u]; cbn; auto. exfalso. apply (N m u). left. auto.
  - unfold after. rewrite fold_left_app. reflexivity.
Qed.
Print Assumptions C74_assigned_refuted.
Example C74_assigned_case : no_assignment [CReset; CSet "ULT_VAL" (VText "2100-12-31")] /\
  attribute (after ([] ++ CAssign "ULT_VAL" (VText "2050-12-31") :: [CReset])) "ULT_VAL" = Ok (VText "2050-12-31").
Proof. split; [intros k v I; cbn in I; intuition discriminate|reflexivity]. Qed.
