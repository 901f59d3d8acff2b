(** Proofs about the summary of a fitted method: the whole summary. *)
From Coq Require Import Lia.
From Verif Require Import P_Voting DevFacts P_Align2 P_Align3 P_Core P_Corr5 P_Methods P_Dropna LabelFacts UnionFacts P_Align P_Diag1 P_Diag2 P_Diag3.
From Verif Require Import P_Agg P_Select2 P_Select3 P_FullTri P_Filter SliceFacts TriFacts CatFacts SpecSelect SpecDiag.
Local Open Scope nat_scope.

Lemma qsum_F2 {A B} (R : A -> B -> Prop) (g : B -> Qc) x v l r : Forall2 R l r -> NoDup l ->
  (forall y p, R y p -> y <> x -> g p = 0%Qc) -> (forall p, R x p -> g p = v) ->
  (In x l -> qsum (map g r) = v) /\ (~ In x l -> qsum (map g r) = 0%Qc).
Proof.
  intros F N H0 H1. induction F as [|y p l r Rp F IH]; [split; [intros []|reflexivity]|]. inversion N; subst. destruct IH as (IH1 & IH0); auto.
  cbn [map]. change (qsum (g p :: map g r)) with (g p + qsum (map g r))%Qc. split.
  - intros [->|Hin].
    + rewrite (H1 p Rp), IH0 by auto. ring.
    + rewrite (H0 y p Rp), IH1 by (auto; intros ->; contradiction). ring.
  - intros Hn. rewrite (H0 y p Rp), IH0 by (intros X; apply Hn; cbn; auto). ring.
Qed.
Lemma nodup_app2 {A} (l m : list A) : NoDup l -> NoDup m -> (forall x, In x l -> ~ In x m) -> NoDup (l ++ m).
Proof.
  induction l as [|x l IH]; intros Hl Hm H; cbn; auto. inversion Hl; subst. constructor.
  - rewrite in_app_iff. intros [?|?]; [contradiction|]. apply (H x); cbn; auto.
  - apply IH; auto. intros y Hy. apply H. cbn. auto.
Qed.
Lemma diag_names_nodup ex : NoDup (diag_names ex).
Proof. unfold diag_names. destruct ex; cbn [app]; repeat (constructor; [cbn; intuition discriminate|]); constructor. Qed.

Section All.
Variables (name : string) (t : tri) (n : nat) (o0 a0 : Z) (ldf ib ult run : tri) (ex : option tri).
Hypothesis W : wf t.
Hypothesis Bt : blank_future t.
Hypothesis U : uniq_labels t.
Hypothesis A0 : 1 <= ax0 (values t).
Hypothesis A1 : 1 <= ax1 (values t).
Hypothesis Q : square t n o0 a0 12.
Hypothesis N3 : 3 <= n.
Hypothesis DG : dgrain t = GY.
Hypothesis Cm : is_cumulative t = Some true.
Hypothesis Ib : alike t ib.
Hypothesis Ul : alike t ult.
Hypothesis Ru : alike t run.
Hypothesis Hex : match ex with None => True | Some e => alike t e end.
Hypothesis Eib : ibnr_of t ult = Ok ib.
Hypothesis Eru : diag_run_off t ldf ult = Ok run.

Definition part_of (col : string) (p : tri) : Prop :=
  wf p /\ kdims p = map (fun k => col :: name :: k) (kdims t) /\ key_labels p = ("Measure" :: "Model" :: key_labels t)%string /\
  vdims p = diag_names ex /\ odims p = odims t /\ ddims p = Vals [vdate t] /\ vdate p = vdate t /\
  forall c, c < ax1 (values t) -> col = nth c (vdims t) EmptyString ->
  forall i k o, i < ax0 (values t) -> k < List.length (diag_names ex) -> o < ax2 (values t) -> amount p i k o 0 = nth k (diag_values t n ib ult run ex i c o) 0%Qc.

Lemma keys_F2 l r : Forall2 part_of l r -> List.concat (map kdims r) = flat_map (fun col => map (fun k => col :: name :: k) (kdims t)) l.
Proof. intros F. induction F as [|x p l r (_ & K & _) F IH]; [reflexivity|]. cbn. rewrite IH, K. reflexivity. Qed.
Lemma keys_nodup l : NoDup l -> NoDup (flat_map (fun col => map (fun k => col :: name :: k) (kdims t)) l).
Proof using U.
  intros N. induction N as [|x l Hx N IH]; [constructor|]. cbn [flat_map]. apply nodup_app2; auto.
  - apply FinFun.Injective_map_NoDup; [intros a b E; congruence|apply U].
  - intros k Hk Hl. apply in_map_iff in Hk. destruct Hk as (k1 & <- & _). apply in_flat_map in Hl. destruct Hl as (y & Hy & Hm). apply in_map_iff in Hm. destruct Hm as (k2 & E & _). congruence.
Qed.

Lemma all_ok : exists u, model_diagnostics name t ldf ult ex = Ok u /\
  key_labels u = ("Measure" :: "Model" :: key_labels t)%string /\
  kdims u = flat_map (fun col => map (fun k => col :: name :: k) (kdims t)) (vdims t) /\
  vdims u = diag_names ex /\ odims u = odims t /\ ddims u = Vals [vdate t] /\ vdate u = vdate t /\
  forall i c o k, i < ax0 (values t) -> c < ax1 (values t) -> o < ax2 (values t) -> k < List.length (diag_names ex) ->
    entry u t name (nth k (diag_names ex) EmptyString) i c o = nth k (diag_values t n ib ult run ex i c o) 0%Qc.
Proof.
  pose proof Q as (_ & E2 & E3). unfold model_diagnostics. unfold incr_to_cum. rewrite Cm. cbv zeta.
  destruct (sum_side t t) as (Es & _); auto; try lia. rewrite Es. cbn [rbind]. rewrite Eib. cbn [rbind]. rewrite Eru. cbn [rbind]. rewrite (sd_v _ _ Ul).
  destruct (mapm_Forall2 (diag_rows name t (agg_axis ASum t AxDev) ib ult run ex) part_of (vdims t)) as (r & Er & F).
  { intros x Hx. apply (In_nth _ _ EmptyString) in Hx. destruct Hx as (c & Hc & <-). rewrite <- (wf_v _ W) in Hc.
    destruct (rows_ok name t n o0 a0 ib ult run ex W Bt U A0 A1 Q N3 DG Ib Ul Ru Hex c Hc) as (p & Ep & P1 & P2 & P3 & P4 & P5 & P6 & P7 & P8).
    exists p. split; [exact Ep|]. unfold part_of. repeat (split; [auto; fail|]). intros c' Hc' E. assert (c' = c); [|subst; auto].
    eapply (proj1 (NoDup_nth (vdims t) EmptyString)); [apply U|rewrite <- (wf_v _ W); auto..|auto]. }
  rewrite Er. cbn [rbind].
  assert (FA : forall p, In p r -> exists x, In x (vdims t) /\ part_of x p).
  { clear Er. induction F; intros q []; subst; [eexists; split; [left; reflexivity|auto]|]. destruct (IHF q H0) as (z & Z1 & Z2). exists z. split; [right; auto|auto]. }
  pose proof (keys_F2 _ _ F) as K. pose proof (keys_nodup _ (proj2 U)) as KN.
  destruct r as [|t0 rest]; [inversion F as [X|]; pose proof (wf_v _ W) as Y; rewrite <- X in Y; cbn in Y; lia|].
  assert (HW : forall p, In p (t0 :: rest) -> wf p) by (intros p Hp; destruct (FA p Hp) as (x & _ & P); apply P).
  destruct (FA t0 (or_introl eq_refl)) as (x0 & _ & P0). destruct P0 as (_ & _ & P0kl & P0v & P0o & P0d & P0vd & _).
  assert (CA : cols_agree (diag_names ex) (t0 :: rest)).
  { split; [apply diag_names_nodup|]. split.
    - intros p Hp. destruct (FA p Hp) as (x & _ & P). destruct P as (_ & _ & _ & V & _). rewrite V. exists []. rewrite app_nil_r. reflexivity.
    - intros y Hy. exists t0. split; [left; auto|]. rewrite P0v. auto. }
  assert (SO : forall p, In p rest -> same_other AxIndex t0 p).
  { intros p Hp. destruct (FA p (or_intror Hp)) as (x & _ & P). destruct P as (_ & _ & _ & _ & V1 & V2 & _). unfold same_other. rewrite V1, V2, P0o, P0d. repeat split; congruence || exact I. }
  assert (AU : axis_unique AxIndex (t0 :: rest)) by (unfold axis_unique; rewrite K; auto).
  destruct (concat_gen AxIndex t0 rest (diag_names ex)) as (u & Eu & Uk & Ukl & Uv & Uo & Us & Ud & Uvd & _); auto; [discriminate|].
  pose proof (concat_amounts AxIndex t0 rest (diag_names ex) ltac:(discriminate) HW CA SO AU u Eu) as CM.
  exists u. split; [exact Eu|]. split; [congruence|]. split; [rewrite Uk, K; reflexivity|]. split; [auto|]. split; [congruence|].
  split. { rewrite P0d in *. destruct (ddims u); [contradiction|]. cbn in Ud. congruence. }
  split. { rewrite Uvd. assert (X : forall p, In p (t0 :: rest) -> vdate p = vdate t) by (intros p Hp; destruct (FA p Hp) as (x & _ & P); apply P).
    clear - X. induction rest as [|p l IH]; cbn; [apply X; left; auto|]. unfold zmaxl in IH. rewrite IH, (X p) by (cbn in *; intuition). lia. }
  intros i c o k Hi Hc Ho Hk. unfold entry. rewrite CM.
  apply (qsum_F2 part_of _ (nth c (vdims t) EmptyString) _ (vdims t) (t0 :: rest)); auto.
  - apply U.
  - intros y p P Hy. apply amount_at_absent. left. destruct P as (_ & Pk & _). rewrite Pk. rewrite in_map_iff. intros (k' & E & _). congruence.
  - intros p P. destruct P as (Wp & Pk & _ & Pv & Po & Pd & _ & Pc).
    assert (L0 : ax0 (values p) = ax0 (values t)) by (rewrite (wf_k _ Wp), Pk, map_length, (wf_k _ W); auto).
    assert (L2 : ax2 (values p) = ax2 (values t)) by (rewrite (wf_o _ Wp), Po, (wf_o _ W); auto).
    pose proof (amount_at_pos p i k o 0 Wp) as X. rewrite Pk, Pv, Po, Pd in X. cbn [dlist nth] in X.
    rewrite (nth_indep _ [] (nth c (vdims t) EmptyString :: name :: [])) in X by (rewrite map_length, <- (wf_k _ W); auto).
    rewrite (map_nth (fun k => nth c (vdims t) EmptyString :: name :: k)) in X. rewrite X.
    + apply Pc; auto.
    + split; [rewrite Pk; apply FinFun.Injective_map_NoDup; [intros a b E; congruence|apply U]|rewrite Pv; apply diag_names_nodup].
    + unfold in_range. rewrite L0, L2, (wf_v _ Wp), Pv, (wf_d _ Wp), Pd. cbn [dlist List.length]. lia.
  - apply nth_In. rewrite <- (wf_v _ W). auto.
Qed.
End All.
