(** Example parameters and triangles for the Development estimator. *)
From Coq Require Import Lia.
From Verif Require Export SpecDev Ex.
Local Open Scope Z_scope.

Definition with_n (n : Z) : dev_params := DevParams (One n) (One Volume) None None None 1 None (One None) (One 0%Qc) None.
Definition with_drop : dev_params :=
  DevParams (One (-1)) (Many [Simple; Regression]) (Some [(y 2001, 12)]) (Some (One 1)) (Some (Many [0])) 1 None (One None) (One 0%Qc) None.
Definition with_high (np : per_age Z) : dev_params := DevParams np (One Simple) None (Some (One 1)) None 1 None (One None) (One 0%Qc) None.
Definition with_val (v : Z) : dev_params := DevParams (One (-1)) (One Volume) None None None 1 (Some [v]) (One None) (One 0%Qc) None.
Definition with_above (q : Qc) : dev_params := DevParams (One (-1)) (One Simple) None None None 1 None (One (Some q)) (One 0%Qc) None.

Lemma ex3_oldest : oldest_complete ex3. Proof. vm_compute. discriminate. Qed.
Lemma ex3_grains : regular_grains ex3.
Proof. exists (y 2001), 12, 12%nat, 1%nat, 0%nat. split; [apply ex3_regular|]. split; [lia|]. split; reflexivity. Qed.

Ltac fit_easy :=
  match goal with
  | |- covers _ (Many _) => intros d Hd; cbn in Hd; cbn [param_at]; do 2 (destruct d as [|d]; [cbn; discriminate|]); lia
  | |- covers _ _ => intros d Hd; cbn; discriminate
  | |- fits_ages _ _ => exact I
  | |- not_by_age _ _ => cbn; try exact I; lia
  | |- forall items o a, None = Some _ -> _ => discriminate
  | |- forall v, None = Some _ -> _ => discriminate
  | |- None <> None \/ None <> None -> _ => intros [H|H]; congruence
  | |- None = None => reflexivity
  | _ => idtac
  end.
Ltac prove_fittable := constructor; cbn [p_average p_n_periods p_drop p_high p_low p_preserve p_drop_val p_above p_below p_fillna]; fit_easy.

Lemma fit_default t : fittable default_params t.
Proof. unfold default_params. prove_fittable. intros d n Hd [= <-]. left. left. lia. Qed.
Lemma fit_n n : fittable (with_n n) ex3.
Proof. unfold with_n. prove_fittable. intros d m Hd [= <-]. right. apply ex3_grains. Qed.
Lemma fit_drop : fittable with_drop ex3.
Proof.
  unfold with_drop. prove_fittable.
  - intros d n Hd [= <-]. left. left. lia.
  - intros items o a [= <-] [[= <- <-]|[]]. split; cbn; auto.
  - intros v [= <-]. exact I.
  - intros v [= <-]. cbn. lia.
  - intros _. exists (-1). split; [reflexivity|]. split; [intros d; cbn; lia|].
    intros i c d Hi Hc Hd. cbn in Hi, Hc, Hd. assert (i = 0%nat) as -> by lia. assert (c = 0%nat) as -> by lia.
    do 2 (destruct d as [|d]; [vm_compute; discriminate|]). lia.
Qed.
Lemma fit_above q : fittable (with_above q) ex3.
Proof. unfold with_above. prove_fittable. intros d m Hd [= <-]. left. left. lia. Qed.
Lemma fit_val : fittable (with_val (dec 2002)) ex3.
Proof.
  unfold with_val. prove_fittable.
  - intros d n Hd [= <-]. left. left. lia.
  - intros vs [= <-]. split; [discriminate|]. split; [discriminate|]. split; [exists (y 2001), 12, 12%nat; apply ex3_regular|]. split.
    + intros v [<-|[]]. exists 1%nat. split; [cbn; lia|reflexivity].
    + split; [cbn; lia|]. split; [cbn; lia|]. intros v o d [<-|[]] Ho Hd E. cbn in Ho, Hd.
      do 3 (destruct o as [|o]; [do 3 (destruct d as [|d]; [try (vm_compute in E; discriminate E); intros Q; vm_compute in Q; discriminate Q|]); lia|]). lia.
Qed.

(** Four accident years, two ages, all known. *)
Definition ex42 : tri := tri_of
  [[Some 100; Some 110]; [Some 100; Some 120]; [Some 100; Some 130]; [Some 100; Some 140]]
  [y 2001; y 2002; y 2003; y 2004] (Ages [12; 24]) (dec 2005) (Some true) false.
(** Four accident years, four ages. *)
Definition ex44 : tri := tri_of
  [[Some 100; Some 150; Some 175; Some 180]; [Some 120; Some 180; Some 200; N]; [Some 90; Some 100; N; N]; [Some 80; N; N; N]]
  [y 2001; y 2002; y 2003; y 2004] (Ages [12; 24; 36; 48]) (dec 2004) (Some true) false.
(** Two accident years by quarters, valued December 2002. *)
Definition exq : tri :=
  Tri [["Total"%string]] ["Total"%string] ["paid"%string] [y 2001; y 2002] (Ages [3; 6; 9; 12; 15; 18; 21; 24])
   (arr_of [[Some 10; Some 20; Some 30; Some 40; Some 50; Some 60; Some 70; Some 80]; [Some 10; Some 20; Some 30; Some 40; N; N; N; N]])
   (dec 2002) (Some true) false GY GQ.
(** A triangle with a negative ratio. *)
Definition exneg : tri := tri_of
  [[Some 100; Some (-50)]; [Some 100; Some 120]; [Some 100; N]]
  [y 2001; y 2002; y 2003] (Ages [12; 24]) (dec 2003) (Some true) false.
(** All ratios equal. *)
Definition exeq : tri := tri_of
  [[Some 100; Some 150; Some 300]; [Some 120; Some 180; N]; [Some 90; N; N]]
  [y 2001; y 2002; y 2003] (Ages [12; 24; 36]) (dec 2003) (Some true) false.
Lemma ex42_wf : wf ex42. Proof. apply wfb_ok; vm_compute; reflexivity. Qed.
Lemma ex44_wf : wf ex44. Proof. apply wfb_ok; vm_compute; reflexivity. Qed.
Lemma exq_wf : wf exq. Proof. apply wfb_ok; vm_compute; reflexivity. Qed.
Lemma exneg_wf : wf exneg. Proof. apply wfb_ok; vm_compute; reflexivity. Qed.
Lemma exeq_wf : wf exeq. Proof. apply wfb_ok; vm_compute; reflexivity. Qed.
Lemma ex42_blank : blank_future ex42. Proof. apply blank_futureb_ok; vm_compute; reflexivity. Qed.
Lemma ex44_blank : blank_future ex44. Proof. apply blank_futureb_ok; vm_compute; reflexivity. Qed.
Lemma exq_blank : blank_future exq. Proof. apply blank_futureb_ok; vm_compute; reflexivity. Qed.
Lemma exneg_blank : blank_future exneg. Proof. apply blank_futureb_ok; vm_compute; reflexivity. Qed.
Lemma exeq_blank : blank_future exeq. Proof. apply blank_futureb_ok; vm_compute; reflexivity. Qed.
