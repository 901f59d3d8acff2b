(** Comparison of triangles. *)
From Coq Require Import Lia.
From Verif Require Export P_Arith.

Lemma forallb_seq n f : forallb f (seq 0 n) = true <-> forall i, (i < n)%nat -> f i = true.
Proof.
  rewrite forallb_forall. split; intros H i Hi; apply H.
  - apply in_seq; lia.
  - apply in_seq in Hi; lia.
Qed.

Lemma tri_eq_iff x y : same_shape x y ->
  exists b, tri_eq x y = Ok b /\ (b = true <-> forall i c o d, in_range x i c o d -> amount x i c o d = amount y i c o d).
Proof.
  intros (H0 & H1 & H2 & H3). unfold tri_eq.
  destruct (bmap2_same (fun a b => Some (if Qc_eqb (nz a) (nz b) then 1%Qc else 0%Qc)) (values x) (values y) H0 H1 H2 H3) as (r & Er & R0 & R1 & R2 & R3 & Rc).
  rewrite Er. cbn [rbind]. eexists. split; [reflexivity|]. rewrite forallb_seq, R0, R1, R2, R3. split.
  - intros H i c o d (Hi & Hc & Ho & Hd). specialize (H i Hi). rewrite forallb_seq in H. specialize (H c Hc). rewrite forallb_seq in H.
    specialize (H o Ho). rewrite forallb_seq in H. specialize (H d Hd). rewrite Rc in H by auto. cbn [nz] in H.
    unfold amount, cel. destruct (Qc_eqb_spec (nz (av (values x) i c o d)) (nz (av (values y) i c o d))); auto.
    exfalso. vm_compute in H. discriminate.
  - intros H i Hi. apply forallb_seq. intros c Hc. apply forallb_seq. intros o Ho. apply forallb_seq. intros d Hd.
    rewrite Rc by auto. cbn [nz]. specialize (H i c o d (conj Hi (conj Hc (conj Ho Hd)))). unfold amount, cel in H. rewrite H.
    destruct (Qc_eqb_spec (nz (av (values y) i c o d)) (nz (av (values y) i c o d))); [|congruence].
    destruct (Qc_eqb_spec 1%Qc 0%Qc); auto. exfalso. discriminate.
Qed.
Lemma tri_eq_refl x : tri_eq x x = Ok true.
Proof.
  destruct (tri_eq_iff x x) as (b & E & H); [unfold same_shape; auto|]. rewrite E. f_equal. apply H. auto.
Qed.
Lemma tri_eq_sym x y : same_shape x y -> tri_eq x y = tri_eq y x.
Proof.
  intros S. assert (S' : same_shape y x) by (unfold same_shape in *; intuition congruence).
  destruct (tri_eq_iff x y S) as (b & -> & H). destruct (tri_eq_iff y x S') as (b' & -> & H').
  f_equal. assert (R : forall i c o d, in_range x i c o d <-> in_range y i c o d).
  { intros. unfold in_range. destruct S as (-> & -> & -> & ->). tauto. }
  destruct b, b'; auto.
  - symmetry. apply H'. intros i c o d Hr. symmetry. apply H; auto. apply R; auto.
  - apply H. intros i c o d Hr. symmetry. apply H'; auto. apply R; auto.
Qed.
Lemma tri_eq_trans x y z : same_shape x y -> same_shape y z -> tri_eq x y = Ok true -> tri_eq y z = Ok true -> tri_eq x z = Ok true.
Proof.
  intros S1 S2 E1 E2. assert (S3 : same_shape x z) by (unfold same_shape in *; intuition congruence).
  destruct (tri_eq_iff x y S1) as (b & F1 & H1). destruct (tri_eq_iff y z S2) as (b' & F2 & H2). destruct (tri_eq_iff x z S3) as (b'' & F3 & H3).
  rewrite F1 in E1. rewrite F2 in E2. injection E1 as ->. injection E2 as ->. rewrite F3. f_equal. apply H3.
  intros i c o d R. rewrite (proj1 H1) by auto. apply (proj1 H2 eq_refl). unfold in_range in *. destruct S1 as (-> & -> & -> & ->). auto.
Qed.

Lemma lt_cells t b : same_shape_arr t b ->
  exists u, lt_arr t b = Ok u /\ same_frame t u /\
    forall i c o d, in_range t i c o d ->
      (cel u i c o d = Some 1%Qc <-> (amount t i c o d < nz (av b i c o d))%Qc) /\ (cel u i c o d = Some 1%Qc \/ cel u i c o d = Some 0%Qc).
Proof.
  intros (H0 & H1 & H2 & H3). unfold lt_arr.
  destruct (bmap2_same cell_lt (values t) b H0 H1 H2 H3) as (r & Er & R0 & R1 & R2 & R3 & Rc).
  rewrite Er. cbn [rbind]. eexists. split; [reflexivity|]. split; [constructor; cbn; auto|].
  intros i c o d (Hi & Hc & Ho & Hd). unfold amount, cel. cbn [values set_values]. rewrite Rc by auto. unfold cell_lt.
  destruct (Qc_ltb_spec (nz (av (values t) i c o d)) (nz (av b i c o d))) as [H|H].
  - split; [tauto|auto].
  - split; [|auto]. split; [intros E; discriminate|]. intros L. contradiction.
Qed.
Lemma le_self_false t :
  exists u, le_arr t (values t) = Ok u /\ same_frame t u /\ forall i c o d, in_range t i c o d -> cel u i c o d = Some 0%Qc.
Proof.
  destruct (lt_cells t (values t)) as (u & E & F & C); [unfold same_shape_arr; auto|].
  exists u. split; [exact E|]. split; [auto|]. intros i c o d R. destruct (C i c o d R) as [C1 C2]. destruct C2 as [C2|C2]; auto.
  apply C1 in C2. exfalso. unfold amount, cel in C2. exact (Qclt_not_eq _ _ C2 eq_refl).
Qed.
