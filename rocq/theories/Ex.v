(** Decision procedures for the specification's side conditions and the example
    triangles used to show that hypotheses can be met. *)
From Coq Require Import Lia Sorted.
From Verif Require Export Spec NumFacts.
Local Open Scope Z_scope.

Ltac conj_all := repeat match goal with |- _ /\ _ => split end.

Fixpoint sortedb (l : list Z) : bool :=
  match l with a :: ((b :: _) as r) => (a <? b) && sortedb r | _ => true end.
Lemma sortedb_ok l : sortedb l = true -> StronglySorted Z.lt l.
Proof.
  intros H. apply Sorted_StronglySorted; [intros x y z; lia|].
  induction l as [|a l IH]; [constructor|]. destruct l as [|b l]; [repeat constructor|].
  cbn [sortedb] in H. apply andb_true_iff in H. destruct H as [H1 H2]. constructor; [auto|].
  constructor. apply Z.ltb_lt; auto.
Qed.

Definition wfb (t : tri) : bool :=
  (ax0 (values t) =? List.length (kdims t))%nat && (ax1 (values t) =? List.length (vdims t))%nat &&
  (ax2 (values t) =? List.length (odims t))%nat && (ax3 (values t) =? List.length (dlist (ddims t)))%nat &&
  (1 <=? ax2 (values t))%nat && (1 <=? ax3 (values t))%nat &&
  sortedb (odims t) && sortedb (dlist (ddims t)) && (vdate t <=? ULT_VAL) &&
  match ddims t with
  | Ages l => forallb (fun a => (1 <=? a) && (a <=? 9999)) l &&
              forallb (fun o => o <=? vdate t) (odims t) &&
              forallb (fun o => forallb (fun a => (a =? 9999) || (o + a - 1 <? ULT_VAL)) l) (odims t)
  | Vals l => forallb (fun v => v <=? ULT_VAL) l
  end.
Lemma wfb_ok t : wfb t = true -> wf t.
Proof.
  unfold wfb. rewrite !andb_true_iff.
  intros (((((((((H1 & H2) & H3) & H4) & H5) & H6) & H7) & H8) & H9) & H10).
  apply Nat.eqb_eq in H1, H2, H3, H4. apply Nat.leb_le in H5, H6. apply Z.leb_le in H9.
  constructor; auto using sortedb_ok.
  destruct (ddims t) as [l|l].
  - rewrite !andb_true_iff in H10. destruct H10 as ((A & B) & C). rewrite forallb_forall in A, B, C. split; [|split].
    + intros a Ha. specialize (A a Ha). apply andb_true_iff in A. destruct A as [A1 A2]. apply Z.leb_le in A1, A2. lia.
    + intros o Ho. apply Z.leb_le, B, Ho.
    + intros o a Ho Ha Hn. specialize (C o Ho). rewrite forallb_forall in C. specialize (C a Ha).
      apply orb_true_iff in C. destruct C as [C|C]; [apply Z.eqb_eq in C; contradiction|apply Z.ltb_lt in C; auto].
  - rewrite forallb_forall in H10. intros v Hv. apply Z.leb_le, H10, Hv.
Qed.

(** Quantification over a box, as a boolean. *)
Definition all4 (a b c d : nat) (f : nat -> nat -> nat -> nat -> bool) : bool :=
  forallb (fun i => forallb (fun j => forallb (fun k => forallb (fun l => f i j k l) (seq 0 d)) (seq 0 c)) (seq 0 b)) (seq 0 a).
Lemma all4_ok a b c d f : all4 a b c d f = true ->
  forall i j k l, (i < a)%nat -> (j < b)%nat -> (k < c)%nat -> (l < d)%nat -> f i j k l = true.
Proof.
  unfold all4. intros H i j k l Hi Hj Hk Hl. rewrite forallb_forall in H. specialize (H i).
  rewrite in_seq in H. specialize (H ltac:(lia)). rewrite forallb_forall in H. specialize (H j).
  rewrite in_seq in H. specialize (H ltac:(lia)). rewrite forallb_forall in H. specialize (H k).
  rewrite in_seq in H. specialize (H ltac:(lia)). rewrite forallb_forall in H. specialize (H l).
  rewrite in_seq in H. specialize (H ltac:(lia)). exact H.
Qed.
Definition blank_futureb (t : tri) : bool :=
  all4 (ax0 (values t)) (ax1 (values t)) (ax2 (values t)) (ax3 (values t))
    (fun i c o d => negb (vdate t <? month_of t o d) || is_nan (cel t i c o d)).
Lemma blank_futureb_ok t : blank_futureb t = true -> blank_future t.
Proof.
  intros H i c o d (Hi & Hc & Ho & Hd) F. pose proof (all4_ok _ _ _ _ _ H i c o d Hi Hc Ho Hd) as E. cbv beta in E.
  unfold future in F. apply Z.ltb_lt in F. rewrite F in E. destruct (cel t i c o d); [discriminate|auto].
Qed.
Definition no_futureb (t : tri) : bool :=
  forallb (fun o => forallb (fun d => negb (vdate t <? month_of t o d)) (seq 0 (ax3 (values t)))) (seq 0 (ax2 (values t))).
Lemma no_futureb_ok t : no_futureb t = true -> no_future t.
Proof.
  intros H o d Ho Hd F. unfold no_futureb in H. rewrite forallb_forall in H. specialize (H o).
  rewrite in_seq in H. specialize (H ltac:(lia)). rewrite forallb_forall in H. specialize (H d).
  rewrite in_seq in H. specialize (H ltac:(lia)). unfold future in F. apply Z.ltb_lt in F. rewrite F in H. discriminate.
Qed.

Definition cell_eqb (x y : cell) : bool :=
  match x, y with Some a, Some b => Qc_eqb a b | None, None => true | _, _ => false end.
Lemma cell_eqb_eq x y : cell_eqb x y = true <-> x = y.
Proof.
  destruct x as [a|], y as [b|]; simpl; split; try congruence; auto.
  - destruct (Qc_eqb_spec a b); congruence.
  - intros [= ->]. apply Qc_eqb_refl.
Qed.

(** Evaluating a result. *)
Definition okb {A} (r : result A) : bool := match r with Ok _ => true | Err _ => false end.
Definition get {A} (d : A) (r : result A) : A := match r with Ok a => a | Err _ => d end.
Lemma get_ok {A} (d : A) r : okb r = true -> r = Ok (get d r).
Proof. destruct r; [reflexivity|discriminate]. Qed.
Lemma qeqb x z : Qc_eqb x z = true -> x = z.
Proof. destruct (Qc_eqb_spec x z); congruence. Qed.

(** ** Examples *)
Definition arr_of (rows : list (list (option Z))) : arr :=
  Arr 1 1 (List.length rows) (List.length (hd [] rows))
    (fun _ _ o d => option_map qc (nth d (nth o rows []) None)).
Definition tri_of (rows : list (list (option Z))) (os : list Z) (dd : ddim) (v : Z) (cum : option bool) (pat : bool) : tri :=
  Tri [["Total"%string]] ["Total"%string] ["paid"%string] os dd (arr_of rows) v cum pat GY GY.

Definition N := @None Z.
Definition y (n : Z) : Z := 12 * n.            (* January of year n *)
Definition dec (n : Z) : Z := 12 * n + 11.     (* December of year n *)

(** Three accident years, ages 12, 24, 36, valued December 2003 (cumulative). *)
Definition ex3 : tri := tri_of
  [[Some 100; Some 150; Some 175]; [Some 120; Some 180; N]; [Some 90; N; N]]
  [y 2001; y 2002; y 2003] (Ages [12; 24; 36]) (dec 2003) (Some true) false.
(** The same, incremental. *)
Definition ex3i : tri := tri_of
  [[Some 100; Some 50; Some 25]; [Some 120; Some 60; N]; [Some 90; N; N]]
  [y 2001; y 2002; y 2003] (Ages [12; 24; 36]) (dec 2003) (Some false) false.
(** Two accident years, two ages. *)
Definition ex2 : tri := tri_of [[Some 100; Some 150]; [Some 120; N]]
  [y 2001; y 2002] (Ages [12; 24]) (dec 2002) (Some true) false.
Definition ex2i : tri := tri_of [[Some 100; Some 50]; [Some 120; N]]
  [y 2001; y 2002] (Ages [12; 24]) (dec 2002) (Some false) false.
(** A row of age-to-age factors. *)
Definition exldf : tri := tri_of [[Some 3; Some 2; Some 1]]
  [y 2001] (Ages [12; 24; 36]) ULT_VAL (Some false) true.

Lemma ex3_wf : wf ex3. Proof. apply wfb_ok; vm_compute; reflexivity. Qed.
Lemma ex3i_wf : wf ex3i. Proof. apply wfb_ok; vm_compute; reflexivity. Qed.
Lemma ex2_wf : wf ex2. Proof. apply wfb_ok; vm_compute; reflexivity. Qed.
Lemma ex2i_wf : wf ex2i. Proof. apply wfb_ok; vm_compute; reflexivity. Qed.
Lemma exldf_wf : wf exldf. Proof. apply wfb_ok; vm_compute; reflexivity. Qed.
Lemma ex3_blank : blank_future ex3. Proof. apply blank_futureb_ok; vm_compute; reflexivity. Qed.
Lemma ex3i_blank : blank_future ex3i. Proof. apply blank_futureb_ok; vm_compute; reflexivity. Qed.
Lemma ex2_blank : blank_future ex2. Proof. apply blank_futureb_ok; vm_compute; reflexivity. Qed.
Lemma ex2i_blank : blank_future ex2i. Proof. apply blank_futureb_ok; vm_compute; reflexivity. Qed.
Lemma ex3_regular : regular ex3 (y 2001) 12 12 1 0.
Proof.
  split; [lia|]. split; [lia|]. split; [reflexivity|]. split; [reflexivity|]. split; [|split].
  - intros k Hk. change (k < 3)%nat in Hk. lia.
  - reflexivity.
  - cbn. lia.
Qed.
