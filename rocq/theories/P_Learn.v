(** Proofs: the fitted triangle of a regression has every cell of the square once. *)
From Coq Require Import List String ZArith Lia Permutation.
From Verif Require Import Learn SpecLearn.
Import ListNotations.
Local Open Scope Z_scope.

Lemma qc_plus a b : (qc a + qc b)%Qc = qc (a + b).
Proof. unfold qc. apply Qc_is_canon. cbn [this Q2Qc Qcplus]. rewrite !Qred_correct. rewrite inject_Z_plus. reflexivity. Qed.
Lemma qc_inj a b : qc a = qc b -> a = b.
Proof. unfold qc. intros H. apply (f_equal this) in H. cbn [this Q2Qc] in H. apply Qred_eq_iff in H. unfold Qeq, inject_Z in H. cbn in H. lia. Qed.
Lemma qc_le a b : (qc a <= qc b)%Qc <-> a <= b.
Proof. unfold qc, Qcle. cbn [this Q2Qc]. rewrite !Qred_correct. rewrite <- Zle_Qle. reflexivity. Qed.
Lemma qc_ne0 a : a <> 0 -> qc a <> 0%Qc.
Proof. intros H E. apply H. apply (qc_inj a 0). exact E. Qed.
Lemma qc_mult a b : (qc a * qc b)%Qc = qc (a * b).
Proof. unfold qc. apply Qc_is_canon. cbn [this Q2Qc Qcmult]. rewrite !Qred_correct. rewrite inject_Z_mult. reflexivity. Qed.

Lemma NoDup_both {A} (u v : list A) : NoDup u -> NoDup v -> (forall z, In z u -> ~ In z v) -> NoDup (u ++ v).
Proof.
  induction u as [|z u IHu]; intros Nu Nv Di; cbn [app]; [exact Nv|]. inversion Nu; subst. constructor.
  - intros I. apply in_app_or in I. destruct I as [I|I]; [auto|]. apply (Di z); [left; reflexivity|exact I].
  - apply IHu; auto. intros w Hw. apply Di. right. exact Hw.
Qed.

Section Square.
Variables (g : grain) (h p o0 : Z) (keys : list (list string)) (n : nat).
Hypothesis G : same_grain g h p.
Hypothesis N : (1 <= n)%nat.
Notation F := (fun k => features k h p).

Lemma gm : months g = h. Proof. destruct G as [(->&->&_)|[(->&->&_)|(->&->&_)]]; reflexivity. Qed.
Lemma gp : per_year g = p. Proof. destruct G as [(->&_&->)|[(->&_&->)|(->&_&->)]]; reflexivity. Qed.
Lemma hp : 0 < h /\ 0 < p /\ h * p = 12. Proof. destruct G as [(_&->&->)|[(_&->&->)|(_&->&->)]]; lia. Qed.
Lemma p0 : qc p <> 0%Qc. Proof. apply qc_ne0. destruct hp. lia. Qed.
Lemma h0 : qc h <> 0%Qc. Proof. apply qc_ne0. destruct hp. lia. Qed.

Lemma over_p_inj a b : (qc (Z.of_nat a) / qc p = qc (Z.of_nat b) / qc p)%Qc -> a = b.
Proof.
  intros E. assert (X : (qc (Z.of_nat a) / qc p * qc p = qc (Z.of_nat b) / qc p * qc p)%Qc) by (rewrite E; reflexivity).
  assert (Y : forall x, (x / qc p * qc p = x)%Qc) by (intros x; field; apply p0). rewrite !Y in X. apply qc_inj in X. lia.
Qed.
Lemma F_inj k i d k' i' d' : features k h p i d = features k' h p i' d' -> k = k' /\ i = i' /\ d = d'.
Proof.
  intros E. assert (E1 := f_equal f_key E). assert (E2 := f_equal f_origin E). assert (E3 := f_equal f_age E). clear E. cbn [features f_key f_origin f_age] in *. apply over_p_inj in E2. subst. split; [reflexivity|]. split; [reflexivity|]. unfold age_at in E3. destruct hp as [H _]. nia.
Qed.
Lemma diag_F k i d : diagonal g g (features k h p i d) = qc (Z.of_nat (i + d) + p).
Proof.
  unfold diagonal, features. cbn [f_origin f_age]. rewrite gp, gm. unfold age_at.
  replace (h * Z.of_nat (d + 1) - h) with (h * Z.of_nat d) by lia. rewrite <- qc_mult.
  replace ((qc (Z.of_nat i) / qc p + 1) * qc p + qc h * qc (Z.of_nat d) / qc h)%Qc with (qc (Z.of_nat i) + qc p + qc (Z.of_nat d))%Qc by (field; split; [apply h0|apply p0]).
  rewrite !qc_plus. f_equal. lia.
Qed.
Lemma move_F k i d : move g (features k h p i d) = features k h p i (S d).
Proof.
  unfold move, features. cbn [f_key f_origin f_age f_val]. rewrite gm. f_equal; [unfold age_at; lia|].
  assert (T : qc 12 = (qc h * qc p)%Qc) by (rewrite qc_mult; f_equal; symmetry; apply hp). rewrite T.
  replace (i + S d)%nat with (S (i + d)) by lia. rewrite Nat2Z.inj_succ. unfold Z.succ. rewrite <- qc_plus. change (qc 1) with 1%Qc. field. split; [apply p0|apply h0].
Qed.

Variable df : list feat.
Hypothesis ND : NoDup df.
Hypothesis K : exists k, In k keys.
Hypothesis DF : forall r, In r df <-> exists k i d, In k keys /\ (i + d < n)%nat /\ r = features k h p i d.

Lemma ages : List.length (nodup Z.eq_dec (map f_age df)) = n.
Proof.
  assert (P : Permutation (nodup Z.eq_dec (map f_age df)) (map (age_at h) (seq 0 n))).
  { apply NoDup_Permutation; [apply NoDup_nodup| |].
    - apply FinFun.Injective_map_NoDup; [|apply seq_NoDup]. intros a b E. unfold age_at in E. destruct hp as [H _]. nia.
    - intros x. rewrite nodup_In, !in_map_iff. split.
      + intros (r & <- & I). apply DF in I. destruct I as (k & i & d & Hk & L & ->). exists d. split; [reflexivity|]. apply in_seq. lia.
      + intros (d & <- & I). apply in_seq in I. destruct K as [k Hk]. exists (features k h p 0 d). split; [reflexivity|]. apply DF. exists k, 0%nat, d. repeat split; auto; lia. }
  rewrite (Permutation_length P), map_length, seq_length. reflexivity.
Qed.
Lemma latest_In r : In r (latest g g df) <-> exists k i d, In k keys /\ (i + d = n - 1)%nat /\ r = features k h p i d.
Proof.
  unfold latest. rewrite filter_In, forallb_forall. split.
  - intros [I A]. apply DF in I. destruct I as (k & i & d & Hk & L & ->). exists k, i, d. split; [auto|]. split; [|reflexivity].
    specialize (A (features k h p 0 (n - 1))). rewrite !diag_F in A. destruct (Qclt_le_dec _ _) as [X|X]; [discriminate A; apply DF; exists k, 0%nat, (n - 1)%nat; repeat split; auto; lia|].
    apply (proj1 (qc_le _ _)) in X. lia.
  - intros (k & i & d & Hk & L & ->). split; [apply DF; exists k, i, d; repeat split; auto; lia|]. intros r' I. apply DF in I. destruct I as (k' & i' & d' & _ & L' & ->). rewrite !diag_F.
    destruct (Qclt_le_dec _ _) as [X|X]; [|reflexivity]. exfalso. apply (Qclt_not_le _ _ X). apply (proj2 (qc_le _ _)). lia.
Qed.
Lemma kept k i d : existsb (fun r' => f_age (features k h p i d) <=? f_age r') df = true <-> (d < n)%nat.
Proof.
  rewrite existsb_exists. destruct hp as [H _]. split.
  - intros (r & I & E). apply DF in I. destruct I as (k' & i' & d' & _ & L & ->). cbn [features f_age] in E. unfold age_at in E. apply Z.leb_le in E. nia.
  - intros L. destruct K as [k' Hk]. exists (features k' h p 0 (n - 1)). split; [apply DF; exists k', 0%nat, (n - 1)%nat; repeat split; auto; lia|]. cbn [features f_age]. apply Z.leb_le. unfold age_at. nia.
Qed.
Lemma move_inj r r' : move g r = move g r' -> r = r'.
Proof.
  destruct r as [a b c e], r' as [a' b' c' e']. intros E. assert (E1 := f_equal f_key E). assert (E2 := f_equal f_origin E). assert (E3 := f_equal f_age E). assert (E4 := f_equal f_val E). clear E. cbn [move f_key f_origin f_age f_val] in *. subst a' b'. f_equal; [lia|].
  assert (X : forall x y z : Qc, (x + z = y + z)%Qc -> x = y) by (intros x y z Y; replace x with (x + z - z)%Qc by ring; rewrite Y; ring). exact (X _ _ _ E4).
Qed.
(** one step of the projection *)
Definition diag_rows (s : nat) (out : list feat) : Prop := NoDup out /\ forall r, In r out <-> exists k i d, In k keys /\ (i < n)%nat /\ (d < n)%nat /\ (i + d = n - 1 + s)%nat /\ r = features k h p i d.
Definition next (out : list feat) : list feat := filter (fun r => existsb (fun r' => f_age r <=? f_age r') df) (map (move g) out).
Lemma next_diag s out : diag_rows s out -> diag_rows (S s) (next out).
Proof.
  intros [D I]. split.
  - apply NoDup_filter. apply FinFun.Injective_map_NoDup; auto. intros a b. apply move_inj.
  - intros r. unfold next. rewrite filter_In, in_map_iff. split.
    + intros [(r0 & <- & I0) E]. apply I in I0. destruct I0 as (k & i & d & Hk & Hi & Hd & L & ->). rewrite move_F in *. apply kept in E. exists k, i, (S d). repeat split; auto; lia.
    + intros (k & i & d & Hk & Hi & Hd & L & ->). destruct d as [|d]; [lia|]. split; [|apply kept; auto]. exists (features k h p i d). split; [apply move_F|]. apply I. exists k, i, d. repeat split; auto; lia.
Qed.
Lemma latest_diag : diag_rows 0 (latest g g df).
Proof.
  split; [apply NoDup_filter; auto|]. intros r. rewrite latest_In. split; intros (k & i & d & Hk & H); exists k, i, d.
  - destruct H as [L ->]. repeat split; auto; lia.
  - destruct H as (Hi & Hd & L & ->). repeat split; auto; lia.
Qed.
Lemma project_In m : forall s out, diag_rows s out -> NoDup (project g df m out) /\
  forall r, In r (project g df m out) <-> exists k i d, In k keys /\ (i < n)%nat /\ (d < n)%nat /\ (n - 1 + s < i + d <= n - 1 + s + m)%nat /\ r = features k h p i d.
Proof.
  induction m as [|m IH]; intros s out D; cbn [project].
  - split; [constructor|]. intros r. split; [intros []|]. intros (k & i & d & _ & _ & _ & L & _). lia.
  - fold (next out). assert (D1 := next_diag s out D). destruct (IH (S s) (next out) D1) as [N2 I2]. destruct D1 as [N1 I1]. split.
    + clear IH. assert (X : forall z, In z (next out) -> ~ In z (project g df m (next out))).
      { intros z A B. apply I1 in A. apply I2 in B. destruct A as (k & i & d & _ & _ & _ & L & ->). destruct B as (k' & i' & d' & _ & _ & _ & L' & E). apply F_inj in E. lia. }
      apply NoDup_both; auto.
    + intros r. rewrite in_app_iff, I1, I2. split.
      * intros [(k & i & d & Hk & Hi & Hd & L & ->)|(k & i & d & Hk & Hi & Hd & L & ->)]; exists k, i, d; repeat split; auto; lia.
      * intros (k & i & d & Hk & Hi & Hd & L & ->). destruct (Nat.eq_dec (i + d) (n - 1 + S s)); [left|right]; exists k, i, d; repeat split; auto; lia.
Qed.
Lemma all_rows_In : NoDup (all_rows g g df) /\ forall r, In r (all_rows g g df) <-> exists k i d, In k keys /\ (i < n)%nat /\ (d < n)%nat /\ r = features k h p i d.
Proof.
  unfold all_rows. rewrite ages. destruct (project_In (n - 1) 0 _ latest_diag) as [N2 I2]. split.
  - assert (X : forall z, In z df -> ~ In z (project g df (n - 1) (latest g g df))).
    { intros z A B. apply DF in A. apply I2 in B. destruct A as (k & i & d & _ & L & ->). destruct B as (k' & i' & d' & _ & _ & _ & L' & E). apply F_inj in E. lia. }
    apply NoDup_both; auto.
  - intros r. rewrite in_app_iff, DF, I2. split.
    + intros [(k & i & d & Hk & L & ->)|(k & i & d & Hk & Hi & Hd & L & ->)]; exists k, i, d; repeat split; auto; lia.
    + intros (k & i & d & Hk & Hi & Hd & ->). destruct (le_lt_dec n (i + d)); [right|left]; exists k, i, d; repeat split; auto; lia.
Qed.
End Square.

(** encoders *)
Lemma find_combine {A B} (f : A * B -> bool) (a : list A) (b : list B) i da db : List.length a = List.length b -> (i < List.length a)%nat ->
  f (nth i a da, nth i b db) = true -> (forall j, (j < i)%nat -> f (nth j a da, nth j b db) = false) -> find f (combine a b) = Some (nth i a da, nth i b db).
Proof.
  revert b i. induction a as [|x a IH]; intros b i E L T H; [cbn in L; lia|]. destruct b as [|y b]; [discriminate|]. cbn [combine find]. destruct i as [|i].
  - cbn [nth] in *. rewrite T. reflexivity.
  - assert (X := H 0%nat). cbn [nth] in X. rewrite X by lia. cbn [nth]. apply IH; auto; [cbn in L; lia|]. intros j Hj. apply (H (S j)). lia.
Qed.
Lemma encode_at g f m i : (forall a b, f a = f b -> a = b) -> (i < m)%nat -> encode (encoder g (map f (seq 0 m))) (f i) = (qc (Z.of_nat i) / qc (per_year g))%Qc.
Proof.
  intros J L. unfold encode, encoder. set (c := fun i => (qc (Z.of_nat i) / qc (per_year g))%Qc). rewrite map_length, seq_length.
  assert (A : forall j, (j < m)%nat -> nth j (map f (seq 0 m)) (f 0%nat) = f j) by (intros j Hj; rewrite map_nth, seq_nth by auto; reflexivity).
  assert (B : forall j, (j < m)%nat -> nth j (map c (seq 0 m)) (c 0%nat) = c j) by (intros j Hj; rewrite map_nth, seq_nth by auto; reflexivity).
  rewrite (find_combine _ _ _ i (f 0%nat) (c 0%nat)).
  - cbn [snd]. rewrite B by auto. reflexivity.
  - rewrite !map_length. reflexivity.
  - rewrite map_length, seq_length. auto.
  - cbn [fst]. rewrite A by auto. apply Z.eqb_refl.
  - intros j Hj. cbn [fst]. rewrite A by lia. apply Z.eqb_neq. intros E. apply J in E. lia.
Qed.
Lemma decode_at g f m i : per_year g <> 0 -> (i < m)%nat -> decode (encoder g (map f (seq 0 m))) (qc (Z.of_nat i) / qc (per_year g))%Qc = Some (f i).
Proof.
  intros P L. unfold decode, encoder. set (c := fun i => (qc (Z.of_nat i) / qc (per_year g))%Qc). rewrite map_length, seq_length.
  assert (A : forall j, (j < m)%nat -> nth j (map f (seq 0 m)) (f 0%nat) = f j) by (intros j Hj; rewrite map_nth, seq_nth by auto; reflexivity).
  assert (B : forall j, (j < m)%nat -> nth j (map c (seq 0 m)) (c 0%nat) = c j) by (intros j Hj; rewrite map_nth, seq_nth by auto; reflexivity).
  change (qc (Z.of_nat i) / qc (per_year g))%Qc with (c i).
  rewrite (find_combine _ _ _ i (f 0%nat) (c 0%nat)).
  - cbn [fst]. rewrite A by auto. reflexivity.
  - rewrite !map_length. reflexivity.
  - rewrite map_length, seq_length. auto.
  - cbn [snd]. rewrite B by auto. destruct (Qc_eq_dec (c i) (c i)); congruence.
  - intros j Hj. cbn [snd]. rewrite B by lia. destruct (Qc_eq_dec (c j) (c i)) as [E|]; [|reflexivity]. exfalso. unfold c in E.
    assert (Q0 := qc_ne0 _ P). assert (Y : forall x, (x / qc (per_year g) * qc (per_year g) = x)%Qc) by (intros x; field; exact Q0).
    apply (f_equal (fun x => (x * qc (per_year g))%Qc)) in E. rewrite !Y in E. apply qc_inj in E. lia.
Qed.
