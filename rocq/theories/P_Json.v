(** Proofs for C60: the saved table. *)
From Coq Require Import Lia Sorted Permutation Qround.
From Verif Require Import SpecPandas P_Align2 P_Align3 CatFacts P_Calendar NumFacts ArrFacts TriFacts UnionFacts P_Group P_Core P_Arith DevFacts P_Build P_Build2 P_Build3 P_View P_Grain ConvFacts P_Agg P_Sort SpecJson.
Local Open Scope Z_scope.

(** * Ten decimals *)
Lemma ten10 : qc (10 ^ 10) <> 0%Qc. Proof. intros E. apply (f_equal this) in E. discriminate E. Qed.
Lemma qc_Q z : (this (qc z) == inject_Z z)%Q. Proof. unfold qc. cbn [this Q2Qc]. apply Qred_correct. Qed.
Lemma ten_digits_id q : ten_decimals q -> ten_digits q = q.
Proof.
  intros (z & ->). unfold ten_digits. f_equal. f_equal.
  replace (qc z / qc (10 ^ 10) * qc (10 ^ 10))%Qc with (qc z) by (field; apply ten10).
  rewrite (Qfloor_comp _ ((2 * z + 1) # 2)%Q).
  - unfold Qfloor. symmetry. apply Z.div_unique with 1; lia.
  - transitivity (this (qc z) + this (1 / qc 2)%Qc)%Q; [apply Qred_correct|]. rewrite qc_Q.
    assert (E : (this (1 / qc 2)%Qc == 1 # 2)%Q) by reflexivity. rewrite E. unfold Qeq, Qplus, inject_Z. cbn [Qnum Qden]. lia.
Qed.
Lemma qc_sub a b : (qc a - qc b)%Qc = qc (a - b).
Proof.
  apply Qc_is_canon. unfold Qcminus. transitivity (this (qc a) + this (- qc b)%Qc)%Q; [apply Qred_correct|].
  transitivity (this (qc a) + - this (qc b))%Q; [apply Qplus_comp; [reflexivity|apply Qred_correct]|]. rewrite !qc_Q.
  unfold Qeq, Qplus, Qopp, inject_Z. cbn [Qnum Qden]. lia.
Qed.
Lemma ten_decimals_sub p q : ten_decimals p -> ten_decimals q -> ten_decimals (p - q)%Qc.
Proof.
  intros (a & ->) (b & ->). exists (a - b). rewrite <- qc_sub. field. apply ten10.
Qed.
Lemma ten_decimals_0 : ten_decimals 0%Qc.
Proof. exists 0. change (qc 0) with 0%Qc. field. apply ten10. Qed.

(** * Sums over tables *)
Section Sum.
Context {A : Type} (f : A -> Qc) (p : A -> bool).
Definition fsum (l : list A) : Qc := qsum (map f (filter p l)).
Lemma fsum_app l m : fsum (l ++ m) = (fsum l + fsum m)%Qc.
Proof. unfold fsum. rewrite filter_app, map_app, qsum_app. auto. Qed.
Lemma fsum_flat {B} (g : B -> list A) l : fsum (flat_map g l) = qsum (map (fun x => fsum (g x)) l).
Proof. induction l as [|x l IH]; [reflexivity|]. cbn [flat_map map]. rewrite fsum_app, IH, qsum_cons. auto. Qed.
End Sum.
Lemma qsum_single {A} (f : A -> Qc) l x : NoDup l -> In x l -> (forall y, In y l -> y <> x -> f y = 0%Qc) -> qsum (map f l) = f x.
Proof.
  induction l as [|a l IH]; intros N I Z; [destruct I|]. inversion N; subst. cbn [map]. rewrite qsum_cons. destruct I as [->|I].
  - rewrite qsum_map_0; [ring|]. intros y Hy. apply Z; [right; auto|]. intros ->. auto.
  - rewrite IH; auto; [|intros; apply Z; auto; right; auto]. rewrite Z; [ring|left; auto|]. intros ->. auto.
Qed.

(** * The table *)
Definition body (w : tri) (k : list string) (o d : nat) : list rec :=
  let amounts := map (fun c => mean_of (present (map (fun i => av (values w) i c o d) (rows_with w k)))) (seq 0 (ax1 (values w))) in
  if forallb is_nan amounts then [] else [Rec k (Date (nth o (odims w) 0) true) (Date (valuation w o d) false) amounts].
Definition frame (w : tri) : list rec :=
  flat_map (fun k => flat_map (fun o => flat_map (body w k o) (seq 0 (ax3 (values w)))) (seq 0 (ax2 (values w)))) (group_index (kdims w)).
Definition rounded (r : rec) : rec := Rec (r_key r) (r_o r) (r_d r) (map (fun x => Some (ten_digits (nz x))) (r_amt r)).
Lemma to_frame_eq t w : val_to_dev t = Ok w -> to_frame t = Ok (frame w).
Proof. intros E. unfold to_frame. rewrite E. reflexivity. Qed.
Lemma mean_present x : mean_of (present [x]) = x.
Proof. destruct x as [q|]; [|reflexivity]. cbn. f_equal. unfold qlen. cbn [List.length]. change (qc (Z.of_nat 1)) with 1%Qc. unfold qsum. cbn. field. discriminate. Qed.

Section Table.
Variable w : tri.
Hypothesis W : wf w.
Hypothesis Nk : NoDup (kdims w).
Lemma the_row i : (i < ax0 (values w))%nat -> rows_with w (nth i (kdims w) []) = [i].
Proof.
  intros Hi. unfold rows_with, row_key. rewrite (wf_k _ W) in Hi.
  assert (P : forall x, In x (filter (fun j => strs_eqb (nth j (kdims w) []) (nth i (kdims w) [])) (seq 0 (List.length (kdims w)))) <-> x = i).
  { intros x. rewrite filter_In, in_seq, strs_eqb_eq. split.
    - intros ((_ & L) & E). apply (proj1 (NoDup_nth (kdims w) []) Nk); auto.
    - intros ->. split; [lia|auto]. }
  assert (N : NoDup (filter (fun j => strs_eqb (nth j (kdims w) []) (nth i (kdims w) [])) (seq 0 (List.length (kdims w))))) by apply NoDup_filter, seq_NoDup.
  destruct (filter _ _) as [|x l]; [destruct (proj2 (P i) eq_refl)|]. assert (x = i) by (apply P; left; auto). subst x. f_equal.
  destruct l as [|y l]; auto. assert (y = i) by (apply P; right; left; auto). subst y. inversion N; subst. destruct H1. left. auto.
Qed.
Definition row_amounts (i o d : nat) : list cell := map (fun c => cel w i c o d) (seq 0 (ax1 (values w))).
Lemma body_row i o d : (i < ax0 (values w))%nat -> (o < ax2 (values w))%nat -> (d < ax3 (values w))%nat ->
  body w (nth i (kdims w) []) o d = if forallb is_nan (row_amounts i o d) then []
    else [Rec (nth i (kdims w) []) (Date (nth o (odims w) 0) true) (Date (month_of w o d) false) (row_amounts i o d)].
Proof.
  intros Hi Ho Hd. unfold body. rewrite the_row by auto. cbn [map].
  assert (E : map (fun c => mean_of (present [av (values w) i c o d])) (seq 0 (ax1 (values w))) = row_amounts i o d).
  { unfold row_amounts, cel. apply map_ext. intros c. apply mean_present. }
  rewrite E. rewrite valuation_month by auto. reflexivity.
Qed.
Lemma all_nan i o d : forallb is_nan (row_amounts i o d) = false <-> exists c, (c < ax1 (values w))%nat /\ cel w i c o d <> None.
Proof.
  unfold row_amounts. split.
  - intros F. destruct (existsb (fun c => negb (is_nan (cel w i c o d))) (seq 0 (ax1 (values w)))) eqn:E.
    + apply existsb_exists in E. destruct E as (c & I & N). apply in_seq in I. exists c. split; [lia|]. intros X. rewrite X in N. discriminate.
    + exfalso. enough (forallb is_nan (map (fun c => cel w i c o d) (seq 0 (ax1 (values w)))) = true) by congruence. apply forallb_forall. intros x Hx.
      apply in_map_iff in Hx. destruct Hx as (c & <- & I). destruct (is_nan (cel w i c o d)) eqn:N; auto. exfalso.
      enough (existsb (fun c => negb (is_nan (cel w i c o d))) (seq 0 (ax1 (values w))) = true) by congruence. apply existsb_exists. exists c. rewrite N. auto.
  - intros (c & Hc & N). destruct (forallb _ _) eqn:F; auto. exfalso. rewrite forallb_forall in F.
    assert (X : is_nan (cel w i c o d) = true) by (apply F; apply (in_map (fun c => cel w i c o d)); apply in_seq; lia).
    destruct (cel w i c o d); [discriminate|congruence].
Qed.

(** The rows of the table are the positions of some amount. *)
Lemma frame_In r : In r (frame w) <-> exists i o d, (i < ax0 (values w))%nat /\ (o < ax2 (values w))%nat /\ (d < ax3 (values w))%nat /\
  (exists c, (c < ax1 (values w))%nat /\ cel w i c o d <> None) /\
  r = Rec (nth i (kdims w) []) (Date (nth o (odims w) 0) true) (Date (month_of w o d) false) (row_amounts i o d).
Proof.
  unfold frame. rewrite in_flat_map. split.
  - intros (k & Hk & H). apply (proj1 (group_index_In _ _)) in Hk. destruct (In_nth' _ _ [] Hk) as (i & Li & <-). rewrite <- (wf_k _ W) in Li.
    apply in_flat_map in H. destruct H as (o & Ho & H). apply in_flat_map in H. destruct H as (d & Hd & H). apply in_seq in Ho, Hd.
    rewrite body_row in H by (auto; lia). destruct (forallb is_nan (row_amounts i o d)) eqn:F; [destruct H|]. destruct H as [<-|[]].
    exists i, o, d. apply all_nan in F. repeat split; auto; lia.
  - intros (i & o & d & Hi & Ho & Hd & C & ->). exists (nth i (kdims w) []). split.
    + apply group_index_In. apply nth_In. rewrite <- (wf_k _ W). auto.
    + apply in_flat_map. exists o. split; [apply in_seq; lia|]. apply in_flat_map. exists d. split; [apply in_seq; lia|].
      rewrite body_row by auto. apply all_nan in C. rewrite C. left. auto.
Qed.

(** What the rows with a given key, origin and date amount to. *)
Lemma frame_sum i c o M : (i < ax0 (values w))%nat -> (c < ax1 (values w))%nat -> (o < ax2 (values w))%nat ->
  (forall d, (d < ax3 (values w))%nat -> ten_decimals (amount w i c o d)) ->
  column_sum c (filter (fun r => strs_eqb (r_key r) (nth i (kdims w) []) && (dm (r_o r) =? nth o (odims w) 0) && (dm (r_d r) =? M)) (map rounded (frame w))) =
  sumn (ax3 (values w)) (fun d => if month_of w o d =? M then amount w i c o d else 0%Qc).
Proof.
  intros Hi Hc Ho T. unfold column_sum. rewrite filter_map_comm, map_map. cbn [rounded r_key r_o r_d r_amt].
  set (f := fun r : rec => nz (nth c (map (fun x => Some (ten_digits (nz x))) (r_amt r)) None)).
  set (p := fun r : rec => strs_eqb (r_key r) (nth i (kdims w) []) && (dm (r_o r) =? nth o (odims w) 0) && (dm (r_d r) =? M)).
  change (fsum f p (frame w) = sumn (ax3 (values w)) (fun d => if month_of w o d =? M then amount w i c o d else 0%Qc)).
  assert (Z : forall k o' d, In k (kdims w) -> (o' < ax2 (values w))%nat -> (d < ax3 (values w))%nat -> k <> nth i (kdims w) [] \/ o' <> o -> fsum f p (body w k o' d) = 0%Qc).
  { intros k o' d Hk Ho' Hd N. destruct (In_nth' _ _ [] Hk) as (i' & Li & <-). rewrite <- (wf_k _ W) in Li. rewrite body_row by auto.
    destruct (forallb is_nan _); [reflexivity|]. unfold fsum. cbn [filter]. unfold p at 1. cbn [r_key r_o r_d dm].
    destruct (strs_eqb (nth i' (kdims w) []) (nth i (kdims w) [])) eqn:E; [|reflexivity]. apply strs_eqb_eq in E.
    destruct (Z.eqb_spec (nth o' (odims w) 0) (nth o (odims w) 0)) as [E'|]; [|reflexivity]. exfalso. destruct N as [N|N]; [congruence|]. apply N.
    apply (sorted_nth_inj (odims w) o' o 0); auto; try apply W; rewrite <- (wf_o _ W); auto. }
  unfold frame. rewrite fsum_flat.
  rewrite (qsum_single _ _ (nth i (kdims w) [])).
  - rewrite fsum_flat, qsum_map_seq. rewrite (sumn_single _ o); auto.
    + rewrite fsum_flat, qsum_map_seq. apply sumn_ext. intros d Hd. rewrite body_row by auto.
      assert (A : nz (nth c (map (fun x => Some (ten_digits (nz x))) (row_amounts i o d)) None) = amount w i c o d).
      { unfold row_amounts. rewrite map_map, nth_map_seq by auto. cbn [nz]. rewrite ten_digits_id by (apply T; auto). reflexivity. }
      destruct (forallb is_nan (row_amounts i o d)) eqn:F.
      * assert (cel w i c o d = None).
        { destruct (cel w i c o d) eqn:E; auto. exfalso. enough (forallb is_nan (row_amounts i o d) = false) by congruence. apply all_nan. exists c. split; auto. congruence. }
        unfold amount. rewrite H. cbn. destruct (_ =? M); reflexivity.
      * unfold fsum. cbn [filter]. unfold p at 1. cbn [r_key r_o r_d dm]. rewrite (proj2 (strs_eqb_eq _ _) eq_refl), Z.eqb_refl. cbn [andb].
        destruct (month_of w o d =? M); [|reflexivity]. cbn [map]. unfold f. cbn [r_amt]. rewrite A. unfold qsum. cbn. ring.
    + intros o' Ho' N. rewrite fsum_flat, qsum_map_seq. apply sumn_zero. intros d Hd. apply Z; auto. apply nth_In. rewrite <- (wf_k _ W). auto.
  - assert (S := group_index_sorted (kdims w)). clear - S. induction S as [|x l S IH F]; constructor; auto. intros I. rewrite Forall_forall in F. apply (key_lt_irrefl x). auto.
  - apply group_index_In. apply nth_In. rewrite <- (wf_k _ W). auto.
  - intros k Hk N. apply (proj1 (group_index_In _ _)) in Hk. rewrite fsum_flat, qsum_map_seq. apply sumn_zero. intros o' Ho'. rewrite fsum_flat, qsum_map_seq. apply sumn_zero. intros d Hd. apply Z; auto.
Qed.
End Table.
