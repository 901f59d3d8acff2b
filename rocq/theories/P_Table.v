(** Proofs: the table of a triangle. *)
From Coq Require Import Lia.
From Verif Require Import Ex LabelFacts TriFacts P_Group P_Json Table SpecTable.
Local Open Scope nat_scope.

Definition long (t : tri) (ax : nat) : Prop := 1 < axis_len t ax.
Lemma len_size t ax : wf t -> axis_len t ax = size t ax.
Proof. intros W. destruct ax as [|[|[|ax]]]; cbn [axis_len size]; apply W. Qed.
Lemma several_long t ax : wf t -> several t ax <-> long t ax.
Proof. intros W. unfold several, long. rewrite len_size by auto. reflexivity. Qed.
Definition wide (t : tri) : Prop := (forall ax, an_axis ax -> 0 < axis_len t ax) /\ (long t 0 \/ long t 1).
Lemma more_wide t : wf t -> more_than_one t -> wide t.
Proof. intros W [H1 H2]. split; [intros ax A; rewrite len_size by auto; auto|]. destruct H2; [left|right]; apply several_long; auto. Qed.
Lemma labels_names t ax : an_axis ax -> names t ax (axis_labels t ax).
Proof.
  intros A. unfold an_axis in A. destruct ax as [|[|[|[|ax]]]]; cbn [axis_labels]; try constructor; [|lia].
  destruct (is_pattern t) eqn:E; cbn [andb]; [|constructor; auto]. destruct (Nat.eqb_spec (List.length (odims t)) 1); constructor; auto.
Qed.
Lemma long_axes_in t ax : In ax (long_axes t) <-> an_axis ax /\ long t ax.
Proof.
  unfold long_axes, long, an_axis. rewrite filter_In, Nat.ltb_lt. cbn [In]. split; intros [H1 H2]; (split; [lia|exact H2]).
Qed.
Lemma fill0_nz x : fill0 x = Some (nz x).
Proof. destruct x; reflexivity. Qed.
Lemma not_one t : wide t -> (axis_len t 0 =? 1) && (axis_len t 1 =? 1) = false.
Proof. intros [_ [H|H]]; unfold long in H; destruct (Nat.eqb_spec (axis_len t 0) 1), (Nat.eqb_spec (axis_len t 1) 1); auto; lia. Qed.
Lemma none_empty t : wide t -> existsb (fun ax => axis_len t ax =? 0) [0; 1; 2; 3] = false.
Proof.
  intros [H _]. assert (H0 := H 0). assert (H1 := H 1). assert (H2 := H 2). assert (H3 := H 3). unfold an_axis in *. cbn [existsb].
  destruct (Nat.eqb_spec (axis_len t 0) 0), (Nat.eqb_spec (axis_len t 1) 0), (Nat.eqb_spec (axis_len t 2) 0), (Nat.eqb_spec (axis_len t 3) 0); auto; lia.
Qed.
(** the axes not listed are first *)
Lemma squeezed_one t p i c o d : in_range t i c o d -> (forall ax, an_axis ax -> long t ax -> ax = p) -> an_axis p ->
  squeezed t [(p, coord p i c o d)] = cel t i c o d.
Proof.
  intros (Hi & Hc & Ho & Hd) U P. unfold squeezed, cel. unfold long, an_axis in *.
  assert (E : forall ax, ax < 4 -> on_axis [(p, coord p i c o d)] ax = coord ax i c o d).
  { intros ax A. cbn [on_axis]. destruct (Nat.eqb_spec p ax) as [->|N]; [reflexivity|].
    assert (S : ~ 1 < axis_len t ax) by (intros S; apply N; symmetry; apply U; auto). destruct ax as [|[|[|[|ax]]]]; cbn [coord axis_len] in *; lia. }
  rewrite !E by lia. reflexivity.
Qed.
Lemma squeezed_two t p q i c o d : in_range t i c o d -> (forall ax, an_axis ax -> long t ax -> ax = p \/ ax = q) -> 
  squeezed t [(p, coord p i c o d); (q, coord q i c o d)] = cel t i c o d.
Proof.
  intros (Hi & Hc & Ho & Hd) U. unfold squeezed, cel. unfold long, an_axis in *.
  assert (E : forall ax, ax < 4 -> on_axis [(p, coord p i c o d); (q, coord q i c o d)] ax = coord ax i c o d).
  { intros ax A. cbn [on_axis]. destruct (Nat.eqb_spec p ax) as [->|N]; [reflexivity|]. destruct (Nat.eqb_spec q ax) as [->|M]; [reflexivity|].
    assert (S : ~ 1 < axis_len t ax) by (intros S; destruct (U ax A S); congruence). destruct ax as [|[|[|[|ax]]]]; cbn [coord axis_len] in *; lia. }
  rewrite !E by lia. reflexivity.
Qed.
Lemma long_one t p : an_axis p -> long t p -> (forall ax, an_axis ax -> long t ax -> ax = p) -> long_axes t = [p].
Proof.
  intros A S U. unfold long_axes, long, an_axis in *. cbn [filter].
  assert (H : forall ax, ax < 4 -> (1 <? axis_len t ax) = (ax =? p)).
  { intros ax L. destruct (Nat.ltb_spec 1 (axis_len t ax)), (Nat.eqb_spec ax p); subst; auto; [exfalso; auto|lia]. }
  rewrite !H by lia. destruct p as [|[|[|[|p]]]]; try reflexivity. lia.
Qed.
Lemma long_two t p q : an_axis q -> p < q -> long t p -> long t q -> (forall ax, an_axis ax -> long t ax -> ax = p \/ ax = q) -> long_axes t = [p; q].
Proof.
  intros A L S1 S2 U. unfold long_axes, long, an_axis in *. cbn [filter].
  assert (H : forall ax, ax < 4 -> (1 <? axis_len t ax) = (ax =? p) || (ax =? q)).
  { intros ax B. destruct (Nat.ltb_spec 1 (axis_len t ax)) as [X|X].
    - destruct (U ax B X) as [->| ->]; rewrite Nat.eqb_refl; [reflexivity|rewrite orb_true_r; reflexivity].
    - destruct (Nat.eqb_spec ax p), (Nat.eqb_spec ax q); subst; auto; lia. }
  rewrite !H by lia. destruct q as [|[|[|[|q]]]]; destruct p as [|[|[|[|p]]]]; try reflexivity; lia.
Qed.
Lemma long_more t p q r : an_axis p -> an_axis q -> an_axis r -> p < q -> q < r -> long t p -> long t q -> long t r -> 
  exists x y z l, long_axes t = x :: y :: z :: l.
Proof.
  intros A B C L M S1 S2 S3.
  assert (P := proj2 (long_axes_in t p) (conj A S1)). assert (Q := proj2 (long_axes_in t q) (conj B S2)). assert (R := proj2 (long_axes_in t r) (conj C S3)).
  destruct (long_axes t) as [|x [|y [|z l]]]; [destruct P| | |exists x, y, z, l; reflexivity]; cbn [In] in *; lia.
Qed.

(** the long table has no two rows for one place *)
Lemma NoDup_flat {A B} (f : A -> list B) l : NoDup l -> (forall x, In x l -> NoDup (f x)) -> (forall x y z, In x l -> In y l -> In z (f x) -> In z (f y) -> x = y) -> NoDup (flat_map f l).
Proof.
  induction l as [|a l IH]; intros N F D; cbn [flat_map]; [constructor|]. inversion N; subst.
  assert (X : forall (u v : list B), NoDup u -> NoDup v -> (forall z, In z u -> ~ In z v) -> NoDup (u ++ v)).
  { induction u as [|z u IHu]; intros v Nu Nv Di; cbn [app]; [exact Nv|]. inversion Nu; subst. constructor.
    - intros I. apply in_app_or in I. destruct I as [I|I]; [auto|]. apply (Di z); [left; reflexivity|exact I].
    - apply IHu; auto. intros w Hw. apply Di. right. exact Hw. }
  apply X.
  - apply F. left. reflexivity.
  - apply IH; auto. intros; apply F; right; auto. intros x y z Hx Hy. apply D; right; auto.
  - intros z Hz I. apply in_flat_map in I. destruct I as (y & Hy & Iz). assert (a = y) by (apply (D a y z); auto; [left|right]; auto). subst. auto.
Qed.
Lemma map_flat {A B C} (g : B -> C) (f : A -> list B) l : map g (flat_map f l) = flat_map (fun x => map g (f x)) l.
Proof. induction l as [|a l IH]; cbn; [reflexivity|]. rewrite map_app, IH. reflexivity. Qed.
Lemma body_place w k o d z : In z (map place (body w k o d)) -> z = (k, Date (nth o (odims w) 0%Z) true, Date (valuation w o d) false).
Proof. unfold body. destruct (forallb _ _); cbn; intros []; auto. contradiction. Qed.
Lemma frame_places w : wf w -> NoDup (map place (frame w)).
Proof.
  intros W. unfold frame. rewrite map_flat. apply NoDup_flat.
  - assert (S := group_index_sorted (kdims w)). clear - S. induction S as [|x l S IH F]; constructor; auto. intros I. rewrite Forall_forall in F. apply (key_lt_irrefl x). auto.
  - intros k _. rewrite map_flat. apply NoDup_flat; [apply seq_NoDup| |].
    + intros o Ho. rewrite map_flat. apply in_seq in Ho. apply NoDup_flat; [apply seq_NoDup| |].
      * intros d _. unfold body. destruct (forallb _ _); repeat constructor. intros [].
      * intros d d' z Hd Hd' I I'. apply in_seq in Hd, Hd'. apply body_place in I, I'. rewrite I in I'. inversion I' as [V]. rewrite !valuation_month in V by (auto; lia).
        apply (month_inj w o d d'); auto; lia.
    + intros o o' z Ho Ho' I I'. apply in_seq in Ho, Ho'. rewrite map_flat in I, I'. apply in_flat_map in I, I'. destruct I as (d & _ & I). destruct I' as (d' & _ & I').
      apply body_place in I, I'. rewrite I in I'. inversion I' as [[V V']]. apply (sorted_nth_inj (odims w) o o' 0%Z); auto; try apply W; rewrite <- (wf_o _ W); lia.
  - intros k k' z _ _ I I'. rewrite map_flat in I, I'. apply in_flat_map in I, I'. destruct I as (o & _ & I). destruct I' as (o' & _ & I').
    rewrite map_flat in I, I'. apply in_flat_map in I, I'. destruct I as (d & _ & I). destruct I' as (d' & _ & I'). apply body_place in I, I'. rewrite I in I'. inversion I'. reflexivity.
Qed.
