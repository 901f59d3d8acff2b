(** Alignment of the operands of + and - by index key. *)
From Coq Require Import Lia Sorted Permutation.
From Verif Require Export CatFacts.
Local Open Scope Z_scope.

Lemma insert_row_perm t i l : Permutation (insert_row t i l) (i :: l).
Proof.
  induction l as [|j l IH]; cbn; auto. destruct (key_leb _ _); auto.
  eapply perm_trans; [apply perm_skip, IH|]. apply perm_swap.
Qed.
Lemma sorted_rows_perm t : Permutation (sorted_rows t) (seq 0 (List.length (kdims t))).
Proof.
  unfold sorted_rows. induction (seq 0 (List.length (kdims t))) as [|i l IH]; cbn; auto.
  eapply perm_trans; [apply insert_row_perm|]. auto.
Qed.

Lemma proj_id labels k : List.length k = List.length labels -> proj labels labels k = k.
Proof.
  intros H. unfold proj.
  assert (E : filter (fun p => mem_str (fst p) labels) (combine labels k) = combine labels k).
  { rewrite <- (filter_ext_in' (fun _ => true)).
    - clear. induction (combine labels k); cbn; congruence.
    - intros [a b] Hin. cbn. symmetry. apply mem_str_In. apply in_combine_l in Hin. auto. }
  rewrite E. clear E. revert k H. induction labels as [|l labels IH]; destruct k; cbn; intros; try discriminate; auto.
  f_equal. apply IH. lia.
Qed.
Lemma common_same x y : key_labels y = key_labels x -> common_labels x y = key_labels x.
Proof.
  intros E. unfold common_labels. rewrite E. rewrite <- (filter_ext_in' (fun _ => true)).
  - clear. induction (key_labels x); cbn; congruence.
  - intros c Hc. symmetry. apply mem_str_In. auto.
Qed.

Lemma filter_key_single (l : list (list string)) k : NoDup l -> In k l ->
  exists i, (i < List.length l)%nat /\ nth i l [] = k /\ filter (fun i => strs_eqb (nth i l []) k) (seq 0 (List.length l)) = [i].
Proof.
  intros Hn Hk. destruct (In_nth _ _ [] Hk) as (i & Hi & E). exists i. split; [auto|]. split; [auto|].
  assert (G : forall s, NoDup s -> In i s -> (forall j, In j s -> (j < List.length l)%nat) -> filter (fun j => strs_eqb (nth j l []) k) s = [i]).
  { induction s as [|j s IH]; [intros _ []|]. intros Hs Hin Hr. inversion Hs as [|? ? Hj Hs']; subst. cbn [filter].
    destruct (strs_eqb (nth j l []) (nth i l [])) eqn:Ej.
    - apply strs_eqb_eq in Ej. apply (NoDup_nth l []) in Ej; [|auto|apply Hr; left; auto|auto]. subst j. f_equal.
      assert (Z : forall s, (forall j, In j s -> (j < List.length l)%nat /\ j <> i) -> filter (fun j => strs_eqb (nth j l []) (nth i l [])) s = []).
      { clear -Hn Hi. induction s as [|j s IH]; cbn; auto. intros H. destruct (H j (or_introl eq_refl)) as [H1 H2].
        destruct (strs_eqb (nth j l []) (nth i l [])) eqn:Ej.
        - exfalso. apply strs_eqb_eq in Ej. apply (NoDup_nth l []) in Ej; auto.
        - apply IH. intros; apply H; right; auto. }
      apply Z. intros j Hjs. split; [apply Hr; right; auto|]. intros ->. contradiction.
    - apply IH; auto.
      + destruct Hin as [->|]; auto. rewrite strs_eqb_refl in Ej. discriminate.
      + intros; apply Hr; right; auto. }
  apply G; [apply seq_NoDup|apply in_seq; lia|]. intros j Hj. apply in_seq in Hj. lia.
Qed.
Lemma filter_key_none (l : list (list string)) k : ~ In k l ->
  filter (fun i => strs_eqb (nth i l []) k) (seq 0 (List.length l)) = [].
Proof.
  intros Hk. destruct (filter _ _) as [|i r] eqn:E; auto. exfalso.
  assert (H : In i (filter (fun i => strs_eqb (nth i l []) k) (seq 0 (List.length l)))) by (rewrite E; left; auto).
  apply filter_In in H. destruct H as [H1 H2]. apply strs_eqb_eq in H2. apply Hk. rewrite <- H2. apply nth_In. apply in_seq in H1. lia.
Qed.

Lemma rows_of_group_eq t k : full_keys t -> rows_of_group t (key_labels t) k = filter (fun i => strs_eqb (nth i (kdims t) []) k) (seq 0 (List.length (kdims t))).
Proof.
  intros F. unfold rows_of_group. apply filter_ext_in'. intros i Hi. apply in_seq in Hi. unfold row_key.
  rewrite proj_id; auto. apply F. apply nth_In. lia.
Qed.

(** One row of an operand, or a row of zeros, under the key [k]. *)
Record row_of (X a : tri) (k : list string) : Prop := {
  ro_wf : wf a; ro_k : kdims a = [k]; ro_kl : key_labels a = key_labels X; ro_v : vdims a = vdims X;
  ro_o : odims a = odims X; ro_d : ddims a = ddims X; ro_og : ograin a = ograin X; ro_dg : dgrain a = dgrain X;
  ro_pat : is_pattern a = is_pattern X; ro_cum : is_cumulative a = is_cumulative X;
  ro_le : vdate a <= vdate X;
  ro_fut : forall o d, (o < ax2 (values X))%nat -> (d < ax3 (values X))%nat -> (vdate a <? month_of X o d) = (vdate X <? month_of X o d);
  ro_blank : blank_future X -> blank_future a;
  ro_am : forall v o m, amount_at a k v o m = amount_at X k v o m }.

Lemma picked_month t ik ic u o d : picked t ik ic u -> month_of u o d = month_of t o d.
Proof. intros P. unfold month_of. rewrite (pk_o _ _ _ _ P), (pk_d _ _ _ _ P). reflexivity. Qed.
Lemma picked_blank t ik ic u : picked t ik ic u -> (forall x, In x ik -> (x < ax0 (values t))%nat) -> (forall x, In x ic -> (x < ax1 (values t))%nat) ->
  blank_future t -> blank_future u.
Proof.
  intros P Hk Hc B i c o d (Hi & Hcc & Ho & Hd) Hf. unfold future in Hf.
  rewrite (pk_0 _ _ _ _ P) in Hi. rewrite (pk_1 _ _ _ _ P) in Hcc. rewrite (pk_2 _ _ _ _ P) in Ho. rewrite (pk_3 _ _ _ _ P) in Hd.
  rewrite (picked_month _ _ _ _ o d P) in Hf. apply Z.ltb_lt in Hf. rewrite (pk_fut _ _ _ _ P) in Hf by auto. apply Z.ltb_lt in Hf.
  rewrite (pk_c _ _ _ _ P) by auto. apply B; auto. unfold in_range. split; [apply Hk, nth_In; auto|]. split; [apply Hc, nth_In; auto|]. auto.
Qed.

Lemma slice_ok X Y k : wf X -> uniq_labels X -> full_keys X -> full_keys Y -> key_labels Y = key_labels X ->
  (1 <= List.length (kdims X))%nat -> In k (kdims X) \/ In k (kdims Y) ->
  exists a, slice_or_nan X Y (key_labels X) k = Ok a /\ row_of X a k.
Proof.
  intros W U FX FY EK L1 Hk. destruct U as [U1 U2]. unfold slice_or_nan. rewrite rows_of_group_eq by auto.
  destruct (in_dec key_dec k (kdims X)) as [H|H].
  - destruct (filter_key_single _ _ U1 H) as (i & Hi & Ei & ->).
    destruct (iloc_rows_ok X [i] W) as (a & Ea & P); [repeat constructor; auto|discriminate|intros x [<-|[]]; auto|].
    exists a. split; [auto|].
    assert (Ka : kdims a = [k]) by (rewrite (pk_k _ _ _ _ P); cbn; rewrite Ei; auto).
    assert (Hc : forall x, In x (seq 0 (ax1 (values X))) -> (x < ax1 (values X))%nat) by (intros x Hx; apply in_seq in Hx; lia).
    assert (Va : vdims a = vdims X) by (rewrite (pk_v _ _ _ _ P); apply sel_seq_all; apply W).
    constructor; auto; try apply P.
    + intros B. apply (picked_blank _ _ _ _ P); auto. intros x [<-|[]]. rewrite (wf_k _ W); auto.
    + intros v o m. destruct (in_dec string_dec v (vdims X)) as [Hv|Hv].
      * apply (amount_at_picked X [i] (seq 0 (ax1 (values X)))); auto; try split; auto.
        -- repeat constructor; auto.
        -- apply seq_NoDup.
        -- intros x [<-|[]]; auto.
        -- intros x Hx. rewrite <- (wf_v _ W). auto.
        -- rewrite Ka; left; auto.
        -- rewrite Va; auto.
      * rewrite !amount_at_absent; auto. right; left. rewrite Va; auto.
  - rewrite filter_key_none by auto. destruct Hk as [Hk|Hk]; [contradiction|]. rewrite EK, strs_eqb_refl.
    destruct (iloc_rows_ok X [0%nat] W) as (z & Ez & P); [repeat constructor; auto|discriminate|intros x [<-|[]]; auto|].
    rewrite Ez. cbn [rbind].
    pose proof (pk_wf _ _ _ _ P) as Wz.
    assert (Lz : ax0 (values z) = 1%nat) by (rewrite (pk_0 _ _ _ _ P); auto).
    assert (EM : exists r, mul_arr z (scalar_arr 0%Qc) = Ok (set_values z r) /\ ax0 r = ax0 (values z) /\ ax1 r = ax1 (values z) /\ ax2 r = ax2 (values z) /\ ax3 r = ax3 (values z) /\
       forall i c o d, in_range z i c o d -> nz (av r i c o d) = 0%Qc /\ (cel z i c o d = None -> av r i c o d = None)).
    { assert (Hs : exists r, bmap2 cmul (values z) (scalar_arr 0%Qc) = Ok r /\ ax0 r = ax0 (values z) /\ ax1 r = ax1 (values z) /\ ax2 r = ax2 (values z) /\ ax3 r = ax3 (values z) /\
         forall i c o d, in_range z i c o d -> av r i c o d = cmul (cel z i c o d) (Some 0%Qc)).
      { unfold bmap2. assert (B1 : forall n, bdim n 1 = Ok n).
        { intros n. unfold bdim. destruct (Nat.eqb_spec n 1); subst; auto. }
        cbn [ax0 ax1 ax2 ax3 scalar_arr]. rewrite !B1. cbn [rbind]. eexists. split; [reflexivity|]. cbn [ax0 ax1 ax2 ax3 av].
        do 4 (split; [auto|]). intros i c o d (H1 & H2 & H3 & H4).
        assert (B2 : forall n j, (j < n)%nat -> bidx n j = j) by (intros n j Hj; unfold bidx; destruct (Nat.eqb_spec n 1); lia).
        rewrite !B2 by auto. reflexivity. }
      destruct Hs as (r & Er & A0 & A1 & A2 & A3 & Ar). exists r. unfold mul_arr. rewrite Er. cbn [rbind]. split; [auto|]. do 4 (split; [auto|]).
      intros i c o d R. rewrite Ar by auto. destruct (cel z i c o d); cbn; split; auto; try discriminate. ring. }
    destruct EM as (r & -> & A0 & A1 & A2 & A3 & Ar). cbn [rbind].
    assert (Erow : row_key Y (last (rows_of_group Y (key_labels X) k) 0%nat) = k).
    { rewrite <- EK. rewrite rows_of_group_eq by auto. unfold row_key.
      destruct (filter _ _) as [|j s] eqn:E.
      - exfalso. destruct (In_nth _ _ [] Hk) as (j & Hj & Ej).
        assert (Hin : In j (filter (fun i => strs_eqb (nth i (kdims Y) []) k) (seq 0 (List.length (kdims Y))))).
        { apply filter_In. split; [apply in_seq; lia|]. rewrite Ej. apply strs_eqb_refl. }
        rewrite E in Hin. destruct Hin.
      - assert (Hin : In (last (j :: s) 0%nat) (filter (fun i => strs_eqb (nth i (kdims Y) []) k) (seq 0 (List.length (kdims Y))))).
        { rewrite E. clear. revert j. induction s as [|a s IH]; intros j; [left; auto|]. right. apply IH. }
        apply filter_In in Hin. destruct Hin as [_ Hin]. apply strs_eqb_eq in Hin. auto. }
    rewrite Erow. eexists. split; [reflexivity|].
    set (a := set_kdims (set_values z r) [k]).
    assert (Wa : wf a).
    { destruct Wz. constructor; cbn [a set_kdims set_dims set_values kdims vdims odims ddims values vdate]; try congruence; auto; try lia. cbn [List.length]. congruence. }
    assert (Va : vdims a = vdims X) by (cbn; rewrite (pk_v _ _ _ _ P); apply sel_seq_all; apply W).
    assert (Hm : forall o d, month_of a o d = month_of X o d).
    { intros o d. unfold month_of. cbn [a set_kdims set_dims set_values odims ddims]. rewrite (pk_o _ _ _ _ P), (pk_d _ _ _ _ P). auto. }
    assert (Hra : forall i c o d, in_range a i c o d -> in_range z i c o d).
    { unfold in_range. cbn [a set_kdims set_dims set_values values]. rewrite A0, A1, A2, A3. auto. }
    constructor; auto; try (cbn [a set_kdims set_dims set_values odims ddims vdate key_labels ograin dgrain is_cumulative is_pattern]; apply P).
    + intros B i c o d R Hf. unfold cel. cbn [a set_kdims set_dims set_values values]. apply Hra in R.
      assert (Bz : blank_future z).
      { refine (picked_blank _ _ _ _ P _ _ B).
        - intros x [<-|[]]. rewrite (wf_k _ W); auto.
        - intros x Hx; apply in_seq in Hx; lia. }
      apply (proj2 (Ar i c o d R)). apply Bz; [exact R|]. unfold future in *. rewrite (picked_month _ _ _ _ o d P). rewrite Hm in Hf. exact Hf.
    + intros v o m. rewrite (amount_at_absent X) by auto. unfold amount_at. apply pick_zero. intros i Hi. apply pick_zero. intros c Hc.
      apply pick_zero. intros p Hp. apply pick_zero. intros q Hq. unfold amount, cel. cbn [a set_kdims set_dims set_values values].
      apply Ar. apply Hra. unfold in_range. rewrite (wf_k _ Wa), (wf_v _ Wa), (wf_o _ Wa), (wf_d _ Wa). auto.
Qed.

(** One group: the two rows are combined cell by cell. *)
Lemma row_op op X Y a b k : is_addsub op -> wf X -> wf Y -> uniq_labels X ->
  key_labels Y = key_labels X -> vdims Y = vdims X -> odims Y = odims X -> ddims Y = ddims X -> ograin Y = ograin X -> dgrain Y = dgrain X ->
  row_of X a k -> row_of Y b k -> blank_future X -> blank_future Y ->
  exists u, plain_op op a b = Ok u /\ wf u /\ blank_future u /\ kdims u = [k] /\ key_labels u = key_labels X /\
    vdims u = vdims X /\ odims u = odims X /\ ddims u = ddims X /\ ograin u = ograin X /\ dgrain u = dgrain X /\
    is_cumulative u = is_cumulative X /\
    vdate u = Z.max (vdate a) (vdate b) /\
    forall v o m, amount_at u k v o m = qop op (amount_at X k v o m) (amount_at Y k v o m).
Proof.
  intros Hop WX WY [U1 U2] Ekl Ev Eo Ed Eog Edg Ra Rb BX BY.
  pose proof (ro_wf _ _ _ Ra) as Wa. pose proof (ro_wf _ _ _ Rb) as Wb.
  assert (S : same_axes a b).
  { destruct Ra, Rb. constructor; congruence. }
  unfold plain_op. rewrite (validate_same a b Wa Wb S). cbn [rbind].
  destruct (lhs_fields a b) as (Lk & Ll & Lv & Lo & Ld & La & Lvd & Lc & Log & Ldg).
  pose proof (wf_lhs a b Wa Wb) as Wl.
  destruct (finish op (lhs a b) b Hop Wl Wb) as (u & Eu & Wu & F & Bu & Hc & Hp & Am).
  - split; [rewrite Lk, (ro_k _ _ _ Ra); repeat constructor; auto|rewrite Lv, (ro_v _ _ _ Ra); auto].
  - rewrite Lk. apply S.
  - rewrite Lv. apply S.
  - rewrite Lo. apply S.
  - rewrite Ld. apply S.
  - intros i c o d R Hf. unfold future in Hf. rewrite Lvd in Hf.
    assert (Hm : month_of (lhs a b) o d = month_of a o d) by (unfold month_of; rewrite Lo, Ld; auto).
    assert (Hmb : month_of b o d = month_of a o d) by (unfold month_of; rewrite (sa_o _ _ S), (sa_d _ _ S); auto).
    rewrite Hm in Hf. assert (Rr : in_range a i c o d) by (unfold in_range in *; rewrite La in R; auto).
    split.
    + unfold cel. rewrite La. apply (ro_blank _ _ _ Ra BX); auto. unfold future; lia.
    + apply (ro_blank _ _ _ Rb BY); [apply (range_same_axes a b); auto|]. unfold future; rewrite Hmb; lia.
  - exists u. split; [exact Eu|]. do 2 (split; [auto|]).
    split; [rewrite (sf_k _ _ F), Lk; apply Ra|].
    split; [rewrite (sf_kl _ _ F), Ll; apply Ra|].
    split; [rewrite (sf_v _ _ F), Lv; apply Ra|].
    split; [rewrite (sf_o _ _ F), Lo; apply Ra|].
    split; [rewrite (sf_d _ _ F), Ld; apply Ra|].
    split; [rewrite (sf_og _ _ F), Log; apply Ra|].
    split; [rewrite (sf_dg _ _ F), Ldg; apply Ra|].
    split; [rewrite Hc, Lc; apply Ra|].
    split; [rewrite (sf_vd _ _ F), Lvd; auto|].
    intros v o m. rewrite Am. rewrite (ro_am _ _ _ Rb). f_equal. rewrite <- (ro_am _ _ _ Ra).
    unfold amount_at, amount, cel. rewrite Lk, Lv, Lo, Ld, La. reflexivity.
Qed.

Lemma mapm_Forall2 {A B} (f : A -> result B) (R : A -> B -> Prop) l : (forall x, In x l -> exists y, f x = Ok y /\ R x y) ->
  exists ys, mapm f l = Ok ys /\ Forall2 R l ys.
Proof.
  induction l as [|x l IH]; intros H; cbn [mapm].
  - exists []. split; auto.
  - destruct (H x (or_introl eq_refl)) as (y & Ey & Ry). destruct IH as (ys & Eys & Rys); [intros; apply H; right; auto|].
    exists (y :: ys). rewrite Ey. cbn [rbind]. rewrite Eys. cbn [rbind]. split; auto.
Qed.

Lemma dedup_In l k : In k (dedup_keys l) <-> In k l.
Proof.
  induction l as [|x l IH]; cbn; [tauto|]. destruct (existsb (strs_eqb x) _) eqn:E.
  - apply existsb_key in E. fold (dedup_keys l) in *. rewrite IH. split; auto. intros [<-|H]; auto. apply IH; auto.
  - cbn. fold (dedup_keys l) in *. rewrite IH. tauto.
Qed.
Lemma dedup_NoDup l : NoDup (dedup_keys l).
Proof.
  induction l as [|x l IH]; cbn; [constructor|]. destruct (existsb (strs_eqb x) _) eqn:E; auto.
  constructor; auto. intros H. apply existsb_key in H. congruence.
Qed.
Lemma map_proj_id t : full_keys t -> map (proj (key_labels t) (key_labels t)) (kdims t) = kdims t.
Proof. intros F. rewrite <- (map_id (kdims t)) at 2. apply map_ext_in. intros k Hk. apply proj_id. apply F; auto. Qed.

Lemma cleanup_ok s : wf s -> uniq_labels s -> blank_future s ->
  wf (cleanup s) /\ same_frame s (cleanup s) /\ blank_future (cleanup s) /\ forall k v o m, amount_at (cleanup s) k v o m = amount_at s k v o m.
Proof.
  intros W U B. assert (F : same_frame s (cleanup s)) by (constructor; reflexivity).
  assert (Wc : wf (cleanup s)) by exact (wf_same_frame _ _ W F).
  assert (C : forall i c o d, in_range s i c o d -> (cel s i c o d = None -> cel (cleanup s) i c o d = None) /\ nz (cel (cleanup s) i c o d) = nz (cel s i c o d)).
  { intros i c o d R. destruct R as (Hi & Hc & Ho & Hd). unfold cleanup. unfold cel at 2 3. cbn [values set_values av].
    rewrite nan_triangle_cases by auto. split.
    - intros E. unfold cel in E. rewrite E. reflexivity.
    - destruct (Nat.min (ax2 (values s)) (ax3 (values s)) =? 1)%nat.
      + cbn [nz]. fold (cel s i c o d). destruct (cel s i c o d); cbn [cmul nz]; [rewrite Qcmult_1_r|]; try reflexivity. rewrite nz_n2n. reflexivity.
      + destruct (Z.ltb_spec (vdate s) (month_of s o d)).
        * fold (cel s i c o d). rewrite (B i c o d); [reflexivity|unfold in_range; auto|auto].
        * cbn [nz]. fold (cel s i c o d). destruct (cel s i c o d); cbn [cmul nz]; [rewrite Qcmult_1_r|]; try reflexivity. rewrite nz_n2n. reflexivity. }
  split; [auto|]. split; [auto|]. split.
  - intros i c o d R Hf. apply (C i c o d R). apply B; auto.
  - intros k v o m. unfold amount_at. change (kdims (cleanup s)) with (kdims s). change (vdims (cleanup s)) with (vdims s).
    change (odims (cleanup s)) with (odims s). change (ddims (cleanup s)) with (ddims s).
    apply pick_ext. intros i Hi _. apply pick_ext. intros c Hc _. apply pick_ext. intros r Hr _. apply pick_ext. intros d Hd _.
    apply C. unfold in_range. rewrite (wf_k _ W), (wf_v _ W), (wf_o _ W), (wf_d _ W). auto.
Qed.

(** Sorting by key keeps the content. *)
Lemma sort_index_ok t : wf t -> uniq_labels t -> (1 <= List.length (kdims t))%nat ->
  exists u, sort_index t = Ok u /\ wf u /\ uniq_labels u /\ Permutation (kdims u) (kdims t) /\ key_labels u = key_labels t /\ vdims u = vdims t /\
    odims u = odims t /\ ddims u = ddims t /\ ograin u = ograin t /\ dgrain u = dgrain t /\ is_cumulative u = is_cumulative t /\ is_pattern u = is_pattern t /\
    vdate u <= vdate t /\
    (forall o d, (o < ax2 (values t))%nat -> (d < ax3 (values t))%nat -> (vdate u <? month_of t o d) = (vdate t <? month_of t o d)) /\
    (blank_future t -> blank_future u) /\ forall k v o m, amount_at u k v o m = amount_at t k v o m.
Proof.
  intros W U L1. unfold sort_index. pose proof (sorted_rows_perm t) as Pm.
  assert (Hr : forall x, In x (sorted_rows t) -> (x < List.length (kdims t))%nat).
  { intros x Hx. apply (Permutation_in _ Pm) in Hx. apply in_seq in Hx. lia. }
  assert (Nr : NoDup (sorted_rows t)) by (apply (Permutation_NoDup (Permutation_sym Pm)), seq_NoDup).
  destruct (iloc_rows_ok t (sorted_rows t) W Nr) as (u & Eu & P); [|exact Hr|].
  { intros E. rewrite E in Pm. apply Permutation_length in Pm. rewrite seq_length in Pm. cbn in Pm. lia. }
  exists u. split; [auto|]. split; [apply P|].
  assert (Hc : forall x, In x (seq 0 (ax1 (values t))) -> (x < List.length (vdims t))%nat) by (intros x Hx; apply in_seq in Hx; rewrite <- (wf_v _ W); lia).
  assert (Uu : uniq_labels u) by exact (picked_uniq _ _ _ _ U P Nr (seq_NoDup _ _) Hr Hc).
  assert (Pk : Permutation (kdims u) (kdims t)).
  { rewrite (pk_k _ _ _ _ P). rewrite <- (sel_seq_all (kdims t) [] (List.length (kdims t)) eq_refl) at 2. apply Permutation_map. exact Pm. }
  assert (Va : vdims u = vdims t) by (rewrite (pk_v _ _ _ _ P); apply sel_seq_all; apply W).
  do 2 (split; [auto|]). split; [apply P|]. split; [auto|]. do 6 (split; [apply P|]). split; [apply P|]. split; [apply P|]. split.
  - apply (picked_blank _ _ _ _ P).
    + intros x Hx. rewrite (wf_k _ W). auto.
    + intros x Hx. apply in_seq in Hx. lia.
  - intros k v o m. destruct (in_dec key_dec k (kdims t)) as [H1|H1]; [destruct (in_dec string_dec v (vdims t)) as [H2|H2]|].
    + apply (amount_at_picked t (sorted_rows t) (seq 0 (ax1 (values t)))); auto; [apply seq_NoDup| |].
      * apply (Permutation_in _ (Permutation_sym Pk)). auto.
      * rewrite Va; auto.
    + rewrite !amount_at_absent; auto. right; left; rewrite Va; auto.
    + rewrite !amount_at_absent; auto. left. intros H. apply H1. apply (Permutation_in _ Pk). auto.
Qed.

Lemma Forall2_len {A B} (R : A -> B -> Prop) l m : Forall2 R l m -> List.length l = List.length m.
Proof. induction 1; cbn; congruence. Qed.
Definition row_result op (X Y : tri) (k : list string) (u : tri) : Prop :=
  wf u /\ blank_future u /\ kdims u = [k] /\ key_labels u = key_labels X /\
  vdims u = vdims X /\ odims u = odims X /\ ddims u = ddims X /\ ograin u = ograin X /\ dgrain u = dgrain X /\
  is_cumulative u = is_cumulative X /\
  vdate u <= Z.max (vdate X) (vdate Y) /\
  (forall o d, (o < ax2 (values X))%nat -> (d < ax3 (values X))%nat ->
     (vdate u <? month_of X o d) = (vdate X <? month_of X o d) && (vdate Y <? month_of X o d)) /\
  forall v o m, amount_at u k v o m = qop op (amount_at X k v o m) (amount_at Y k v o m).

Lemma ltb_max a b m : (Z.max a b <? m) = (a <? m) && (b <? m).
Proof. destruct (Z.ltb_spec (Z.max a b) m), (Z.ltb_spec a m), (Z.ltb_spec b m); cbn; auto; lia. Qed.

Lemma grouped_ok op X Y : is_addsub op -> wf X -> wf Y -> uniq_labels X -> uniq_labels Y -> full_keys X -> full_keys Y ->
  key_labels Y = key_labels X -> vdims Y = vdims X -> odims Y = odims X -> ddims Y = ddims X -> ograin Y = ograin X -> dgrain Y = dgrain X ->
  (1 <= List.length (kdims X))%nat -> (1 <= List.length (kdims Y))%nat -> blank_future X -> blank_future Y ->
  exists u,
   (let common := common_labels X Y in
    do rs <- mapm (fun k => do a <- slice_or_nan X Y common k; do b <- slice_or_nan Y X common k; plain_op op a b) (group_keys X Y common);
    do c <- Tri.concat rs AxIndex;
    do s <- sort_index c;
    Ok (match op with OAdd | OSub => cleanup s | _ => s end)) = Ok u /\
   wf u /\ blank_future u /\ NoDup (kdims u) /\ (forall k, In k (kdims u) <-> In k (kdims X) \/ In k (kdims Y)) /\
   key_labels u = key_labels X /\ vdims u = vdims X /\ odims u = odims X /\ ddims u = ddims X /\ ograin u = ograin X /\ dgrain u = dgrain X /\
   is_cumulative u = is_cumulative X /\ vdate u <= Z.max (vdate X) (vdate Y) /\
   (forall o d, (o < ax2 (values X))%nat -> (d < ax3 (values X))%nat ->
     (vdate u <? month_of X o d) = (vdate X <? month_of X o d) && (vdate Y <? month_of X o d)) /\
   forall k v o m, amount_at u k v o m = qop op (amount_at X k v o m) (amount_at Y k v o m).
Proof.
  intros Hop WX WY UX UY FX FY Ekl Ev Eo Ed Eog Edg LX LY BX BY. cbv zeta. rewrite common_same by auto.
  set (gk := group_keys X Y (key_labels X)).
  assert (Gk : forall k, In k gk <-> In k (kdims X) \/ In k (kdims Y)).
  { intros k. unfold gk, group_keys. rewrite dedup_In, in_app_iff, map_proj_id by auto. rewrite <- Ekl. rewrite map_proj_id by auto. tauto. }
  assert (Gn : NoDup gk) by apply dedup_NoDup.
  assert (S2 : ax2 (values Y) = ax2 (values X)) by (rewrite (wf_o _ WX), (wf_o _ WY), Eo; auto).
  assert (S3 : ax3 (values Y) = ax3 (values X)) by (rewrite (wf_d _ WX), (wf_d _ WY), Ed; auto).
  assert (MY : forall o d, month_of Y o d = month_of X o d) by (intros; unfold month_of; rewrite Eo, Ed; auto).
  destruct (mapm_Forall2 (fun k => do a <- slice_or_nan X Y (key_labels X) k; do b <- slice_or_nan Y X (key_labels X) k; plain_op op a b)
              (row_result op X Y) gk) as (ys & Eys & RR).
  { intros k Hk. apply Gk in Hk.
    destruct (slice_ok X Y k) as (a & Ea & Ra); auto.
    destruct (slice_ok Y X k) as (b & Eb & Rb); auto; try tauto. rewrite Ekl in Eb.
    destruct (row_op op X Y a b k) as (u & Eu & Wu & Bu & K1 & K2 & K3 & K4 & K5 & K6 & K7 & K8 & K9 & K10); auto.
    exists u. rewrite Ea. cbn [rbind]. rewrite Eb. cbn [rbind]. split; [exact Eu|].
    unfold row_result. do 10 (split; [auto|]). split; [pose proof (ro_le _ _ _ Ra); pose proof (ro_le _ _ _ Rb); lia|]. split; [|auto].
    intros o d Ho Hd. rewrite K9, ltb_max. rewrite (ro_fut _ _ _ Ra) by auto. f_equal. rewrite <- MY. apply (ro_fut _ _ _ Rb); lia. }
  rewrite Eys. cbn [rbind].
  assert (Hall : forall t, In t ys -> exists k, In k gk /\ row_result op X Y k t).
  { clear -RR. induction RR as [|k t l m H RR IH]; [intros t []|]. intros x [<-|Hx].
    - exists k. split; [left; auto|auto].
    - destruct (IH x Hx) as (k' & H1 & H2). exists k'. split; [right; auto|auto]. }
  assert (Kc : List.concat (map kdims ys) = gk).
  { clear -RR. induction RR as [|k t l m H RR IH]; auto. cbn [map List.concat]. destruct H as (_ & _ & -> & _). cbn. congruence. }
  destruct ys as [|t0 rest].
  { exfalso. cbn in Kc. destruct (kdims X) as [|k0 ?] eqn:E; [cbn in LX; lia|]. assert (H : In k0 gk) by (apply Gk; left; left; auto). rewrite <- Kc in H. destruct H. }
  assert (HW : forall t, In t (t0 :: rest) -> wf t) by (intros t Ht; destruct (Hall t Ht) as (? & _ & R); apply R).
  assert (HV : forall t, In t (t0 :: rest) -> vdims t = vdims X /\ odims t = odims X /\ ddims t = ddims X).
  { intros t Ht. destruct (Hall t Ht) as (k & _ & R). split; [apply R|]. split; apply R. }
  assert (CA : cols_agree (vdims X) (t0 :: rest)).
  { split; [apply UX|]. split.
    - intros t Ht. exists []. rewrite app_nil_r. symmetry. apply HV; auto.
    - intros c Hc. exists t0. split; [left; auto|]. destruct (HV t0 (or_introl eq_refl)) as (-> & _). auto. }
  assert (SO : forall t, In t rest -> same_other AxIndex t0 t).
  { intros t Ht. destruct (HV t (or_intror Ht)) as (_ & H2 & H3). destruct (HV t0 (or_introl eq_refl)) as (_ & G2 & G3).
    unfold same_other. rewrite H2, H3, G2, G3. repeat split; auto; try congruence. destruct (ddims X); exact I. }
  assert (AU : axis_unique AxIndex (t0 :: rest)) by (unfold axis_unique; rewrite Kc; auto).
  destruct (concat_gen AxIndex t0 rest (vdims X) ltac:(discriminate) HW CA SO AU)
    as (c & Ec & Dk & Dkl & Dv & Do & Kd & Dd & Dvd & Dcum & Dpat & Dog & Ddg & L0 & L1 & L2 & L3 & Cl).
  pose proof (concat_index_wf t0 rest (vdims X) c HW CA SO AU Ec) as Wc.
  pose proof (concat_amounts AxIndex t0 rest (vdims X) ltac:(discriminate) HW CA SO AU c Ec) as Ac.
  rewrite Ec. cbn [rbind]. rewrite Kc in Dk.
  destruct (Hall t0 (or_introl eq_refl)) as (k0 & _ & R0).
  destruct R0 as (W0 & B0 & R03 & R04 & R05 & R06 & R07 & R08 & R09 & R010 & R011 & R012 & R013).
  assert (Uc : uniq_labels c) by (split; [rewrite Dk; auto|rewrite Dv; apply UX]).
  assert (Edc : ddims c = ddims X).
  { rewrite <- R07. clear R07. destruct (ddims c), (ddims t0); cbn in *; try tauto; congruence. }
  assert (Eoc : odims c = odims X) by congruence.
  assert (Mc : forall o d, month_of c o d = month_of X o d) by (intros; unfold month_of; rewrite Eoc, Edc; auto).
  assert (C2 : ax2 (values c) = ax2 (values X)) by (rewrite L2, Eoc, (wf_o _ WX); auto).
  assert (C3 : ax3 (values c) = ax3 (values X)) by (rewrite L3, Edc, (wf_d _ WX); auto).
  assert (Dt : forall t, In t (t0 :: rest) -> vdate t <= vdate c /\ forall o d, (o < ax2 (values X))%nat -> (d < ax3 (values X))%nat ->
     (vdate t <? month_of X o d) = (vdate X <? month_of X o d) && (vdate Y <? month_of X o d)).
  { intros t Ht. split.
    - rewrite Dvd. apply zmaxl_ge. destruct Ht as [<-|Ht]; [left; auto|right; apply in_map; auto].
    - destruct (Hall t Ht) as (k & _ & R). apply R. }
  assert (Vc : exists t, In t (t0 :: rest) /\ vdate c = vdate t).
  { rewrite Dvd. destruct (zmaxl_in (map vdate rest) (vdate t0)) as [E|E].
    - exists t0. split; [left; auto|auto].
    - apply in_map_iff in E. destruct E as (t & E & Ht). exists t. split; [right; auto|auto]. }
  destruct Vc as (tv & Htv & Evc).
  assert (Fc : forall o d, (o < ax2 (values X))%nat -> (d < ax3 (values X))%nat ->
     (vdate c <? month_of X o d) = (vdate X <? month_of X o d) && (vdate Y <? month_of X o d)).
  { intros o d Ho Hd. rewrite Evc. apply Dt; auto. }
  assert (Lec : vdate c <= Z.max (vdate X) (vdate Y)).
  { rewrite Evc. destruct (Hall tv Htv) as (k & _ & R). apply R. }
  assert (Hpos : forall p l, (p < List.length gk)%nat -> Forall2 (row_result op X Y) gk l -> exists pre t post, l = pre ++ t :: post /\ List.length pre = p /\ In t l).
  { intros p l Hp F. apply Forall2_len in F. exists (firstn p l), (nth p l t0), (skipn (S p) l).
    rewrite F in Hp. split; [|split].
    - rewrite <- (firstn_skipn p l) at 1. f_equal. apply skipn_nth_cons. auto.
    - rewrite firstn_length. lia.
    - apply nth_In. auto. }
  assert (Bc : blank_future c).
  { intros i cc o d (Hi & Hcc & Ho & Hd) Hf. rewrite L0, Dk in Hi. rewrite L1, Dv in Hcc. rewrite C2 in Ho. rewrite C3 in Hd.
    destruct (Hpos i (t0 :: rest) Hi RR) as (pre & t & post & E & Lp & Ht).
    pose proof (HW t Ht) as Wt. destruct (Hall t Ht) as (k & _ & R). destruct R as (_ & Bt & Rk & _ & Rv & Ro & Rd & _).
    assert (T0 : ax0 (values t) = 1%nat) by (rewrite (wf_k _ Wt), Rk; auto).
    assert (T2 : ax2 (values t) = ax2 (values X)) by (rewrite (wf_o _ Wt), Ro, (wf_o _ WX); auto).
    assert (T3 : ax3 (values t) = ax3 (values X)) by (rewrite (wf_d _ Wt), Rd, (wf_d _ WX); auto).
    specialize (Cl pre t post 0%nat cc o d E). cbn [axis_num avk] in Cl.
    replace (offset AxIndex pre) with i in Cl.
    - unfold cel. rewrite Nat.add_0_r in Cl. rewrite Cl by lia. destruct (_ <? _)%nat; auto.
      apply Bt; [unfold in_range; rewrite (wf_v _ Wt), Rv; lia|].
      unfold future in *. rewrite Mc in Hf. assert (Mt : month_of t o d = month_of X o d) by (unfold month_of; rewrite Ro, Rd; auto).
      rewrite Mt. destruct (Dt t Ht) as [Hle _]. lia.
    - rewrite <- Lp. unfold offset. cbn [axis_num axn].
      assert (Hp1 : forall x, In x pre -> ax0 (values x) = 1%nat).
      { intros x Hx. assert (Hxi : In x (t0 :: rest)) by (rewrite E; apply in_or_app; auto). rewrite (wf_k _ (HW x Hxi)).
        destruct (Hall x Hxi) as (kk & _ & R). destruct R as (_ & _ & -> & _). reflexivity. }
      clear -Hp1. induction pre as [|x pre IH]; [reflexivity|]. cbn [map suml List.length]. rewrite Hp1 by (left; auto). rewrite <- IH; auto. intros; apply Hp1; right; auto. }
  destruct (sort_index_ok c Wc Uc) as (s & Es & Ws & Us & Pk & Skl & Sv & So & Sd & Sog & Sdg & Scum & Spat & Sle & Sfut & Sb & Sa).
  { rewrite Dk. destruct gk as [|g gk'] eqn:Egk; [|cbn; lia]. inversion RR. }
  rewrite Es. cbn [rbind]. specialize (Sb Bc).
  destruct (cleanup_ok s Ws Us Sb) as (Wl & Fl & Bl & Al).
  exists (cleanup s). split; [destruct Hop as [-> | ->]; reflexivity|].
  do 2 (split; [auto|]). split; [rewrite (sf_k _ _ Fl); apply Us|]. split.
  { intros k. rewrite (sf_k _ _ Fl). rewrite <- Gk, <- Dk. split; apply Permutation_in; auto using Permutation_sym. }
  split; [rewrite (sf_kl _ _ Fl); congruence|]. split; [rewrite (sf_v _ _ Fl); congruence|]. split; [rewrite (sf_o _ _ Fl); congruence|].
  split; [rewrite (sf_d _ _ Fl); congruence|]. split; [rewrite (sf_og _ _ Fl); congruence|]. split; [rewrite (sf_dg _ _ Fl); congruence|].
  split; [change (is_cumulative (cleanup s)) with (is_cumulative s); congruence|].
  split; [rewrite (sf_vd _ _ Fl); lia|].
  split.
  { intros o d Ho Hd. rewrite (sf_vd _ _ Fl). specialize (Sfut o d). rewrite Mc in Sfut. rewrite Sfut by lia. apply Fc; auto. }
  intros k v o m. rewrite Al, Sa, Ac.
  assert (Q : forall l ks, Forall2 (row_result op X Y) ks l -> NoDup ks ->
     qsum (map (fun t => amount_at t k v o m) l) = if in_dec key_dec k ks then qop op (amount_at X k v o m) (amount_at Y k v o m) else 0%Qc).
  { clear. induction 1 as [|k' t ks l R RR IH]; intros Hn; [reflexivity|]. inversion Hn as [|? ? Hx Hn']; subst.
    cbn [map]. rewrite qsum_cons, IH by auto. destruct R as (_ & _ & Rk & _ & _ & _ & _ & _ & _ & _ & _ & _ & Ra).
    destruct (key_dec k' k) as [->|Hne].
    - rewrite Ra. destruct (in_dec key_dec k ks); [contradiction|]. destruct (in_dec key_dec k (k :: ks)) as [_|Hx']; [ring|exfalso; apply Hx'; left; auto].
    - rewrite (amount_at_absent t) by (left; rewrite Rk; intros [E|[]]; congruence).
      destruct (in_dec key_dec k ks) as [H|H], (in_dec key_dec k (k' :: ks)) as [G|G]; try ring.
      + exfalso; apply G; right; auto.
      + destruct G as [G|G]; [congruence|contradiction]. }
  rewrite (Q _ _ RR Gn). destruct (in_dec key_dec k gk) as [H|H]; auto.
  rewrite !amount_at_absent; [symmetry; apply qop_0; auto| |]; left; intros G; apply H, Gk; auto.
Qed.

Lemma loc_rows_cases Y ks : wf Y -> uniq_labels Y -> NoDup ks -> ks <> [] ->
  (exists k, In k ks /\ ~ In k (kdims Y)) /\ (exists e, loc_rows Y ks = Err e) \/
  (forall k, In k ks -> In k (kdims Y)) /\
  exists rows y', loc_rows Y ks = Ok y' /\ picked Y rows (seq 0 (ax1 (values Y))) y' /\ kdims y' = ks /\ NoDup rows /\ (forall x, In x rows -> (x < List.length (kdims Y))%nat).
Proof.
  intros W [U1 U2] Nk Hne. unfold loc_rows.
  assert (D : (forall k, In k ks -> In k (kdims Y)) \/ exists k, In k ks /\ ~ In k (kdims Y)).
  { clear -ks. induction ks as [|k ks IH]; [left; intros ? []|]. destruct (in_dec key_dec k (kdims Y)) as [H|H].
    - destruct IH as [IH|(k' & H1 & H2)]; [left; intros x [<-|Hx]; auto|right; exists k'; split; [right|]; auto].
    - right. exists k. split; [left|]; auto. }
  destruct D as [D|D]; [right|left].
  - split; auto.
    assert (G : forall l, (forall k, In k l -> In k (kdims Y)) -> exists rows,
      mapm (fun k => match rows_with Y k with [] => Err KeyError | l => Ok l end) l = Ok (map (fun i => [i]) rows) /\ sel (kdims Y) [] rows = l /\
      forall x, In x rows -> (x < List.length (kdims Y))%nat).
    { induction l as [|k l IH]; intros H; [exists []; split; auto; split; [auto|intros ? []]|].
      destruct IH as (rows & E & Es & Hr); [intros; apply H; right; auto|].
      destruct (filter_key_single _ _ U1 (H k (or_introl eq_refl))) as (i & Hi & Ei & Ef).
      exists (i :: rows). cbn [mapm]. unfold rows_with at 1. unfold row_key. rewrite Ef. cbn [rbind]. rewrite E. cbn [rbind map]. split; [auto|].
      split; [cbn; rewrite Ei; unfold sel in Es; congruence|]. intros x [<-|Hx]; auto. }
    destruct (G ks D) as (rows & E & Es & Hr). rewrite E. cbn [rbind].
    assert (Ec : List.concat (map (fun i : nat => [i]) rows) = rows) by (clear; induction rows; cbn; congruence). rewrite Ec.
    assert (Nr : NoDup rows).
    { rewrite <- Es in Nk. unfold sel in Nk. exact (NoDup_map_inv _ _ Nk). }
    destruct (iloc_rows_ok Y rows W Nr) as (y' & Ey & P); [intros ->; cbn in Es; congruence|exact Hr|].
    exists rows, y'. split; [auto|]. split; [auto|]. split; [rewrite (pk_k _ _ _ _ P); auto|]. auto.
  - split; auto. destruct D as (k & Hk & Hn).
    assert (G : forall l, In k l -> exists e, mapm (fun k => match rows_with Y k with [] => Err KeyError | l => Ok l end) l = Err e).
    { induction l as [|k' l IH]; [intros []|]. intros H. cbn [mapm].
      destruct (rows_with Y k') eqn:Er; [exists KeyError; auto|]. cbn [rbind].
      destruct H as [->|H].
      - unfold rows_with, row_key in Er. rewrite (filter_key_none _ _ Hn) in Er. discriminate.
      - destruct (IH H) as (e & ->). exists e. auto. }
    destruct (G ks Hk) as (e & ->). exists e. auto.
Qed.

Lemma wf_shaped t : wf t -> shaped t = true.
Proof. intros W. unfold shaped. rewrite (wf_k _ W), (wf_v _ W), (wf_o _ W), (wf_d _ W), !Nat.eqb_refl. reflexivity. Qed.

Lemma addsub_index op x y : is_addsub op -> wf x -> wf y -> uniq_labels x -> uniq_labels y -> full_keys x -> full_keys y ->
  key_labels y = key_labels x -> vdims y = vdims x -> odims y = odims x -> ddims y = ddims x -> ograin y = ograin x -> dgrain y = dgrain x ->
  (2 <= List.length (kdims x))%nat -> (2 <= List.length (kdims y))%nat -> blank_future x -> blank_future y ->
  exists u, tri_op op x y = Ok u /\ wf u /\ blank_future u /\ NoDup (kdims u) /\
   (forall k, In k (kdims u) <-> In k (kdims x) \/ In k (kdims y)) /\
   key_labels u = key_labels x /\ vdims u = vdims x /\ odims u = odims x /\ ddims u = ddims x /\ ograin u = ograin x /\ dgrain u = dgrain x /\
   is_cumulative u = is_cumulative x /\ vdate u <= Z.max (vdate x) (vdate y) /\
   (forall o d, (o < ax2 (values x))%nat -> (d < ax3 (values x))%nat -> (future u o d <-> future x o d /\ future y o d)) /\
   forall k v o m, amount_at u k v o m = qop op (amount_at x k v o m) (amount_at y k v o m).
Proof.
  intros Hop Wx Wy Ux Uy Fx Fy Ekl Ev Eo Ed Eog Edg Lx Ly Bx By.
  destruct (lhs_fields x y) as (Lk & Ll & Lv & Lo & Ld & La & Lvd & Lc & Log & Ldg).
  destruct (rhs_fields x y) as (Rk & Rl & Rv & Ro & Rd & Ra & Rvd & Rog & Rdg).
  pose proof (wf_lhs x y Wx Wy) as WX. pose proof (wf_rhs x y Wy) as WY.
  set (X := lhs x y) in *. set (Y := rhs x y) in *.
  assert (UX : uniq_labels X) by (destruct Ux; split; [rewrite Lk|rewrite Lv]; auto).
  assert (UY : uniq_labels Y) by (destruct Uy; split; [rewrite Rk|rewrite Rv]; auto).
  assert (FX : full_keys X) by (unfold full_keys; rewrite Lk, Ll; auto).
  assert (FY : full_keys Y) by (unfold full_keys; rewrite Rk, Rl; auto).
  assert (MX : forall o d, month_of X o d = month_of x o d) by (intros; unfold month_of; rewrite Lo, Ld; auto).
  assert (MY : forall o d, month_of Y o d = month_of x o d) by (intros; unfold month_of; rewrite Ro, Rd, Eo, Ed; auto).
  assert (My : forall o d, month_of y o d = month_of x o d) by (intros; unfold month_of; rewrite Eo, Ed; auto).
  assert (BX : blank_future X).
  { intros i c o d R Hf. unfold cel, in_range in *. rewrite La in *. apply Bx; auto. unfold future in *. rewrite MX, Lvd in Hf. lia. }
  assert (BY : blank_future Y).
  { intros i c o d R Hf. unfold cel, in_range in *. rewrite Ra in *. apply By; auto. unfold future in *. rewrite My. rewrite MY, Rvd in Hf. lia. }
  assert (AX : forall k v o m, amount_at X k v o m = amount_at x k v o m).
  { intros. unfold amount_at, amount, cel. rewrite Lk, Lv, Lo, Ld, La. reflexivity. }
  assert (AY : forall k v o m, amount_at Y k v o m = amount_at y k v o m).
  { intros. unfold amount_at, amount, cel. rewrite Rk, Rv, Ro, Rd, Ra. reflexivity. }
  assert (S1 : ax1 (values y) = ax1 (values x)) by (rewrite (wf_v _ Wx), (wf_v _ Wy), Ev; auto).
  assert (S2 : ax2 (values y) = ax2 (values x)) by (rewrite (wf_o _ Wx), (wf_o _ Wy), Eo; auto).
  assert (S3 : ax3 (values y) = ax3 (values x)) by (rewrite (wf_d _ Wx), (wf_d _ Wy), Ed; auto).
  assert (EV : validate x y = prep_index X Y).
  { rewrite validate_unfold by (apply compatible_same; auto). fold X Y.
    rewrite prep_columns_same by (rewrite ?Rv, ?Lv, ?Ra, ?La; auto). cbn [rbind fst snd].
    rewrite prep_od_same; [reflexivity|rewrite ?Ro, ?Lo, ?Rd, ?Ld, ?Ra, ?La; auto..| |].
    - rewrite Lo, <- (wf_o _ Wx); apply (wf_o1 _ Wx).
    - rewrite Ld, <- (wf_d _ Wx); apply (wf_d1 _ Wx). }
  assert (FIN : forall Z P, P = Grouped Z Y -> wf Z -> uniq_labels Z -> full_keys Z -> key_labels Z = key_labels x -> vdims Z = vdims x -> odims Z = odims x ->
     ddims Z = ddims x -> ograin Z = ograin x -> dgrain Z = dgrain x -> is_cumulative Z = is_cumulative x -> vdate Z <= vdate X ->
     (forall o d, (o < ax2 (values X))%nat -> (d < ax3 (values X))%nat -> (vdate Z <? month_of X o d) = (vdate X <? month_of X o d)) ->
     (forall k, In k (kdims Z) <-> In k (kdims x)) -> (1 <= List.length (kdims Z))%nat -> blank_future Z ->
     (forall k v o m, amount_at Z k v o m = amount_at X k v o m) ->
     prep_index X Y = Ok P -> exists u, tri_op op x y = Ok u /\ wf u /\ blank_future u /\ NoDup (kdims u) /\
       (forall k, In k (kdims u) <-> In k (kdims x) \/ In k (kdims y)) /\
       key_labels u = key_labels x /\ vdims u = vdims x /\ odims u = odims x /\ ddims u = ddims x /\ ograin u = ograin x /\ dgrain u = dgrain x /\
       is_cumulative u = is_cumulative x /\ vdate u <= Z.max (vdate x) (vdate y) /\
       (forall o d, (o < ax2 (values x))%nat -> (d < ax3 (values x))%nat -> (future u o d <-> future x o d /\ future y o d)) /\
       forall k v o m, amount_at u k v o m = qop op (amount_at x k v o m) (amount_at y k v o m)).
  { intros Z P -> WZ UZ FZ Zkl Zv Zo Zd Zog Zdg Zc Zle Zfut Zk Zl ZB ZA EP.
    unfold tri_op. rewrite EV, EP. cbn [rbind].
    destruct (grouped_ok op Z Y Hop WZ WY UZ UY FZ FY) as (u & Eu & Wu & Bu & Nu & Ku & K1 & K2 & K3 & K4 & K5 & K6 & K7 & K8 & K9 & K10); try congruence; auto.
    - rewrite Rk. lia.
    - exists u. split; [exact Eu|]. do 3 (split; [auto|]). split; [intros k; rewrite Ku, Zk, Rk; tauto|].
      do 7 (split; [congruence|]). split; [lia|]. split.
      + intros o d Ho Hd. unfold future. rewrite My.
        assert (Mu : month_of u o d = month_of x o d) by (unfold month_of; rewrite K3, K4, Zo, Zd; auto). rewrite Mu.
        assert (MZ : month_of Z o d = month_of x o d) by (unfold month_of; rewrite Zo, Zd; auto).
        specialize (K9 o d). rewrite MZ in K9. specialize (Zfut o d). rewrite MX in Zfut. rewrite Zfut in K9 by (rewrite La; auto).
        rewrite (wf_o _ WZ), (wf_d _ WZ), Zo, Zd, <- (wf_o _ Wx), <- (wf_d _ Wx) in K9. specialize (K9 Ho Hd).
        rewrite <- !Z.ltb_lt. rewrite K9, Lvd, Rvd, ltb_max.
        destruct (vdate x <? month_of x o d), (vdate y <? month_of x o d); cbn; intuition congruence.
      + intros k v o m. rewrite K10, ZA, AX, AY. reflexivity. }
  assert (EP : prep_index X Y =
     if negb (List.length (kdims X) =? List.length (kdims Y))%nat then Ok (Grouped X Y)
     else if negb (keys_eqb (kdims X) (kdims Y)) then
        do x' <- sort_index X;
        match loc_rows Y (kdims x') with Ok y' => Ok (Plain x' (values y')) | Err _ => Ok (Grouped x' Y) end
     else Ok (Plain X (values Y))).
  { unfold prep_index. rewrite Lk, Rk, Ll, Rl, Ekl, mem_str_all, !wf_shaped, strs_eqb_refl by auto. cbn [andb orb negb].
    destruct (Nat.eqb_spec (List.length (kdims x)) 1); [lia|]. destruct (Nat.eqb_spec (List.length (kdims y)) 1); [lia|].
    cbn [andb]. rewrite andb_false_r. destruct (Nat.ltb_spec 1 (List.length (kdims x))); [|lia]. cbn [andb]. reflexivity. }
  rewrite Lk, Rk in EP.
  destruct (Nat.eqb_spec (List.length (kdims x)) (List.length (kdims y))) as [El|El]; cbn [negb] in EP.
  2:{ apply (FIN X _ eq_refl); auto; try lia; try tauto; rewrite Lk; try lia; try tauto. }
  destruct (keys_eqb (kdims x) (kdims y)) eqn:Eq; cbn [negb] in EP.
  - apply keys_eqb_eq in Eq. assert (SA : same_axes x y) by (constructor; auto).
    destruct (addsub_same op x y Hop Wx Wy SA Bx By) as (u & Eu & Wu & J & Su & Bu & St). exists u.
    destruct J as (J1 & J2 & J3 & J4 & J5 & J6 & J7 & J8 & J9 & J10).
    split; [auto|]. do 2 (split; [auto|]). split; [rewrite J1; apply Ux|]. split; [intros k; rewrite J1, <- Eq; tauto|].
    do 7 (split; [auto|]). split; [lia|]. split.
    + intros o d Ho Hd. unfold future. rewrite My. assert (Mu : month_of u o d = month_of x o d) by (unfold month_of; rewrite J4, J5; auto). rewrite Mu, J6. lia.
    + assert (Uu : uniq_labels u) by (destruct Ux; split; [rewrite J1|rewrite J3]; auto).
      apply amount_at_fun; auto.
      * intros i c o d R. assert (Rx : in_range x i c o d) by (apply (range_same_axes u x i c o d Wu Wx (same_axes_sym _ _ Su)); exact R).
        rewrite J1, J3, J4, J5, amount_at_pos by auto. rewrite Eq, <- Ev, <- Eo, <- Ed, amount_at_pos; auto; [|apply (range_same_axes x y); auto].
        unfold amount at 1. apply stores_nz, St; auto.
      * intros k v o a Hn. unfold has_labels in Hn. rewrite J1, J3, J4, J5 in Hn.
        rewrite !not_has_labels; [apply qop_0; auto| |]; unfold has_labels; rewrite <- ?Eq, ?Ev, ?Eo, ?Ed; auto.
  - destruct (sort_index_ok X WX UX) as (x' & Ex' & Wx' & Ux' & Pk & Skl & Sv & So & Sd & Sog & Sdg & Scum & Spat & Sle & Sfut & Sb & Sa); [rewrite Lk; lia|].
    rewrite Ex' in EP. cbn [rbind] in EP. specialize (Sb BX).
    assert (Kx' : forall k, In k (kdims x') <-> In k (kdims x)).
    { intros k. rewrite <- Lk. split; apply Permutation_in; auto using Permutation_sym. }
    assert (Lx' : List.length (kdims x') = List.length (kdims x)) by (rewrite (Permutation_length Pk), Lk; auto).
    destruct (loc_rows_cases Y (kdims x') WY UY) as [[_ (e & Ee)]|[Hin (rows & y' & Ey' & P & Ky' & Nr & Hr)]].
    + apply Ux'.
    + intros E. rewrite E in Lx'. cbn in Lx'. lia.
    + rewrite Ee in EP. apply (FIN x' _ eq_refl); auto; try congruence; try lia.
      intros k Hk. rewrite Skl, Ll. apply Fx. apply Kx'; auto.
    + rewrite Ey' in EP. unfold tri_op. rewrite EV, EP. cbn [rbind].
      assert (Hc : forall c, In c (seq 0 (ax1 (values Y))) -> (c < List.length (vdims Y))%nat) by (intros c Hc; apply in_seq in Hc; rewrite <- (wf_v _ WY); lia).
      assert (Vy' : vdims y' = vdims Y) by (rewrite (pk_v _ _ _ _ P); apply sel_seq_all; apply WY).
      assert (Fx' : forall o d, (o < ax2 (values x))%nat -> (d < ax3 (values x))%nat -> (vdate x' <? month_of x o d) = (vdate x <? month_of x o d) && (vdate y <? month_of x o d)).
      { intros o d Ho Hd. specialize (Sfut o d). rewrite MX, La in Sfut. rewrite Sfut by auto. rewrite Lvd. apply ltb_max. }
      assert (Mx' : forall o d, month_of x' o d = month_of x o d) by (intros; unfold month_of; rewrite So, Sd, Lo, Ld; auto).
      assert (Ay' : forall k v o m, amount_at y' k v o m = amount_at y k v o m).
      { intros k v o m. rewrite <- AY. assert (Kk : In k (kdims y') <-> In k (kdims Y)).
        { rewrite Ky'. split; auto. intros Hk.
          assert (I1 : incl (kdims x') (kdims Y)) by (intros z Hz; auto).
          assert (I2 : incl (kdims Y) (kdims x')).
          { apply NoDup_length_incl; [apply Ux'|rewrite Lx', Rk; lia|auto]. }
          apply I2; auto. }
        destruct (in_dec key_dec k (kdims Y)) as [H1|H1]; [destruct (in_dec string_dec v (vdims Y)) as [H2|H2]|].
        - apply (amount_at_picked Y rows (seq 0 (ax1 (values Y)))); auto; [apply seq_NoDup|apply Kk; auto|rewrite Vy'; auto].
        - rewrite !amount_at_absent; auto. right; left; rewrite Vy'; auto.
        - rewrite !amount_at_absent; auto. left. rewrite Kk. auto. }
      assert (By' : blank_future y').
      { refine (picked_blank _ _ _ _ P _ _ BY).
        - intros z Hz. rewrite (wf_k _ WY). auto.
        - intros z Hz. apply in_seq in Hz. lia. }
      destruct (finish op x' y' Hop Wx' (pk_wf _ _ _ _ P) Ux') as (u & Eu & Wu & F & Bu & Hcu & Hpu & Am); auto.
      * rewrite Vy', Rv, Ev, Sv, Lv. auto.
      * rewrite (pk_o _ _ _ _ P), Ro, So, Lo. auto.
      * rewrite (pk_d _ _ _ _ P), Rd, Sd, Ld. auto.
      * intros i c o d R Hf. split; [apply Sb; auto|].
        assert (Ho : (o < ax2 (values x))%nat) by (destruct R as (_ & _ & R & _); rewrite (wf_o _ Wx'), So, Lo, <- (wf_o _ Wx) in R; auto).
        assert (Hd : (d < ax3 (values x))%nat) by (destruct R as (_ & _ & _ & R); rewrite (wf_d _ Wx'), Sd, Ld, <- (wf_d _ Wx) in R; auto).
        apply By'.
        -- unfold in_range in *. rewrite (wf_k _ Wx'), (wf_v _ Wx'), Sv, Lv in R. rewrite (pk_0 _ _ _ _ P), (pk_1 _ _ _ _ P), (pk_2 _ _ _ _ P), (pk_3 _ _ _ _ P), seq_length, Ra, S1, S2, S3.
           rewrite <- Ky', (pk_k _ _ _ _ P) in R. rewrite sel_length in R. rewrite (wf_v _ Wx). tauto.
        -- unfold future in *. rewrite Mx' in Hf. apply Z.ltb_lt in Hf. rewrite Fx' in Hf by auto. apply andb_true_iff in Hf. destruct Hf as [Hf1 Hf2].
           rewrite (picked_month _ _ _ _ o d P), MY. apply Z.ltb_lt. pose proof (pk_fut _ _ _ _ P o d) as G. rewrite MY in G. rewrite G by (rewrite Ra; lia). rewrite Rvd. auto.
      * exists u. split; [exact Eu|]. do 2 (split; [auto|]). split; [rewrite (sf_k _ _ F); apply Ux'|]. split.
        { intros k. rewrite (sf_k _ _ F), Kx'. split; auto. intros [Hk|Hk]; auto. apply Kx'.
          assert (I2 : incl (kdims Y) (kdims x')).
          { apply NoDup_length_incl; [apply Ux'|rewrite Lx', Rk; lia|intros z Hz; auto]. }
          apply I2. rewrite Rk. auto. }
        split; [rewrite (sf_kl _ _ F); congruence|]. split; [rewrite (sf_v _ _ F); congruence|]. split; [rewrite (sf_o _ _ F); congruence|].
        split; [rewrite (sf_d _ _ F); congruence|]. split; [rewrite (sf_og _ _ F); congruence|]. split; [rewrite (sf_dg _ _ F); congruence|].
        split; [congruence|]. split; [rewrite (sf_vd _ _ F); lia|]. split.
        -- intros o d Ho Hd. unfold future. rewrite My. assert (Mu : month_of u o d = month_of x o d) by (unfold month_of; rewrite (sf_o _ _ F), (sf_d _ _ F), So, Sd, Lo, Ld; auto).
           rewrite Mu, (sf_vd _ _ F). rewrite <- !Z.ltb_lt. rewrite Fx' by auto. rewrite andb_true_iff. tauto.
        -- intros k v o m. rewrite Am, Ay', Sa, AX. reflexivity.
Qed.

(** Key labels that are not nested: neither operand can be broadcast over the other. *)
Lemma index_labels_raise op x y : wf x -> wf y -> vdims y = vdims x -> odims y = odims x -> ddims y = ddims x -> ograin y = ograin x -> dgrain y = dgrain x ->
  (2 <= List.length (kdims x))%nat -> (2 <= List.length (kdims y))%nat ->
  (exists l, In l (key_labels x) /\ ~ In l (key_labels y)) -> (exists l, In l (key_labels y) /\ ~ In l (key_labels x)) ->
  tri_op op x y = Err ValueError.
Proof.
  intros Wx Wy Ev Eo Ed Eog Edg Lx Ly (l & Hl1 & Hl2) (m & Hm1 & Hm2).
  destruct (lhs_fields x y) as (Lk & Ll & Lv & Lo & Ld & La & Lvd & Lc & Log & Ldg).
  destruct (rhs_fields x y) as (Rk & Rl & Rv & Ro & Rd & Ra & Rvd & Rog & Rdg).
  assert (S1 : ax1 (values y) = ax1 (values x)) by (rewrite (wf_v _ Wx), (wf_v _ Wy), Ev; auto).
  assert (S2 : ax2 (values y) = ax2 (values x)) by (rewrite (wf_o _ Wx), (wf_o _ Wy), Eo; auto).
  assert (S3 : ax3 (values y) = ax3 (values x)) by (rewrite (wf_d _ Wx), (wf_d _ Wy), Ed; auto).
  unfold tri_op. rewrite validate_unfold by (apply compatible_same; auto).
  rewrite prep_columns_same by (rewrite ?Rv, ?Lv, ?Ra, ?La; auto). cbn [rbind fst snd].
  rewrite prep_od_same; [|rewrite ?Ro, ?Lo, ?Rd, ?Ld, ?Ra, ?La; auto..| |].
  2: rewrite Lo, <- (wf_o _ Wx); apply (wf_o1 _ Wx).
  2: rewrite Ld, <- (wf_d _ Wx); apply (wf_d1 _ Wx).
  cbn [rbind fst snd]. unfold prep_index. rewrite Lk, Rk, Ll, Rl.
  destruct (Nat.eqb_spec (List.length (kdims x)) 1); [lia|]. destruct (Nat.eqb_spec (List.length (kdims y)) 1); [lia|].
  cbn [andb]. rewrite andb_false_r.
  assert (N : forall a b z, In z a -> ~ In z b -> subset_str a b = false).
  { intros a b z Hz Hn. unfold subset_str. destruct (forallb _ a) eqn:E; auto. exfalso. rewrite forallb_forall in E. apply Hn. apply mem_str_In. auto. }
  rewrite (N _ _ _ Hl1 Hl2), (N _ _ _ Hm1 Hm2). reflexivity.
Qed.
