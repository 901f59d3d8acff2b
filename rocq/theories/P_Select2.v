(** Proofs about filters, named columns and column assignment. *)
From Coq Require Import Lia.
From Verif Require Import ArrFacts TriFacts P_Core P_Loc P_Align P_Align2 P_Methods P_Select SpecSelect.
From Verif Require Import Pandas.
Local Open Scope Z_scope.

(** * Filters *)
Lemma every_pos n : (1 <= n)%nat -> asks_for (KSlice None None None) n (every n) /\ plain_key (KSlice None None None) n (every n).
Proof.
  intros H. split; [apply (positions_all n)|]. split; [destruct n; [lia|discriminate]|left; reflexivity].
Qed.
Lemma every_in n x : In x (every n) <-> (x < n)%nat.
Proof. unfold every. rewrite in_seq. lia. Qed.

Lemma rows_taken t ps : wf t -> (1 <= ax1 (values t))%nat -> ps <> [] -> NoDup ps -> (forall x, In x ps -> (x < ax0 (values t))%nat) ->
  exists u, iloc_rows t ps = Ok u /\ taken t u ps (every (ax1 (values t))) (every (ax2 (values t))) (every (ax3 (values t))) /\
    (no_ultimate t -> latest_left t u (every (ax2 (values t))) (every (ax3 (values t)))).
Proof.
  intros W H1 Hne N Hi. destruct (every_pos _ H1) as (A1 & P1). destruct (every_pos _ (wf_o1 _ W)) as (A2 & P2). destruct (every_pos _ (wf_d1 _ W)) as (A3 & P3).
  destruct (iloc_ok t (KList (map Z.of_nat ps)) (KSlice None None None) (KSlice None None None) (KSlice None None None) ps _ _ _ W (asks_list ps _ Hi) A1 A2 A3 (plain_list ps _ Hne N) P1 P2 P3 I I)
    as (u & Eu & T & L). exists u. split; [|auto]. unfold iloc in Eu. rewrite norm_list, !norm_all in Eu by auto. exact Eu.
Qed.
Lemma find_str_at l p x : NoDup l -> nth_error l p = Some x -> find_str x l = Ok p.
Proof.
  intros N E. destruct (find_str_In x l) as (k & -> & Hk & En); [eapply nth_error_In; eauto|]. f_equal.
  rewrite NoDup_nth_error in N. apply N; auto. rewrite (nth_error_nth' l EmptyString Hk). congruence.
Qed.
Lemma cols_taken t cols ps : wf t -> NoDup (vdims t) -> (1 <= ax0 (values t))%nat -> cols <> [] -> NoDup ps ->
  Forall2 (fun c p => nth_error (vdims t) p = Some c) cols ps ->
  exists u, getitem_cols t cols = Ok u /\ taken t u (every (ax0 (values t))) ps (every (ax2 (values t))) (every (ax3 (values t))) /\
    (no_ultimate t -> latest_left t u (every (ax2 (values t))) (every (ax3 (values t)))).
Proof.
  intros W U H0 Hne N F.
  assert (Hi : forall x, In x ps -> (x < ax1 (values t))%nat).
  { intros x Hx. rewrite (wf_v _ W). clear N Hne. induction F as [|c p cols ps H F IH]; [destruct Hx|]. destruct Hx as [<-|Hx]; auto. apply nth_error_Some. congruence. }
  assert (Hp : ps <> []) by (intros ->; inversion F; subst; auto).
  destruct (every_pos _ H0) as (A1 & P1). destruct (every_pos _ (wf_o1 _ W)) as (A2 & P2). destruct (every_pos _ (wf_d1 _ W)) as (A3 & P3).
  destruct (iloc_ok t (KSlice None None None) (KList (map Z.of_nat ps)) (KSlice None None None) (KSlice None None None) _ ps _ _ W A1 (asks_list ps _ Hi) A2 A3 P1 (plain_list ps _ Hp N) P2 P3 I I)
    as (u & Eu & T & L). exists u. split; [|auto]. unfold iloc in Eu. rewrite norm_list, !norm_all in Eu by auto. cbn [rbind] in Eu.
  unfold getitem_cols. replace (mapm (fun c => find_str c (vdims t)) cols) with (@Ok (list nat) ps); [exact Eu|]. symmetry.
  clear - F U. induction F as [|c p cols ps H F IH]; auto. cbn [mapm]. rewrite (find_str_at _ _ _ U H). cbn [rbind]. rewrite IH. reflexivity.
Qed.
Lemma name_taken t name p : wf t -> NoDup (vdims t) -> (1 <= ax0 (values t))%nat -> ~ In name (key_labels t) -> nth_error (vdims t) p = Some name ->
  exists u, getitem_name t name = Ok (GotTri u) /\ taken t u (every (ax0 (values t))) [p] (every (ax2 (values t))) (every (ax3 (values t))) /\
    (no_ultimate t -> latest_left t u (every (ax2 (values t))) (every (ax3 (values t)))).
Proof.
  intros W U H0 Hk E. destruct (cols_taken t [name] [p] W U H0) as (u & Eu & T); [discriminate|repeat constructor; intros []|repeat constructor; auto|].
  exists u. split; auto. unfold getitem_name. rewrite Eu. destruct (mem_str name (key_labels t)) eqn:M; [|reflexivity].
  exfalso. apply Hk. unfold mem_str in M. apply existsb_exists in M. destruct M as (x & Hx & Ex). apply String.eqb_eq in Ex. congruence.
Qed.
Lemma name_key t name : In name (key_labels t) -> exists j, nth_error (key_labels t) j = Some name /\ (forall i, (i < j)%nat -> nth_error (key_labels t) i <> Some name) /\
  getitem_name t name = Ok (GotIndex (map (fun k => nth j k EmptyString) (kdims t))).
Proof.
  intros H. exists (pos_of name (key_labels t)). unfold getitem_name.
  assert (M : mem_str name (key_labels t) = true) by (unfold mem_str; apply existsb_exists; exists name; split; auto; apply String.eqb_refl). rewrite M.
  assert (G : nth_error (key_labels t) (pos_of name (key_labels t)) = Some name /\ (forall i, (i < pos_of name (key_labels t))%nat -> nth_error (key_labels t) i <> Some name)); [|tauto].
  clear M. induction (key_labels t) as [|x l IH]; [destruct H|]. cbn [pos_of]. destruct (String.eqb_spec name x) as [->|Hne].
  - split; auto. intros i Hi. lia.
  - destruct H as [H|H]; [congruence|]. destruct (IH H) as (A & B). split; auto. intros [|i] Hi; cbn; [congruence|]. apply B. lia.
Qed.
Lemma name_missing t name : ~ In name (key_labels t) -> ~ In name (vdims t) -> getitem_name t name = Err ValueError.
Proof.
  intros Hk Hv. unfold getitem_name, getitem_cols.
  destruct (mem_str name (key_labels t)) eqn:M; [exfalso; apply Hk; unfold mem_str in M; apply existsb_exists in M; destruct M as (x & Hx & Ex); apply String.eqb_eq in Ex; congruence|].
  cbn [mapm]. replace (find_str name (vdims t)) with (@Err nat ValueError); [reflexivity|]. symmetry.
  clear - Hv. induction (vdims t) as [|x l IH]; auto. cbn [find_str]. destruct (String.eqb_spec name x) as [->|]; [exfalso; apply Hv; left; auto|]. rewrite IH; auto. intros H. apply Hv. right; auto.
Qed.
Lemma index_filter t m ps : wf t -> (1 <= ax1 (values t))%nat -> List.length m = ax0 (values t) -> positions_where (fun p => nth_error m p = Some true) ps -> ps <> [] ->
  exists u, getitem_index t m = Ok u /\ taken t u ps (every (ax1 (values t))) (every (ax2 (values t))) (every (ax3 (values t))) /\
    (no_ultimate t -> latest_left t u (every (ax2 (values t))) (every (ax3 (values t)))).
Proof.
  intros W H1 Hm P Hne. destruct (rows_taken t ps W H1 Hne (where_NoDup _ _ P)) as (u & Eu & T).
  { intros x Hx. apply P in Hx. rewrite <- Hm. apply nth_error_Some. congruence. }
  exists u. split; auto. unfold getitem_index. rewrite Hm, (wf_k _ W), Nat.eqb_refl. cbn [negb].
  rewrite (where_unique _ _ _ (where_true_ok m) P). auto.
Qed.

Lemma sel_taken t p0 p1 p2 p3 : taken t (sel_tri t p0 p1 p2 p3) p0 p1 p2 p3.
Proof. constructor; try reflexivity. unfold sel_tri. cbn [ddims]. destruct (ddims t); reflexivity. Qed.
Lemma filter_nth m n ps : List.length m = n -> positions_where (fun p => nth_error m p = Some true) ps -> filter (fun p => nth p m false) (seq 0 n) = ps.
Proof. intros <- P. apply (where_unique _ _ _ (where_true_ok m) P). Qed.
Lemma where_lt m n ps x : List.length m = n -> positions_where (fun p => nth_error m p = Some true) ps -> In x ps -> (x < n)%nat.
Proof. intros <- P Hx. apply P in Hx. apply nth_error_Some. congruence. Qed.

Lemma origin_filter t m ps : wf t -> List.length m = ax2 (values t) -> positions_where (fun p => nth_error m p = Some true) ps -> ps <> [] ->
  exists u, getitem_array t m = Ok u /\ taken t u (every (ax0 (values t))) (every (ax1 (values t))) ps (every (ax3 (values t))) /\ vdate u = vdate t.
Proof.
  intros W Hm P Hne. exists (sel_tri t (every (ax0 (values t))) (every (ax1 (values t))) ps (every (ax3 (values t)))). split; [|split; [apply sel_taken|reflexivity]].
  unfold getitem_array. rewrite Hm. pose proof (wf_o1 _ W). pose proof (wf_d1 _ W).
  replace ((ax2 (values t) =? ax2 (values t) * ax3 (values t)) && (1 <? ax3 (values t)))%nat with false.
  2:{ symmetry. apply andb_false_iff. destruct (Nat.ltb_spec 1 (ax3 (values t))); [left|auto]. apply Nat.eqb_neq. nia. }
  rewrite Nat.eqb_refl. cbn [negb]. unfold slice_origin. rewrite (filter_nth m _ ps Hm P).
  destruct (contig_total (map Z.of_nat ps)) as (s & Es); [destruct ps; [congruence|discriminate]|]. rewrite Es. cbn [rbind].
  pose proof (contig_slice_positions ps (ax2 (values t)) s Es (where_NoDup _ _ P) (fun x => where_lt m _ ps x Hm P)) as Ps.
  destruct s; [rewrite Ps|]; reflexivity.
Qed.
Lemma age_filter t m ps : wf t -> List.length m = ax3 (values t) -> positions_where (fun p => nth_error m p = Some true) ps -> ps <> [] ->
  exists u, getitem_dev t m = Ok u /\ taken t u (every (ax0 (values t))) (every (ax1 (values t))) (every (ax2 (values t))) ps /\ vdate u = vdate t.
Proof.
  intros W Hm P Hne. exists (sel_tri t (every (ax0 (values t))) (every (ax1 (values t))) (every (ax2 (values t))) ps). split; [|split; [apply sel_taken|reflexivity]].
  unfold getitem_dev. rewrite Hm, Nat.eqb_refl. cbn [negb]. unfold slice_dev. rewrite (filter_nth m _ ps Hm P).
  destruct (contig_total (map Z.of_nat ps)) as (s & Es); [destruct ps; [congruence|discriminate]|]. rewrite Es. cbn [rbind].
  pose proof (contig_slice_positions ps (ax3 (values t)) s Es (where_NoDup _ _ P) (fun x => where_lt m _ ps x Hm P)) as Ps.
  rewrite Ps. reflexivity.
Qed.
(** A boolean array with one entry per cell, listed age by age, is the valuation filter of C17. *)
Lemma array_valuation t m : (1 < ax3 (values t))%nat -> List.length m = (ax2 (values t) * ax3 (values t))%nat ->
  getitem_array t m = getitem_valuation t (fun o d => nth (d * ax2 (values t) + o)%nat m false).
Proof.
  intros H E. unfold getitem_array, getitem_valuation. rewrite E, Nat.eqb_refl. destruct (Nat.ltb_spec 1 (ax3 (values t))); [|lia]. reflexivity.
Qed.

Lemma flat_at {A} (f : nat -> nat -> A) no dflt : forall nd s o d, (o < no)%nat -> (d < nd)%nat ->
  nth (d * no + o) (flat_map (fun d => map (fun o => f o d) (seq 0 no)) (seq s nd)) dflt = f o (s + d)%nat.
Proof.
  induction nd as [|nd IH]; intros s o d Ho Hd; [lia|]. cbn [seq flat_map]. destruct d as [|d].
  - rewrite app_nth1 by (rewrite map_length, seq_length; lia). cbn [Nat.mul Nat.add]. rewrite (nth_indep _ _ (f 0%nat s)) by (rewrite map_length, seq_length; lia).
    rewrite (map_nth (fun o => f o s)), seq_nth by lia. f_equal; lia.
  - rewrite app_nth2 by (rewrite map_length, seq_length; nia). rewrite map_length, seq_length. replace (S d * no + o - no)%nat with (d * no + o)%nat by nia. rewrite IH by lia. f_equal; lia.
Qed.
Lemma flat_length {A} (f : nat -> nat -> A) no : forall nd s, List.length (flat_map (fun d => map (fun o => f o d) (seq 0 no)) (seq s nd)) = (no * nd)%nat.
Proof. induction nd as [|nd IH]; intros s; [cbn; lia|]. cbn [seq flat_map]. rewrite app_length, map_length, seq_length, IH. lia. Qed.
Lemma cell_filter t key : wf t -> (2 <= ax3 (values t))%nat ->
  (exists o d, (o < ax2 (values t))%nat /\ (d < ax3 (values t))%nat /\ key o d = true) ->
  evenly (ax2 (values t)) (fun o => exists d, (d < ax3 (values t))%nat /\ key o d = true) ->
  evenly (ax3 (values t)) (fun d => exists o, (o < ax2 (values t))%nat /\ key o d = true) ->
  exists u, getitem_array t (age_by_age t key) = Ok u /\ wf u /\ kdims u = kdims t /\ vdims u = vdims t /\
    (forall o, (o < ax2 (values t))%nat -> (In (nth o (odims t) 0) (odims u) <-> exists d, (d < ax3 (values t))%nat /\ key o d = true)) /\
    (forall d, (d < ax3 (values t))%nat -> (In (nth d (dlist (ddims t)) 0) (dlist (ddims u)) <-> exists o, (o < ax2 (values t))%nat /\ key o d = true)) /\
    (forall i c o d o' d', in_range t i c o d -> in_range u i c o' d' ->
       nth o' (odims u) 0 = nth o (odims t) 0 -> nth d' (dlist (ddims u)) 0 = nth d (dlist (ddims t)) 0 ->
       cel u i c o' d' = if key o d then n2n (cel t i c o d) else None).
Proof.
  intros W Hn Hex Er Ec. set (key' := fun o d => nth (d * ax2 (values t) + o)%nat (age_by_age t key) false).
  assert (K : forall o d, (o < ax2 (values t))%nat -> (d < ax3 (values t))%nat -> key' o d = key o d) by (intros o d Ho Hd; unfold key', age_by_age; rewrite flat_at; auto).
  destruct (valuation_filter t key' W Hn) as (u & Eu & Wu & E1 & E2 & _ & A & B & C & _).
  - destruct Hex as (o & d & Ho & Hd & H). exists o, d. rewrite K; auto.
  - eapply evenly_ext; [|exact Er]. intros x Hx. cbv beta. split; intros (d & Hd & H); exists d; (split; [auto|]); [rewrite K|rewrite <- K]; auto.
  - eapply evenly_ext; [|exact Ec]. intros x Hx. cbv beta. split; intros (o & Ho & H); exists o; (split; [auto|]); [rewrite K|rewrite <- K]; auto.
  - exists u. split. { rewrite array_valuation; [exact Eu|lia|apply flat_length]. }
    split; [auto|]. split; [auto|]. split; [auto|]. split.
    { intros o Ho. rewrite A by auto. split; intros (d & Hd & H); exists d; (split; [auto|]); [rewrite <- K|rewrite K]; auto. }
    split. { intros d Hd. rewrite B by auto. split; intros (o & Ho & H); exists o; (split; [auto|]); [rewrite <- K|rewrite K]; auto. }
    intros i c o d o' d' R R' L1 L2. rewrite (C i c o d o' d' R R' L1 L2). destruct R as (_ & _ & Ho & Hd). rewrite K by auto. reflexivity.
Qed.

(** * Unknown labels *)
Lemma other_unknown {A} (eqb ltb : A -> A -> bool) (Heq : forall x y, eqb x y = true <-> x = y) l k x :
  ~ In x l -> (k = LOne x \/ exists xs, k = LList xs /\ In x xs) -> other_key eqb ltb l k = Err KeyError.
Proof.
  intros H [-> |(xs & -> & Hx)]; cbn [other_key]; [rewrite at_label_none; auto|].
  assert (G : mapm (fun y => match at_label eqb l y with [] => Err KeyError | ps => Ok ps end) xs = Err KeyError); [|rewrite G; reflexivity].
  induction xs as [|y xs IH]; [destruct Hx|]. cbn [mapm]. destruct Hx as [->|Hx]; [rewrite at_label_none; auto|]. rewrite IH by auto.
  destruct (at_label eqb l y); reflexivity.
Qed.
Lemma loc_unknown_column t ki kc ko kd x : ~ In x (vdims t) -> (kc = LOne x \/ exists xs, kc = LList xs /\ In x xs) -> exists e, loc t ki kc ko kd = Err e.
Proof.
  intros H K. unfold loc. destruct (index_key t ki) as [ps|e]; [|eexists; reflexivity]. cbn [rbind].
  rewrite (other_unknown String.eqb str_ltb String.eqb_eq _ _ x H K). eexists. reflexivity.
Qed.
Lemma loc_unknown_origin t ki kc ko kd x : ~ In x (odims t) -> (ko = LOne x \/ exists xs, ko = LList xs /\ In x xs) -> exists e, loc t ki kc ko kd = Err e.
Proof.
  intros H K. unfold loc. destruct (index_key t ki) as [ps|e]; [|eexists; reflexivity]. cbn [rbind].
  destruct (other_key _ _ (vdims t) kc) as [s|e]; [|eexists; reflexivity]. cbn [rbind].
  assert (exists e, origin_key t ko = Err e) as (e & ->); [|eexists; reflexivity].
  pose proof (other_unknown Z.eqb Z.ltb Z.eqb_eq _ _ x H K) as E. unfold origin_key. destruct K as [-> |(xs & -> & _)]; destruct (_ && _); eauto.
Qed.
Lemma loc_unknown_age t ki kc ko kd x : ~ In x (dlist (ddims t)) -> (kd = LOne x \/ exists xs, kd = LList xs /\ In x xs) -> exists e, loc t ki kc ko kd = Err e.
Proof.
  intros H K. unfold loc. destruct (index_key t ki) as [ps|e]; [|eexists; reflexivity]. cbn [rbind].
  destruct (other_key _ _ (vdims t) kc) as [s|e]; [|eexists; reflexivity]. cbn [rbind].
  destruct (origin_key t ko) as [s2|e]; [|eexists; reflexivity]. cbn [rbind].
  assert (exists e, dev_key t kd = Err e) as (e & ->); [|eexists; reflexivity].
  pose proof (other_unknown Z.eqb Z.ltb Z.eqb_eq _ _ x H K) as E. unfold dev_key. destruct (ddims t) as [l|l]; destruct K as [-> |(xs & -> & _)]; try destruct (is_pattern t); eauto.
Qed.
Lemma loc_unknown_key t ki kc ko kd k : ~ In k (kdims t) -> (exists ks, ki = IKeys ks /\ In k ks) \/ (exists x r, k = x :: r /\ ki = IFirst x /\ forall k', In k' (kdims t) -> hd EmptyString k' <> x) ->
  exists e, loc t ki kc ko kd = Err e.
Proof.
  intros H [(ks & -> & Hk)|(x & r & -> & -> & Hx)]; unfold loc; cbn [index_key].
  - assert (G : mapm (fun k => match rows_with t k with [] => Err KeyError | l => Ok l end) ks = Err KeyError); [|rewrite G; eexists; reflexivity].
    assert (E : rows_with t k = []).
    { unfold rows_with. destruct (filter _ _) as [|p r] eqn:E; auto. exfalso. assert (Hp : In p (p :: r)) by (left; auto). rewrite <- E in Hp. apply filter_In in Hp.
      destruct Hp as (Hp & Hs). apply in_seq in Hp. apply strs_eqb_eq in Hs. apply H. rewrite <- Hs. apply nth_In. lia. }
    induction ks as [|y ks IH]; [destruct Hk|]. cbn [mapm]. destruct Hk as [->|Hk]; [rewrite E; auto|]. rewrite IH by auto. destruct (rows_with t y); reflexivity.
  - assert (E : filter (fun i => String.eqb (hd EmptyString (row_key t i)) x) (seq 0 (List.length (kdims t))) = []).
    { destruct (filter _ _) as [|p q] eqn:E; auto. exfalso. assert (Hp : In p (p :: q)) by (left; auto). rewrite <- E in Hp. apply filter_In in Hp.
      destruct Hp as (Hp & Hs). apply in_seq in Hp. apply String.eqb_eq in Hs. apply (Hx (row_key t p)); auto. apply nth_In. lia. }
    rewrite E. cbn [rbind]. destruct (other_key _ _ (vdims t) kc) as [s|e]; [|eexists; reflexivity]. cbn [rbind].
    destruct (origin_key t ko) as [s2|e]; [|eexists; reflexivity]. cbn [rbind]. destruct (dev_key t kd) as [s3|e]; [|eexists; reflexivity]. eexists. reflexivity.
Qed.

(** * Assignment *)
Lemma mem_str_spec c l : mem_str c l = true <-> In c l.
Proof.
  unfold mem_str. rewrite existsb_exists. split; [intros (x & H & E); apply String.eqb_eq in E; congruence|]. intros H. exists c. split; auto. apply String.eqb_refl.
Qed.
Lemma pos_of_at l p x : NoDup l -> nth_error l p = Some x -> pos_of x l = p.
Proof.
  revert p. induction l as [|z l IH]; intros p N E; [destruct p; discriminate|]. cbn [pos_of]. inversion N; subst. destruct (String.eqb_spec x z) as [->|Hne].
  - destruct p; auto. cbn in E. exfalso. apply H1. eapply nth_error_In; eauto.
  - destruct p; cbn in E; [congruence|]. f_equal. auto.
Qed.
Lemma nth_error_app_one {A} (l : list A) x c y : nth_error (l ++ [x]) c = Some y -> (c < List.length l)%nat /\ nth_error l c = Some y \/ c = List.length l /\ y = x.
Proof.
  intros E. destruct (Nat.lt_ge_cases c (List.length l)) as [L|L]; [left; rewrite nth_error_app1 in E by auto; auto|].
  rewrite nth_error_app2 in E by auto. destruct (c - List.length l)%nat as [|n] eqn:En; cbn in E; [right; split; [lia|congruence]|destruct n; discriminate].
Qed.
Lemma appended t name b u : wf t -> ~ In name (vdims t) -> ax0 b = ax0 (values t) -> ax1 b = 1%nat -> ax2 b = ax2 (values t) -> ax3 b = ax3 (values t) ->
  u = set_values (set_vdims t (vdims t ++ [name])) (cat2 1 (values t) b) ->
  column_set t u name (fun i o d => av b i 0 o d).
Proof.
  intros W Hn B0 B1 B2 B3 ->. constructor.
  - cbn. repeat split.
  - cbn. destruct (in_dec _ _ _); [contradiction|reflexivity].
  - cbn [set_values set_vdims set_dims values vdims cat2 ax0 ax1 ax2 ax3]. rewrite B1, app_length, (wf_v _ W). cbn. repeat split.
  - intros i c o d Hi Ho Hd. cbn [set_values set_vdims set_dims values vdims]. unfold cel. cbn [set_values values cat2 av]. split.
    + intros E. apply nth_error_app_one in E. destruct E as [(L & E)|(-> & _)]; [exfalso; apply Hn; eapply nth_error_In; eauto|].
      rewrite <- (wf_v _ W). destruct (Nat.ltb_spec (ax1 (values t)) (ax1 (values t))); [lia|]. rewrite Nat.sub_diag. reflexivity.
    + intros m E Hm. apply nth_error_app_one in E. destruct E as [(L & E)|(_ & ->)]; [|congruence]. rewrite <- (wf_v _ W) in L. destruct (Nat.ltb_spec c (ax1 (values t))); [reflexivity|lia].
Qed.
Lemma replaced t name b u : wf t -> NoDup (vdims t) -> In name (vdims t) -> fits (ax0 b) (ax0 (values t)) = true -> ax1 b = 1%nat -> fits (ax2 b) (ax2 (values t)) = true -> fits (ax3 b) (ax3 (values t)) = true ->
  exists a, put_column (values t) (pos_of name (vdims t)) b = Ok a /\
    (u = set_values t a -> column_set t u name (fun i o d => av b (bidx (ax0 b) i) 0 (bidx (ax2 b) o) (bidx (ax3 b) d))).
Proof.
  intros W N Hin F0 F1 F2 F3. destruct (In_nth_error _ _ Hin) as (p & Ep). rewrite (pos_of_at _ _ _ N Ep).
  unfold put_column. rewrite F0, F1, F2, F3. cbn [fits Nat.eqb orb andb]. eexists. split; [reflexivity|]. intros ->. constructor.
  - cbn. repeat split.
  - cbn. destruct (in_dec _ _ _); [reflexivity|contradiction].
  - cbn [set_values values vdims ax0 ax1 ax2 ax3]. repeat split. apply W.
  - intros i c o d Hi Ho Hd. cbn [set_values vdims]. unfold cel. cbn [set_values values av]. split.
    + intros E. assert (c = p) by (rewrite NoDup_nth_error in N; apply N; [apply nth_error_Some; congruence|congruence]). subst c. rewrite Nat.eqb_refl. reflexivity.
    + intros m E Hm. destruct (Nat.eqb_spec c p) as [->|]; [congruence|reflexivity].
Qed.
Lemma fits_eq n : fits n n = true.
Proof. unfold fits. rewrite Nat.eqb_refl. reflexivity. Qed.
Lemma cat_ok_1 a b : cat_ok 1 a b = ((ax0 a =? ax0 b) && (ax2 a =? ax2 b) && (ax3 a =? ax3 b))%nat.
Proof. unfold cat_ok. cbn. rewrite ?andb_true_r. destruct (ax0 a =? ax0 b)%nat; reflexivity. Qed.

Lemma same_dims t v : wf t -> wf v -> same_rows_one_column t v ->
  ax0 (values v) = ax0 (values t) /\ ax1 (values v) = 1%nat /\ ax2 (values v) = ax2 (values t) /\ ax3 (values v) = ax3 (values t).
Proof.
  intros W V (K & O & D & L). rewrite (wf_k _ W), (wf_k _ V), (wf_v _ V), (wf_o _ W), (wf_o _ V), (wf_d _ W), (wf_d _ V), K, O, D. auto.
Qed.
Lemma setitem_ok t name v : wf t -> NoDup (vdims t) -> wf v -> same_rows_one_column t v ->
  exists u, setitem t name (VTri v) = (u, None) /\ column_set t u name (fun i o d => cel v i 0 o d).
Proof.
  intros W N V S. destruct (same_dims t v W V S) as (E0 & E1 & E2 & E3). unfold setitem. destruct (mem_str name (vdims t)) eqn:M.
  - apply mem_str_spec in M. destruct (replaced t name (values v) (set_values t match put_column (values t) (pos_of name (vdims t)) (values v) with Ok a => a | Err _ => values t end) W N M) as (a & Ea & C);
      rewrite ?E0, ?E2, ?E3; auto using fits_eq.
    rewrite Ea in *. eexists. split; [reflexivity|]. specialize (C eq_refl). destruct C as [C1 C2 C3 C4]. constructor; auto.
    intros i c o d Hi Ho Hd. destruct (C4 i c o d Hi Ho Hd) as (A & B). split; auto. intros E. rewrite (A E). unfold cel.
    destruct C3 as (D0 & _ & D2 & D3). rewrite !bidx_lt by lia. reflexivity.
  - assert (Hn : ~ In name (vdims t)) by (intros H; apply mem_str_spec in H; congruence).
    unfold side_by_side. cbn [set_vdims set_dims values]. rewrite cat_ok_1, E0, E2, E3, !Nat.eqb_refl. cbn [andb].
    eexists. split; [reflexivity|]. refine (appended t name (values v) _ W Hn E0 E1 E2 E3 eq_refl).
Qed.
Lemma column_set_wf t u name f : wf t -> column_set t u name f -> wf u.
Proof.
  intros W [(K & KL & O & D & Vd & _) Nm (D0 & D1 & D2 & D3) _]. destruct W. constructor; rewrite ?K, ?O, ?D, ?Vd, ?D0, ?D2, ?D3; auto.
Qed.
Lemma NoDup_one {A} (l : list A) x : NoDup l -> ~ In x l -> NoDup (l ++ [x]).
Proof. intros N H. apply NoDup_rev in N. rewrite <- (rev_involutive (l ++ [x])). apply NoDup_rev. rewrite rev_app_distr. constructor; auto. rewrite <- in_rev. auto. Qed.
Lemma column_set_uniq t u name f : NoDup (vdims t) -> column_set t u name f -> NoDup (vdims u) /\ In name (vdims u).
Proof.
  intros N C. rewrite (cs_names _ _ _ _ C). destruct (in_dec _ _ _) as [H|H]; [auto|]. split; [|apply in_or_app; right; left; auto].
  apply NoDup_one; auto.
Qed.
(** Reading the column back. *)
Lemma read_back t u name f : wf t -> NoDup (vdims t) -> (1 <= ax0 (values t))%nat -> ~ In name (key_labels t) -> column_set t u name f ->
  exists w, getitem_name u name = Ok (GotTri w) /\ vdims w = [name] /\ kdims w = kdims t /\ odims w = odims t /\ ddims w = ddims t /\
    forall i o d, (i < ax0 (values t))%nat -> (o < ax2 (values t))%nat -> (d < ax3 (values t))%nat -> cel w i 0 o d = f i o d.
Proof.
  intros W N H0 Hk C. pose proof (column_set_wf _ _ _ _ W C) as Wu. destruct (column_set_uniq _ _ _ _ N C) as (Nu & Hin).
  destruct (In_nth_error _ _ Hin) as (p & Ep). pose proof C as [(K & KL & O & D & _) _ (D0 & D1 & D2 & D3) Ce].
  destruct (name_taken u name p Wu Nu) as (w & Ew & T & _); [lia|congruence|auto|].
  exists w. split; auto. split; [rewrite (tk_v _ _ _ _ _ _ T); cbn; f_equal; apply nth_error_nth; auto|].
  split; [rewrite (tk_k _ _ _ _ _ _ T), K; unfold every; rewrite D0; apply (sel_seq_all (kdims t) []); apply W|].
  split; [rewrite (tk_o _ _ _ _ _ _ T), O; unfold every; rewrite D2; apply (sel_seq_all (odims t) 0); apply W|].
  split.
  { pose proof (tk_d _ _ _ _ _ _ T) as Td. rewrite D in Td. unfold every in Td. rewrite D3 in Td. pose proof (wf_d _ W) as Wd.
    destruct (ddims t) as [l|l], (ddims w) as [l'|l']; try contradiction; f_equal; rewrite Td; apply (sel_seq_all l 0); auto. }
  intros i o d Hi Ho Hd. rewrite (tk_cell _ _ _ _ _ _ T); unfold every; rewrite ?seq_length; try lia; [|cbn; lia]. rewrite !seq_nth by lia. cbn [nth plus].
  apply Ce; try lia. auto.
Qed.
