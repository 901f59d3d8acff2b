(** Proofs about Berquist-Sherman: columns, diagonals and aggregates of one-column triangles. *)
From Coq Require Import Lia.
From Verif Require Import Spec TriFacts ArrFacts ConvFacts SliceFacts P_Core P_Filter P_Arith P_Agg P_Corr5 P_Additive2 P_Select2 BcastFacts NumFacts SpecLoc SpecCorr Berq P_Berq1.
Local Open Scope nat_scope.

Section Parts.
Variables (t : tri) (n h : nat) (o0 a0 : Z).
Hypotheses (W : wf t) (B : blank_future t) (Q : square t n o0 a0 h) (Hn : 2 <= n) (H0 : 1 <= ax0 (values t)).

Lemma vd_ult : (vdate t <= ULT_VAL)%Z.
Proof using W Q Hn H0.
  pose proof (seen_ult t n h o0 a0 W Q Hn H0 0 (n - 1) ltac:(lia) ltac:(lia)) as S. unfold seen in S.
  rewrite (square_month _ _ _ _ _ _ _ Q) in S by lia. rewrite (square_vdate _ _ _ _ _ Q). cbn [Nat.add] in S. destruct (Z.ltb_spec ULT_VAL (o0 + a0 - 1 + Z.of_nat h * Z.of_nat (n - 1))); [discriminate|lia].
Qed.
Lemma column_part name p : NoDup (vdims t) -> nth_error (vdims t) p = Some name -> ~ In name (key_labels t) ->
  exists u, column t name = Ok u /\ part t n true true (vdate t) u (fun i o d => cel t i p o d) /\ vdims u = [name].
Proof using W Q Hn H0.
  intros U E K. pose proof Q as (R & E2 & E3). pose proof (wf_k _ W) as Wk. pose proof (wf_o _ W) as Wo. pose proof (wf_d _ W) as Wd.
  destruct (name_taken t name p W U H0 K E) as (u & Eu & T & L). exists u.
  unfold column. rewrite Eu. cbn [rbind]. split; auto.
  assert (N : no_ultimate t). { unfold no_ultimate. destruct R as (_ & _ & _ & Rd & R9 & _). rewrite Rd. intros F. apply in_map_iff in F. destruct F as (k & F & Hk). apply in_seq in Hk. apply (R9 k); [lia|exact F]. }
  destruct (L N) as (_ & L1 & L2).
  assert (V : vdate u = vdate t).
  { pose proof (L2 0 (n - 1)) as G. rewrite (square_month _ _ _ _ _ _ _ Q), (square_vdate _ _ _ _ _ Q) in G by lia. cbn [Nat.add] in G. rewrite (square_vdate _ _ _ _ _ Q) in L1 |- *.
    specialize (G ltac:(apply in_seq; lia) ltac:(apply in_seq; lia) ltac:(lia)). lia. }
  assert (Vn : vdims u = [name]) by (rewrite (tk_v _ _ _ _ _ _ T); cbn [map]; f_equal; apply nth_error_nth; exact E).
  split; [|exact Vn]. constructor; auto.
  - rewrite (tk_k _ _ _ _ _ _ T), Wk. exact (sel_seq_all (kdims t) [] _ eq_refl).
  - apply T.
  - rewrite Vn. reflexivity.
  - rewrite (tk_o _ _ _ _ _ _ T), Wo. exact (sel_seq_all (odims t) 0%Z _ eq_refl).
  - pose proof (tk_d _ _ _ _ _ _ T) as D. destruct (ddims t) as [a|a], (ddims u) as [b|b]; try contradiction; f_equal; rewrite D; cbn [dlist] in Wd; rewrite Wd; exact (sel_seq_all a 0%Z _ eq_refl).
  - apply T.
  - intros _. apply T.
  - rewrite (tk_0 _ _ _ _ _ _ T). apply seq_length.
  - apply T.
  - rewrite (tk_2 _ _ _ _ _ _ T). unfold SpecSelect.every. rewrite seq_length. auto.
  - rewrite (tk_3 _ _ _ _ _ _ T). unfold SpecSelect.every. rewrite seq_length. auto.
  - intros i o d Hi Ho Hd. rewrite (tk_cell _ _ _ _ _ _ T) by (cbn; unfold SpecSelect.every; rewrite ?seq_length; lia). unfold SpecSelect.every. rewrite !seq_nth by lia. reflexivity.
Qed.

Lemma part_square u f : part t n true true (vdate t) u f -> square u n o0 a0 h.
Proof using Q.
  intros P. pose proof Q as (R & E2 & E3). split; [|split; [rewrite (pt_2 _ _ _ _ _ _ _ P)|rewrite (pt_3 _ _ _ _ _ _ _ P)]; auto].
  unfold regular in *. rewrite (pt_o _ _ _ _ _ _ _ P), (pt_d _ _ _ _ _ _ _ P), (pt_vd _ _ _ _ _ _ _ P), (pt_2 _ _ _ _ _ _ _ P), (pt_3 _ _ _ _ _ _ _ P).
  rewrite E2, E3 in R. exact R.
Qed.

(** The cells of one diagonal. *)
Lemma part_diagonal v u f : part t n true true v u f -> (vdate t <= v <= ULT_VAL)%Z ->
  exists l, getitem_valuation u (fun o d => valuation u o d =? vdate t)%Z = Ok l /\
    part t n true true (vdate t) l (fun i o d => if o + d =? n - 1 then n2n (f i o d) else None) /\ vdims l = vdims u.
Proof using W B Q Hn H0.
  intros P V. pose proof (part_wf t n h o0 a0 W Q Hn H0 _ _ _ P V) as Wu. pose proof Q as (R & E2 & E3). set (key := fun o d => (valuation u o d =? vdate t)%Z).
  pose proof (pt_2 _ _ _ _ _ _ _ P) as U2. pose proof (pt_3 _ _ _ _ _ _ _ P) as U3. cbn in U2, U3.
  assert (H1 : 1 <= h) by apply R.
  assert (K : forall o d, o < n -> d < n -> (key o d = true <-> o + d = n - 1)).
  { intros o d Ho Hd. unfold key. rewrite (part_valuation t n h o0 a0 W Q Hn H0 v u f) by auto. rewrite (square_month _ _ _ _ _ _ _ Q Ho Hd), (square_vdate _ _ _ _ _ Q), Z.eqb_eq. nia. }
  assert (Rw : kept_rows u key = seq 0 n).
  { unfold kept_rows. rewrite U2. apply filter_all. intros o Ho. apply in_seq in Ho. apply existsb_exists. exists (n - 1 - o). split; [apply in_seq; lia|]. apply K; lia. }
  assert (Cl : kept_cols u key = seq 0 n).
  { unfold kept_cols. rewrite U3. apply filter_all. intros o Ho. apply in_seq in Ho. apply existsb_exists. exists (n - 1 - o). split; [apply in_seq; lia|]. apply K; lia. }
  destruct (getitem_valuation_ok u key Wu ltac:(lia)) as (l & El & Sl).
  - exists 0, (n - 1). split; [lia|]. split; [lia|]. apply K; lia.
  - apply (evenly_interval _ _ 0 n). intros o Ho. split; [lia|]. intros L. exists (n - 1 - o). split; [lia|]. apply K; lia.
  - apply (evenly_interval _ _ 0 n). intros d Hd. split; [lia|]. intros L. exists (n - 1 - d). split; [lia|]. apply K; lia.
  - exists l. split; [exact El|]. split; [|apply Sl]. constructor.
    + rewrite (sl_k _ _ _ Sl). apply P.
    + rewrite (sl_kl _ _ _ Sl). apply P.
    + rewrite (sl_v _ _ _ Sl). apply P.
    + rewrite (sl_o _ _ _ Sl), Rw, <- (pt_o _ _ _ _ _ _ _ P). apply sel_seq_all. rewrite <- (wf_o _ Wu). auto.
    + rewrite (sl_d _ _ _ Sl), Cl, <- (pt_d _ _ _ _ _ _ _ P). pose proof (wf_d _ Wu) as Wd. destruct (ddims u) as [x|x]; cbn [dmap dlist] in *; f_equal; apply sel_seq_all; congruence.
    + rewrite (sl_og _ _ _ Sl). apply P.
    + rewrite (sl_dg _ _ _ Sl). apply P.
    + destruct (sl_vub _ _ _ Sl) as (o & d & Ho & Hd & Kd & Le). pose proof (sl_vge _ _ _ Sl o d Ho Hd Kd) as Ge. rewrite U2 in Ho. rewrite U3 in Hd.
      rewrite (pt_vd _ _ _ _ _ _ _ P) in Ge.
      assert (M : month_of u o d = vdate t). { rewrite (part_month t n v u f) by auto. apply K in Kd; auto. rewrite (square_month _ _ _ _ _ _ _ Q Ho Hd), (square_vdate _ _ _ _ _ Q), Kd. reflexivity. }
      lia.
    + rewrite (sl_0 _ _ _ Sl). apply P.
    + rewrite (sl_1 _ _ _ Sl). apply P.
    + rewrite (sl_2 _ _ _ Sl), Rw. apply seq_length.
    + rewrite (sl_3 _ _ _ Sl), Cl. apply seq_length.
    + intros i o d Hi Ho Hd. rewrite (sl_cell _ _ _ Sl) by (rewrite ?Rw, ?Cl, ?seq_length, ?(pt_0 _ _ _ _ _ _ _ P), ?(pt_1 _ _ _ _ _ _ _ P); auto). rewrite Rw, Cl, !seq_nth by lia. cbn [Nat.add].
      rewrite (pt_cell _ _ _ _ _ _ _ P) by auto.
      destruct (key o d) eqn:Kd; destruct (Nat.eqb_spec (o + d) (n - 1)) as [L|L]; auto; [apply K in Kd; auto; contradiction|].
      exfalso. assert (key o d = true) by (apply K; auto). congruence.
Qed.

Lemma part_over_origins a v u f : part t n true true v u f -> a = ASum \/ a = AMean ->
  exists s, aggregate a (Some AxOrigin) false u = Ok (AggTri s) /\
    part t n false true v s (fun i _ d => n2n (agg_line a (map (fun o => f i o d) (seq 0 n)))).
Proof using W Q Hn H0.
  intros P A. exists (agg_axis a u AxOrigin). pose proof Q as (R & E2 & E3).
  assert (O : (1 <? List.length (odims u)) = true) by (rewrite (pt_o _ _ _ _ _ _ _ P), <- (wf_o _ W), E2; apply Nat.ltb_lt; lia).
  assert (X : agg_axis a u AxOrigin = set_odims (set_values u (map_arr n2n (reduce_arr a 2 (values u)))) (firstn 1 (odims u))) by (unfold agg_axis; rewrite O; reflexivity).
  assert (U3 : ax3 (values u) = n) by apply P.
  split.
  - unfold aggregate. assert (Y : ax3 (values (agg_axis a u AxOrigin)) =? 1 = false). { rewrite X. cbv [set_odims set_dims set_values values map_arr reduce_arr ax3]. cbn. change (ax3 (values u) =? 1 = false). rewrite U3. apply Nat.eqb_neq. lia. }
    rewrite Y, !andb_false_r. destruct A as [-> | ->]; reflexivity.
  - assert (L1 : List.length (firstn 1 (odims u)) = 1) by (rewrite firstn_length; apply Nat.ltb_lt in O; lia).
    rewrite X. destruct P as [P1 P2 P3 P4 P5 P6 P7 P8 P9 P10 P11 P12 P13]. constructor; auto.
    intros i o d Hi Ho Hd. change (n2n (agg_line a (map (fun j => av (values u) i 0 j d) (seq 0 (ax2 (values u))))) = n2n (agg_line a (map (fun o => f i o d) (seq 0 n)))). rewrite P11. do 2 f_equal.
    apply map_ext_in. intros k Hk. apply in_seq in Hk. apply P13; auto; lia.
Qed.
Lemma present_one (f : nat -> cell) k m : k < m -> (forall o, o < m -> o <> k -> f o = None) -> Agg.present (map f (seq 0 m)) = Agg.present [f k].
Proof.
  intros Hk H. replace (seq 0 m) with (seq 0 k ++ k :: seq (S k) (m - S k)).
  - rewrite map_app, present_app. cbn [map]. rewrite present_cons.
    assert (N : forall l, (forall o, In o l -> o < m /\ o <> k) -> Agg.present (map f l) = []).
    { induction l as [|x l IH]; intros Hl; [reflexivity|]. cbn [map]. rewrite present_cons, IH by (intros; apply Hl; right; auto). rewrite H by (apply Hl; left; auto). reflexivity. }
    rewrite !N, app_nil_r; [reflexivity| |]; intros o Ho; apply in_seq in Ho; lia.
  - replace (seq 0 m) with (seq 0 (k + S (m - S k))) by (f_equal; lia). rewrite seq_app. reflexivity.
Qed.
Lemma n2n_idem x : n2n (n2n x) = n2n x.
Proof. unfold n2n. destruct x as [q|]; auto. destruct (Qc_eqb q 0%Qc) eqn:E; auto. rewrite E. reflexivity. Qed.
(** The sum or the mean of a diagonal over the origins is its only cell of the age. *)
Lemma diagonal_agg a (f : nat -> cell) d : a = ASum \/ a = AMean -> d < n ->
  n2n (agg_line a (map (fun o => if o + d =? n - 1 then n2n (f o) else None) (seq 0 n))) = n2n (f (n - 1 - d)).
Proof using Hn H0.
  intros A Hd. assert (E : Agg.present (map (fun o => if o + d =? n - 1 then n2n (f o) else None) (seq 0 n)) = Agg.present [n2n (f (n - 1 - d))]).
  { rewrite (present_one _ (n - 1 - d)) by (try lia; intros o Ho N; destruct (Nat.eqb_spec (o + d) (n - 1)); auto; lia).
    destruct (Nat.eqb_spec (n - 1 - d + d) (n - 1)); [reflexivity|lia]. }
  unfold agg_line. rewrite E. clear E. destruct (n2n (f (n - 1 - d))) as [q|] eqn:E.
  - assert (Nq : q <> 0%Qc). { unfold n2n in E. destruct (f (n - 1 - d)) as [z|]; [|discriminate]. destruct (Qc_eqb_spec z 0%Qc); [discriminate|]. congruence. }
    assert (E1 : n2n (Some q) = Some q). { unfold n2n. destruct (Qc_eqb_spec q 0%Qc); congruence. }
    cbn [Agg.present flat_map app]. destruct A as [-> | ->].
    + replace (qsum [q]) with q; auto. unfold qsum. cbn. ring.
    + unfold mean_of. replace (qsum [q] / qlen [q])%Qc with q; auto. unfold qsum, qlen. cbn. change (qc 1) with 1%Qc. field. discriminate.
  - destruct A as [-> | ->]; reflexivity.
Qed.
End Parts.
