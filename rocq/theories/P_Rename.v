(** Proofs about new labels, missing columns, single cells and rounding. *)
From Coq Require Import Lia Qround.
From Verif Require Import LabelFacts P_Loc P_Select2 P_Select3 SpecSelect SpecRename.
Local Open Scope nat_scope.

Lemma same_len_ok n m t k : n = m -> same_len n m t k = k.
Proof. intros ->. unfold same_len. rewrite Nat.eqb_refl. reflexivity. Qed.
Lemma same_len_no n m t k : n <> m -> same_len n m t k = (t, Some ValueError).
Proof. intros H. unfold same_len. apply Nat.eqb_neq in H. rewrite H. reflexivity. Qed.
Lemma relabel_same t k v o d : same_but_labels t (set_dims t k v o d).
Proof. constructor; [repeat split|reflexivity|repeat split]. Qed.

Lemma columns_read t l k o a c : NoDup (vdims t) -> NoDup l -> List.length l = List.length (vdims t) -> c < List.length l ->
  amount_at (set_vdims t l) k (nth c l EmptyString) o a = amount_at t k (nth c (vdims t) EmptyString) o a.
Proof.
  intros N1 N2 E Hc. unfold amount_at. cbn [set_vdims set_dims kdims vdims odims ddims]. apply pick_ext. intros i Hi _.
  rewrite !pick_nth by (auto; lia). reflexivity.
Qed.
Lemma index_read t rows names i v o a : NoDup (kdims t) -> NoDup rows -> List.length rows = List.length (kdims t) -> i < List.length rows ->
  amount_at (set_keys t rows names) (nth i rows []) v o a = amount_at t (nth i (kdims t) []) v o a.
Proof.
  intros N1 N2 E Hi. unfold amount_at. cbn [set_keys kdims vdims odims ddims]. rewrite !pick_nth by (auto; lia). reflexivity.
Qed.
Lemma origin_read t l k v o a : NoDup (odims t) -> NoDup l -> List.length l = List.length (odims t) -> o < List.length l ->
  amount_at (set_odims t l) k v (nth o l 0%Z) a = amount_at t k v (nth o (odims t) 0%Z) a.
Proof.
  intros N1 N2 E Hc. unfold amount_at. cbn [set_odims set_dims kdims vdims odims ddims]. apply pick_ext. intros i Hi _. apply pick_ext. intros c Hc' _.
  rewrite !pick_nth by (auto; lia). reflexivity.
Qed.
Lemma development_read t l k v o d : NoDup (dlist (ddims t)) -> NoDup l -> List.length l = List.length (dlist (ddims t)) -> d < List.length l ->
  amount_at (set_ddims t (Ages l)) k v o (nth d l 0%Z) = amount_at t k v o (nth d (dlist (ddims t)) 0%Z).
Proof.
  intros N1 N2 E Hc. unfold amount_at. cbn [set_ddims set_dims kdims vdims odims ddims dlist]. apply pick_ext. intros i Hi _. apply pick_ext. intros c Hc' _. apply pick_ext. intros r Hr _.
  rewrite !pick_nth by (auto; lia). reflexivity.
Qed.
Lemma wf_set_vdims t l : wf t -> List.length l = List.length (vdims t) -> wf (set_vdims t l).
Proof. intros W E. destruct W. constructor; cbn [set_vdims set_dims kdims vdims odims ddims values vdate]; auto. congruence. Qed.
Lemma wf_set_keys t rows names : wf t -> List.length rows = List.length (kdims t) -> wf (set_keys t rows names).
Proof. intros W E. destruct W. constructor; cbn [set_keys kdims vdims odims ddims values vdate]; auto. congruence. Qed.

(** One missing column. *)
Lemma add_one t name fill : wf t -> (fill <> None -> real_triangle t) -> ~ In name (vdims t) ->
  exists u, add_column t name fill = Ok u /\ wf u /\ same_but_columns t u /\ vdims u = (vdims t ++ [name])%list /\
    forall i o d, i < ax0 (values t) -> o < ax2 (values t) -> d < ax3 (values t) ->
      (forall c, c < ax1 (values t) -> cel u i c o d = cel t i c o d) /\
      ((month_of t o d <= vdate t)%Z -> filled_with fill (cel u i (ax1 (values t)) o d)) /\ (future t o d -> cel u i (ax1 (values t)) o d = None).
Proof.
  intros W RT Hn. destruct fill as [q|].
  - destruct (RT ltac:(discriminate)) as (H0 & H1 & H2 & H3). destruct (set_new_number t name q W H0 H1 H2 H3 Hn) as (u & E & f & C & F).
    exists u. unfold add_column. rewrite E. split; [reflexivity|]. destruct C as [(A1 & A2 & A3 & A4 & A5 & A6 & A7 & A8 & A9) CN (B0 & B1 & B2 & B3) CC].
    destruct (in_dec string_dec name (vdims t)) as [I|_]; [contradiction|].
    assert (W' : wf u).
    { destruct W. constructor; try congruence; rewrite ?A3, ?A4, ?A5; auto; try congruence; rewrite ?B2, ?B3; auto. }
    split; [exact W'|]. split; [unfold same_but_columns; tauto|]. split; [exact CN|]. intros i o d Hi Ho Hd.
    assert (L : ax1 (values t) = List.length (vdims t)) by apply W. split; [|split].
    + intros c Hc. destruct (CC i c o d ltac:(lia) ltac:(lia) ltac:(lia)) as (_ & C2).
      assert (Ec : nth_error (vdims u) c = Some (nth c (vdims t) EmptyString)) by (rewrite CN, nth_error_app1 by lia; apply nth_error_nth'; lia).
      apply (C2 _ Ec). intros X. apply Hn. rewrite <- X. apply nth_In. lia.
    + intros Hv. destruct (CC i (ax1 (values t)) o d ltac:(lia) ltac:(lia) ltac:(lia)) as (C1 & _). rewrite C1; [apply F; auto|].
      rewrite CN, nth_error_app2 by lia. replace (ax1 (values t) - List.length (vdims t)) with 0 by lia. reflexivity.
    + intros Hv. destruct (CC i (ax1 (values t)) o d ltac:(lia) ltac:(lia) ltac:(lia)) as (C1 & _). rewrite C1; [apply F; auto|].
      rewrite CN, nth_error_app2 by lia. replace (ax1 (values t) - List.length (vdims t)) with 0 by lia. reflexivity.
  - eexists. split; [reflexivity|]. split.
    { destruct W. constructor; cbn [set_values set_vdims set_dims kdims vdims odims ddims values vdate cat2 ax0 ax1 ax2 ax3]; auto. rewrite app_length. cbn. lia. }
    split; [repeat split|]. split; [reflexivity|]. intros i o d Hi Ho Hd. unfold cel. cbn [set_values set_vdims set_dims values cat2 av]. split; [|split].
    + intros c Hc. apply Nat.ltb_lt in Hc. rewrite Hc. reflexivity.
    + intros _. rewrite Nat.ltb_irrefl. reflexivity.
    + intros _. rewrite Nat.ltb_irrefl. reflexivity.
Qed.

Lemma reindex_ok fill names : forall t, wf t -> (fill <> None -> real_triangle t) ->
  exists u l, reindex t names fill = Ok u /\ wf u /\ same_but_columns t u /\ vdims u = (vdims t ++ l)%list /\ NoDup l /\
    (forall n, In n l <-> In n names /\ ~ In n (vdims t)) /\
    (NoDup names -> l = filter (fun n => if in_dec string_dec n (vdims t) then false else true) names) /\
    forall i o d, i < ax0 (values t) -> o < ax2 (values t) -> d < ax3 (values t) ->
      (forall c, c < ax1 (values t) -> cel u i c o d = cel t i c o d) /\
      (forall c, ax1 (values t) <= c < ax1 (values u) ->
        ((month_of t o d <= vdate t)%Z -> filled_with fill (cel u i c o d)) /\ (future t o d -> cel u i c o d = None)).
Proof.
  induction names as [|n ns IH]; intros t W RT.
  - exists t, []. split; [reflexivity|]. split; [auto|]. split; [repeat split|]. split; [symmetry; apply app_nil_r|]. split; [constructor|]. split; [cbn; tauto|]. split; [reflexivity|].
    intros. split; [reflexivity|]. intros c Hc. lia.
  - cbn [reindex]. destruct (mem_str n (vdims t)) eqn:M.
    + apply mem_str_spec in M. destruct (IH t W RT) as (u & l & E & W' & B & V & N & I & F & C). exists u, l. repeat (split; [auto; fail|]). split; [|split; [|exact C]].
      * intros m. rewrite I. cbn [In]. split; [tauto|]. intros ([<-|H] & H2); tauto.
      * intros ND. inversion ND; subst. rewrite F by auto. cbn [filter]. destruct (in_dec string_dec n (vdims t)); [reflexivity|contradiction].
    + assert (Hn : ~ In n (vdims t)) by (intros H; apply mem_str_spec in H; congruence).
      destruct (add_one t n fill W RT Hn) as (t1 & E1 & W1 & B1 & V1 & C1). rewrite E1. cbn [rbind].
      assert (L1 : ax1 (values t1) = S (ax1 (values t))) by (rewrite (wf_v _ W1), (wf_v _ W), V1, app_length; cbn; lia).
      destruct B1 as (Q1 & Q2 & Q3 & Q4 & Q5 & Q6 & Q7 & Q8 & Q9 & Q10 & Q11 & Q12).
      destruct (IH t1 W1) as (u & l & E & W' & B & V & N & I & F & C).
      { intros Hf. destruct (RT Hf) as (? & ? & ? & ?). unfold real_triangle. lia. }
      destruct B as (R1 & R2 & R3 & R4 & R5 & R6 & R7 & R8 & R9 & R10 & R11 & R12).
      exists u, (n :: l). split; [exact E|]. split; [exact W'|]. split; [unfold same_but_columns; repeat split; congruence|].
      split; [rewrite V, V1, <- app_assoc; reflexivity|]. split; [|split; [|split]].
      * constructor; [|exact N]. rewrite I. rewrite V1. intros (_ & H). apply H. apply in_or_app. right. left. reflexivity.
      * intros m. cbn [In]. rewrite I, V1. split.
        -- intros [<-|(H1 & H2)]; [tauto|]. split; [tauto|]. intros X. apply H2. apply in_or_app. auto.
        -- intros ([<-|H1] & H2); [tauto|]. destruct (string_dec n m) as [|Nm]; [tauto|]. right. split; [auto|]. intros X. apply in_app_or in X. destruct X as [X|[X|[]]]; tauto.
      * intros ND. inversion ND; subst. rewrite F by auto. cbn [filter]. destruct (in_dec string_dec n (vdims t)); [contradiction|]. f_equal.
        apply filter_ext_in. intros m Hm. rewrite V1. destruct (in_dec string_dec m (vdims t ++ [n])) as [X|X], (in_dec string_dec m (vdims t)) as [Y|Y]; auto.
        -- apply in_app_or in X. destruct X as [X|[X|[]]]; [contradiction|]. subst. contradiction.
        -- exfalso. apply X. apply in_or_app. auto.
      * intros i o d Hi Ho Hd. destruct (C1 i o d Hi Ho Hd) as (D1 & D2 & D3). destruct (C i o d ltac:(lia) ltac:(lia) ltac:(lia)) as (G1 & G2).
        assert (Em : month_of t1 o d = month_of t o d) by (unfold month_of; rewrite Q3, Q4; reflexivity).
        split; [intros c Hc; rewrite G1 by lia; auto|]. intros c Hc. destruct (Nat.eq_dec c (ax1 (values t))) as [->|Nc].
        -- rewrite G1 by lia. split; auto.
        -- destruct (G2 c ltac:(lia)) as (G3 & G4). unfold future in *. rewrite Em, Q5 in *. auto.
Qed.

Lemma posify_ok n z p : stands_for n z p -> posify n z = Ok (Z.of_nat p).
Proof.
  intros (Hp & H). unfold posify. destruct ((z <? - Z.of_nat n)%Z || (Z.of_nat n <=? z)%Z)%bool eqn:E.
  - apply Bool.orb_true_iff in E. rewrite Z.ltb_lt, Z.leb_le in E. lia.
  - destruct (Z.ltb_spec z 0); f_equal; lia.
Qed.
Lemma posify_no n z : (z < - Z.of_nat n \/ Z.of_nat n <= z)%Z -> posify n z = Err IndexError.
Proof.
  intros H. unfold posify. destruct ((z <? - Z.of_nat n)%Z || (Z.of_nat n <=? z)%Z)%bool eqn:E; [reflexivity|].
  apply Bool.orb_false_iff in E. rewrite Z.ltb_ge, Z.leb_gt in E. lia.
Qed.
Lemma posify_cases n z : (exists p, stands_for n z p) \/ (z < - Z.of_nat n \/ Z.of_nat n <= z)%Z.
Proof.
  destruct (Z_lt_dec z (- Z.of_nat n)); [auto|]. destruct (Z_le_dec (Z.of_nat n) z); [auto|]. left.
  destruct (Z_lt_dec z 0); [exists (Z.to_nat (z + Z.of_nat n))|exists (Z.to_nat z)]; unfold stands_for; lia.
Qed.
Lemma iat_get_ok t zi zc zo zd i c o d : wf t -> stands_for (ax0 (values t)) zi i -> stands_for (ax1 (values t)) zc c -> stands_for (ax2 (values t)) zo o -> stands_for (ax3 (values t)) zd d ->
  iat_get t zi zc zo zd = Ok (cel t i c o d).
Proof.
  intros W Si Sc So Sd. destruct (iloc_ok t (KInt zi) (KInt zc) (KInt zo) (KInt zd) [i] [c] [o] [d] W) as (u & E & T & _);
    try (cbn; eexists; split; [reflexivity|assumption]); try (split; [discriminate|exact I]); try exact I.
  unfold iat_get. rewrite E. cbn [rbind]. f_equal. exact (tk_cell _ _ _ _ _ _ T 0 0 0 0 ltac:(cbn; lia) ltac:(cbn; lia) ltac:(cbn; lia) ltac:(cbn; lia)).
Qed.

Lemma nearest_ok q : exists r, (q == inject_Z (nearest q) + r)%Q /\ (- (1 # 2) <= r)%Q /\ (r <= 1 # 2)%Q /\ ((r == 1 # 2 \/ r == - (1 # 2))%Q -> Z.even (nearest q) = true).
Proof.
  unfold nearest. set (f := Qfloor q). assert (L : (inject_Z f <= q)%Q) by apply Qfloor_le. assert (U : (q < inject_Z (f + 1))%Q) by apply Qlt_floor. rewrite inject_Z_plus in U. change (inject_Z 1) with 1%Q in U.
  destruct ((q - inject_Z f) ?= 1 # 2)%Q eqn:E.
  - apply Qeq_alt in E. destruct (Z.even f) eqn:Ev.
    + exists (q - inject_Z f)%Q. split; [ring|]. rewrite E. split; [discriminate|]. split; [apply Qle_refl|auto].
    + exists (q - inject_Z (f + 1))%Q. split; [ring|]. rewrite inject_Z_plus. change (inject_Z 1) with 1%Q. assert (X : (q - (inject_Z f + 1) == - (1 # 2))%Q) by (rewrite <- (Qplus_inj_r _ _ 1); ring_simplify; ring_simplify in E; rewrite <- E; ring_simplify; reflexivity).
      rewrite X. split; [apply Qle_refl|]. split; [discriminate|]. intros _. replace (f + 1)%Z with (Z.succ f) by lia. rewrite Z.even_succ. rewrite <- Z.negb_even, Ev. reflexivity.
  - apply Qlt_alt in E. exists (q - inject_Z f)%Q. split; [ring|]. assert (P : (0 <= q - inject_Z f)%Q) by (apply Qle_minus_iff in L; exact L).
    split; [apply Qle_trans with 0%Q; [discriminate|exact P]|]. split; [apply Qlt_le_weak; exact E|]. intros [X|X]; rewrite X in *; [apply Qlt_irrefl in E; contradiction|]. apply Qle_not_lt in P. exfalso. apply P. reflexivity.
  - apply Qgt_alt in E. exists (q - inject_Z (f + 1))%Q. split; [ring|]. rewrite inject_Z_plus. change (inject_Z 1) with 1%Q. set (x := (q - inject_Z f)%Q) in *.
    assert (X : (q - (inject_Z f + 1) == x - 1)%Q) by (unfold x; ring). rewrite X. assert (U' : (x < 1)%Q) by (unfold x; apply Qplus_lt_l with (inject_Z f); ring_simplify; rewrite Qplus_comm in U; rewrite Qplus_comm; exact U).
    assert (A : (- (1 # 2) < x - 1)%Q) by (apply Qplus_lt_l with 1%Q; ring_simplify; exact E). assert (B : (x - 1 < 0)%Q) by (apply Qplus_lt_l with 1%Q; ring_simplify; exact U').
    split; [apply Qlt_le_weak; exact A|]. split; [apply Qlt_le_weak; apply Qlt_trans with 0%Q; [exact B|reflexivity]|].
    intros [Y|Y]; rewrite Y in *; [discriminate B|apply Qlt_irrefl in A; contradiction].
Qed.

Lemma ten_pos d : (0 < ten_to d)%Qc.
Proof.
  assert (P : forall k, (0 <= k)%Z -> (0 < Q2Qc (inject_Z (10 ^ k)))%Qc).
  { intros k Hk. unfold Qclt. cbn [this Q2Qc]. rewrite !Qred_correct. change (inject_Z 0 < inject_Z (10 ^ k))%Q. rewrite <- Zlt_Qlt. apply Z.pow_pos_nonneg; lia. }
  unfold ten_to. destruct (Z.leb_spec 0 d); [apply P; auto|]. specialize (P (- d)%Z ltac:(lia)). set (x := Q2Qc (inject_Z (10 ^ (- d)))) in *. clearbody x.
  assert (N : x <> 0%Qc) by (intros ->; exact (Qlt_irrefl _ P)).
  destruct (Qclt_le_dec 0 (/ x)) as [|L]; [auto|]. exfalso. apply Qcmult_le_compat_r with (z := x) in L; [|apply Qclt_le_weak; auto].
  rewrite Qcmult_comm, Qcmult_inv_r in L by auto. rewrite Qcmult_0_l in L. exact (Qle_not_lt _ _ L eq_refl).
Qed.
Lemma nearest_whole z : nearest (this (Q2Qc (inject_Z z))) = z.
Proof.
  cbn [this Q2Qc]. rewrite Qred_identity by (cbn; apply Z.gcd_1_r). unfold nearest. rewrite Qfloor_Z.
  assert (E : (inject_Z z - inject_Z z ?= 1 # 2)%Q = Lt) by (rewrite <- Qlt_alt; setoid_replace (inject_Z z - inject_Z z)%Q with 0%Q by ring; reflexivity).
  rewrite E. reflexivity.
Qed.
Lemma round_ok d q : exists y, round_cell d (Some q) = Some y /\ rounded_to (/ ten_to d)%Qc q y.
Proof.
  eexists. split; [reflexivity|]. pose proof (ten_pos d) as P. set (p := ten_to d) in *. clearbody p. assert (N : p <> 0%Qc) by (intros ->; exact (Qlt_irrefl _ P)).
  set (z := nearest (this (q * p)%Qc)). destruct (nearest_ok (this (q * p)%Qc)) as (r & E & R1 & R2 & R3). fold z in E, R3.
  set (r' := (q * p - Q2Qc (inject_Z z))%Qc). assert (Er : (this r' == r)%Q).
  { unfold r', Qcminus, Qcopp, Qcplus. cbn [this Q2Qc]. rewrite !Qred_correct. rewrite E. ring. }
  assert (Pu : (0 < / p)%Qc).
  { destruct (Qclt_le_dec 0 (/ p)) as [|L]; [auto|]. exfalso. apply Qcmult_le_compat_r with (z := p) in L; [|apply Qclt_le_weak; auto]. rewrite Qcmult_comm, Qcmult_inv_r in L by auto. rewrite Qcmult_0_l in L. exact (Qle_not_lt _ _ L eq_refl). }
  assert (D : (q - Q2Qc (inject_Z z) / p = r' * / p)%Qc) by (unfold r'; field; auto).
  assert (H2 : (/ p / qc 2 = (1 / qc 2) * / p)%Qc) by (field; split; [auto|discriminate]).
  assert (H3 : (- (/ p / qc 2) = (- (1 / qc 2)) * / p)%Qc) by (field; split; [auto|discriminate]).
  assert (T1 : (this (1 / qc 2)%Qc == 1 # 2)%Q) by (vm_compute; reflexivity). assert (T2 : (this (- (1 / qc 2))%Qc == - (1 # 2))%Q) by (vm_compute; reflexivity).
  exists z. split; [reflexivity|]. change (Q2Qc (inject_Z z) / p)%Qc with (Q2Qc (inject_Z z) / p)%Qc. split; [|split].
  - rewrite D, H3. apply Qcmult_le_compat_r; [|apply Qclt_le_weak; auto]. unfold Qcle. rewrite T2, Er. exact R1.
  - rewrite D, H2. apply Qcmult_le_compat_r; [|apply Qclt_le_weak; auto]. unfold Qcle. rewrite T1, Er. exact R2.
  - rewrite D, H3, H2. intros X. apply R3. assert (C : forall a b, (a * / p = b * / p)%Qc -> a = b).
    { intros a b Y. apply (f_equal (fun w => (w * p)%Qc)) in Y. rewrite <- !Qcmult_assoc in Y. rewrite (Qcmult_comm (/ p) p), Qcmult_inv_r, !Qcmult_1_r in Y by auto. exact Y. }
    destruct X as [X|X]; apply C in X; [left|right]; rewrite <- Er, X; auto.
Qed.
Lemma round_twice d x : round_cell d (round_cell d x) = round_cell d x.
Proof.
  destruct x as [q|]; [|reflexivity]. cbn [round_cell]. pose proof (ten_pos d) as P. set (p := ten_to d) in *. clearbody p. assert (N : p <> 0%Qc) by (intros ->; exact (Qlt_irrefl _ P)).
  set (z := nearest (this (q * p)%Qc)). replace (Q2Qc (inject_Z z) / p * p)%Qc with (Q2Qc (inject_Z z)) by (field; auto). rewrite nearest_whole. reflexivity.
Qed.
