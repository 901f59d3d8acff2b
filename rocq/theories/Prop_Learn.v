(** Property theorems: the fitted triangle of a regression estimator. *)
From Coq Require Import List String ZArith Lia.
From Verif Require Import Learn SpecLearn P_Learn.
Import ListNotations.
Local Open Scope Z_scope.

Lemma NoDup_map_in {A B} (f : A -> B) l : NoDup l -> (forall x y, In x l -> In y l -> f x = f y -> x = y) -> NoDup (map f l).
Proof.
  induction l as [|a l IH]; intros N J; cbn; [constructor|]. inversion N; subst. constructor.
  - intros I. apply in_map_iff in I. destruct I as (y & E & I). assert (y = a) by (apply J; [right|left|]; auto). subst. auto.
  - apply IH; auto. intros x y Hx Hy. apply J; right; auto.
Qed.
(** C72. From the cells of a triangle up to its latest diagonal the fitted triangle is built from one prediction for each cell of the whole square:
    no cell is missing, none appears twice, and each is the regression at the origin, age and valuation of that cell. *)
Theorem C72_square : forall g h periods keys o0 n rows pred, same_grain g h periods -> (1 <= n)%nat -> keys <> [] -> known_cells keys o0 h n rows ->
  let out := fitted_table g g (map (origin_at o0 h) (seq 0 n)) (map (valuation_at o0 h) (seq 0 (2 * n - 1))) pred rows in
  NoDup (map fst out) /\
  forall x, In x out <-> exists k i d, In k keys /\ (i < n)%nat /\ (d < n)%nat /\
    x = (k, Some (origin_at o0 h i), Some (valuation_at o0 h (i + d)), pred (features k h periods i d)).
Proof.
  intros g h p keys o0 n rows pred G N KE [NR KR] out.
  destruct (hp _ _ _ _ G N) as [H0 [P0 HP]]. assert (PY := gp _ _ _ G).
  assert (K : exists k, In k keys) by (destruct keys as [|k ks]; [congruence|exists k; left; reflexivity]).
  assert (Jo : forall a b, origin_at o0 h a = origin_at o0 h b -> a = b) by (unfold origin_at; intros; nia).
  assert (Jv : forall a b, valuation_at o0 h a = valuation_at o0 h b -> a = b) by (unfold valuation_at; intros; nia).
  set (eo := encoder g (map (origin_at o0 h) (seq 0 n))) in *. set (ev := encoder g (map (valuation_at o0 h) (seq 0 (2 * n - 1)))) in *.
  set (enc := fun r => Feat (k_key r) (encode eo (k_origin r)) (k_age r) (encode ev (k_val r))).
  assert (E : forall k i d, (i + d < n)%nat -> enc (Known k (origin_at o0 h i) (age_at h d) (valuation_at o0 h (i + d))) = features k h p i d).
  { intros k i d L. unfold enc, features. cbn [k_key k_origin k_age k_val]. unfold eo, ev. rewrite !encode_at by (auto; lia). rewrite PY. reflexivity. }
  assert (DF : forall r, In r (prep eo ev rows) <-> exists k i d, In k keys /\ (i + d < n)%nat /\ r = features k h p i d).
  { intros r. unfold prep. fold enc. rewrite in_map_iff. split.
    - intros (x & <- & I). apply KR in I. destruct I as (k & i & d & Hk & L & ->). exists k, i, d. rewrite E by auto. auto.
    - intros (k & i & d & Hk & L & ->). eexists. split; [apply (E k i d L)|]. apply KR. exists k, i, d. auto. }
  assert (ND : NoDup (prep eo ev rows)).
  { unfold prep. fold enc. apply NoDup_map_in; auto. intros x y Ix Iy Q. apply KR in Ix, Iy. destruct Ix as (k & i & d & _ & L & ->). destruct Iy as (k' & i' & d' & _ & L' & ->).
    rewrite !E in Q by auto. apply (F_inj _ _ _ _ G N) in Q. destruct Q as (-> & -> & ->). reflexivity. }
  destruct (all_rows_In g h p keys n G N _ ND K DF) as [NA IA].
  set (res := fun r => (f_key r, decode eo (f_origin r), decode ev (f_val r), pred r)).
  assert (R : forall k i d, (i < n)%nat -> (d < n)%nat -> res (features k h p i d) = (k, Some (origin_at o0 h i), Some (valuation_at o0 h (i + d)), pred (features k h p i d))).
  { intros k i d Hi Hd. unfold res. cbn [features f_key f_origin f_val]. rewrite <- PY. unfold eo, ev. rewrite !decode_at by (try (rewrite PY); lia). reflexivity. }
  change out with (map res (all_rows g g (prep eo ev rows))). split.
  - rewrite map_map. apply NoDup_map_in; auto. intros x y Ix Iy Q. apply IA in Ix, Iy. destruct Ix as (k & i & d & _ & Hi & Hd & ->). destruct Iy as (k' & i' & d' & _ & Hi' & Hd' & ->).
    rewrite !R in Q by auto. cbn [fst] in Q. inversion Q as [[Q1 Q2 Q3]]. assert (i = i') by (apply Jo; exact Q2). subst i'. assert (i + d = i + d')%nat by (apply Jv; exact Q3). assert (d = d') by lia. subst. reflexivity.
  - intros x. rewrite in_map_iff. split.
    + intros (r & <- & I). apply IA in I. destruct I as (k & i & d & Hk & Hi & Hd & ->). exists k, i, d. rewrite R by auto. auto.
    + intros (k & i & d & Hk & Hi & Hd & ->). exists (features k h p i d). split; [apply R; auto|]. apply IA. exists k, i, d. auto.
Qed.
Print Assumptions C72_square.
(** Not vacuous: for every number of origins there are such cells. *)
Definition cells (keys : list (list string)) (o0 h : Z) (n : nat) : list known :=
  flat_map (fun i => flat_map (fun d => map (fun k => Known k (origin_at o0 h i) (age_at h d) (valuation_at o0 h (i + d))) keys) (seq 0 (n - i))) (seq 0 n).
Example C72_square_case : same_grain GY 12 1 /\ known_cells [["a"]; ["b"]]%string (12 * 2001) 12 2 (cells [["a"]; ["b"]]%string (12 * 2001) 12 2).
Proof.
  split; [left; auto|]. split; [vm_compute; repeat constructor; cbn; intuition discriminate|]. intros r. unfold cells. rewrite in_flat_map. split.
  - intros (i & Hi & I). apply in_flat_map in I. destruct I as (d & Hd & I). apply in_map_iff in I. destruct I as (k & <- & Hk). apply in_seq in Hi, Hd. exists k, i, d. repeat split; auto; lia.
  - intros (k & i & d & Hk & L & ->). exists i. split; [apply in_seq; lia|]. apply in_flat_map. exists d. split; [apply in_seq; lia|]. apply in_map_iff. exists k. auto.
Qed.

(** C72. Violated: annual origins by quarter.  Only the oldest origin is taken for the latest diagonal; no later age of the others is fitted. *)
Definition year_by_quarter : list known :=
  map (fun d => Known ["t"%string] (12 * 2001) (age_at 3 d) (valuation_at (12 * 2001) 3 d)) (seq 0 8) ++
  map (fun d => Known ["t"%string] (12 * 2002) (age_at 3 d) (valuation_at (12 * 2002) 3 d)) (seq 0 4).
(** The amounts of the cells that are fitted are predictions at the right times. *)
Definition years_since (z0 z : Z) : Qc := (qc (z - z0) / qc 12)%Qc.
Theorem C72_quarters_refuted : forall pred, let out := fitted_table GY GQ [12 * 2001; 12 * 2002] (map (valuation_at (12 * 2001) 3) (seq 0 12)) pred year_by_quarter in
  List.length out = 12%nat /\ (forall v, In (["t"%string], Some (12 * 2002), v) (map fst out) -> exists d, (d < 4)%nat /\ v = Some (valuation_at (12 * 2002) 3 d)) /\
  map snd out = map (fun r => pred (Feat (k_key r) (years_since (12 * 2001) (k_origin r)) (k_age r) (years_since (valuation_at (12 * 2001) 3 0) (k_val r)))) year_by_quarter.
Proof.
  intros pred out.
  assert (E : map fst out = map (fun r => ([("t")%string], Some (k_origin r), Some (k_val r))) year_by_quarter).
  { unfold out, fitted_table. rewrite map_map. cbn [fst]. vm_compute. reflexivity. }
  split; [rewrite <- (map_length fst), E, map_length; reflexivity|]. split; cycle 1.
  { unfold out, fitted_table. rewrite map_map. cbn [snd]. rewrite <- (map_map (fun r => Feat (k_key r) (years_since (12 * 2001) (k_origin r)) (k_age r) (years_since (valuation_at (12 * 2001) 3 0) (k_val r))) pred). f_equal.
    vm_compute. repeat (f_equal; try (apply Qc_is_canon; reflexivity)). }
  rewrite E. intros v I. apply in_map_iff in I. destruct I as (r & Q & I). unfold year_by_quarter in I. apply in_app_or in I. destruct I as [I|I].
  - apply in_map_iff in I. destruct I as (d & <- & _). cbn [k_origin k_val] in Q. inversion Q.
  - apply in_map_iff in I. destruct I as (d & <- & Hd). apply in_seq in Hd. cbn [k_origin k_val] in Q. inversion Q. exists d. split; [lia|reflexivity].
Qed.
Print Assumptions C72_quarters_refuted.
(** C72. Violated: half-years.  The code of a valuation moves by a half where the encoder uses sixths: the fitted cell has no valuation. *)
Theorem C72_half_years_refuted : forall pred, let o0 := 12 * 2001 in
  known_cells [["t"]]%string o0 6 2 (cells [["t"]]%string o0 6 2) /\
  In (["t"%string], Some (origin_at o0 6 1), None) (map fst (fitted_table GS GS (map (origin_at o0 6) (seq 0 2)) (map (valuation_at o0 6) (seq 0 3)) pred (cells [["t"]]%string o0 6 2))).
Proof.
  intros pred o0. split.
  - split; [vm_compute; repeat constructor; cbn; intuition discriminate|]. intros r. unfold cells. rewrite in_flat_map. split.
    + intros (i & Hi & I). apply in_flat_map in I. destruct I as (d & Hd & I). apply in_map_iff in I. destruct I as (k & <- & Hk). apply in_seq in Hi, Hd. exists k, i, d. repeat split; auto; lia.
    + intros (k & i & d & Hk & L & ->). exists i. split; [apply in_seq; lia|]. apply in_flat_map. exists d. split; [apply in_seq; lia|]. apply in_map_iff. exists k. auto.
  - unfold fitted_table. rewrite map_map. cbn [fst]. vm_compute. auto 10.
Qed.
Print Assumptions C72_half_years_refuted.
(** C72. Violated: if the latest amount of an origin is missing, none of its later ages is fitted. *)
Definition gap_rows : list known := filter (fun r => negb ((k_origin r =? 12 * 2002) && (k_age r =? 24))) (cells [["t"]]%string (12 * 2001) 12 3).
Theorem C72_gap_refuted : forall pred v, let out := fitted_table GY GY (map (origin_at (12 * 2001) 12) (seq 0 3)) (map (valuation_at (12 * 2001) 12) (seq 0 5)) pred gap_rows in
  In (["t"%string], Some (12 * 2002), v) (map fst out) -> v = Some (12 * 2002 + 11).
Proof.
  intros pred v out. unfold out, fitted_table. rewrite map_map. cbn [fst].
  match goal with |- In _ ?l -> _ => let l' := eval vm_compute in l in replace l with l' by (vm_compute; reflexivity) end.
  cbn [In]. intros H. repeat (destruct H as [H|H]; [inversion H; try reflexivity|]). destruct H.
Qed.
Print Assumptions C72_gap_refuted.
