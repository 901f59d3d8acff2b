(** Property theorems: new labels, missing columns, single cells, appended rows and rounding. *)
From Coq Require Import Lia.
From Verif Require Import Ex ExLabel LabelFacts CatFacts P_Rename SpecRename.
Local Open Scope nat_scope.

(** C69. New column names: every amount is found under the name that replaced the old one. *)
Theorem C69_columns : forall t l, wf t -> List.length l = List.length (vdims t) ->
  exists u, rename t (NewColumns (NmList l)) = (u, None) /\ wf u /\ same_but_labels t u /\
    vdims u = l /\ kdims u = kdims t /\ key_labels u = key_labels t /\ odims u = odims t /\ ddims u = ddims t /\
    (NoDup (vdims t) -> NoDup l -> forall k c o a, c < List.length l -> amount_at u k (nth c l EmptyString) o a = amount_at t k (nth c (vdims t) EmptyString) o a) /\
    rename u (NewColumns (NmList (vdims t))) = (t, None).
Proof.
  intros t l W E. exists (set_vdims t l). split; [apply same_len_ok; auto|]. split; [apply wf_set_vdims; auto|]. split; [apply relabel_same|].
  repeat (split; [reflexivity|]). split; [intros; apply columns_read; auto|]. cbn [rename]. unfold put_columns. rewrite same_len_ok by exact E. destruct t; reflexivity.
Qed.
Print Assumptions C69_columns.
(** C69. A new index, by rename or set_index. *)
Theorem C69_index : forall t rows names, wf t -> List.length rows = List.length (kdims t) ->
  exists u, rename t (NewIndex (IxFrame rows names)) = (u, None) /\ set_index t (IxFrame rows names) = Ok u /\ wf u /\ same_but_labels t u /\
    kdims u = rows /\ key_labels u = names /\ vdims u = vdims t /\ odims u = odims t /\ ddims u = ddims t /\
    (NoDup (kdims t) -> NoDup rows -> forall i v o a, i < List.length rows -> amount_at u (nth i rows []) v o a = amount_at t (nth i (kdims t) []) v o a) /\
    rename u (NewIndex (IxFrame (kdims t) (key_labels t))) = (t, None).
Proof.
  intros t rows names W E. exists (set_keys t rows names). cbn [rename]. unfold set_index, put_index. rewrite !same_len_ok by auto. split; [reflexivity|]. split; [reflexivity|].
  split; [apply wf_set_keys; auto|]. split; [constructor; [repeat split|reflexivity|repeat split]|].
  repeat (split; [reflexivity|]). split; [intros; apply index_read; auto|]. destruct t; reflexivity.
Qed.
Print Assumptions C69_index.
(** C69. New origins: the periods the given months belong to. *)
Theorem C69_origin : forall t l, List.length l = List.length (odims t) ->
  exists u, rename t (NewOrigin l) = (u, None) /\ same_but_labels t u /\
    odims u = map (first_month (ograin t)) l /\ kdims u = kdims t /\ key_labels u = key_labels t /\ vdims u = vdims t /\ ddims u = ddims t /\
    (NoDup (odims t) -> NoDup (odims u) -> forall k v o a, o < List.length l -> amount_at u k v (nth o (odims u) 0%Z) a = amount_at t k v (nth o (odims t) 0%Z) a) /\
    ((forall m, In m (odims t) -> first_month (ograin t) m = m) -> rename u (NewOrigin (odims t)) = (t, None)).
Proof.
  intros t l E. exists (set_odims t (map (first_month (ograin t)) l)). split; [apply same_len_ok; auto|]. split; [apply relabel_same|].
  repeat (split; [reflexivity|]). split.
  - intros N1 N2 k v o a Ho. change (odims (set_odims t (map (first_month (ograin t)) l))) with (map (first_month (ograin t)) l) in *. apply origin_read; rewrite ?map_length; auto.
  - intros H. cbn [rename]. unfold put_origin. rewrite same_len_ok by (cbn [set_odims set_dims odims]; rewrite map_length; exact E).
    cbn [set_odims set_dims ograin]. assert (X : map (first_month (ograin t)) (odims t) = odims t) by (rewrite <- (map_id (odims t)) at 2; apply map_ext_in; exact H). rewrite X. destruct t; reflexivity.
Qed.
Print Assumptions C69_origin.
(** The first month of a period: at most the month, less than a period before it, and a multiple of the period from January. *)
Theorem C69_period : forall g m, let n := match g with GY => 12 | GS | GQ => 3 | GM => 1 end%Z in
  (first_month g m <= m < first_month g m + n /\ (n | first_month g m))%Z.
Proof.
  intros g m. destruct g; cbn [first_month]; cbv zeta; split; try (exists m; lia);
    match goal with |- (_ | ?k * (m / ?k))%Z => exists (m / k)%Z; lia | |- _ => idtac end;
    try (pose proof (Z.div_mod m 12 ltac:(lia)); pose proof (Z.mod_pos_bound m 12 ltac:(lia)); pose proof (Z.div_mod m 3 ltac:(lia)); pose proof (Z.mod_pos_bound m 3 ltac:(lia)); lia).
Qed.
Print Assumptions C69_period.
(** C69. New ages. *)
Theorem C69_development : forall t l ages, ddims t = Ages ages -> List.length l = List.length ages ->
  exists u, rename t (NewDevelopment l) = (u, None) /\ same_but_labels t u /\
    ddims u = Ages l /\ kdims u = kdims t /\ key_labels u = key_labels t /\ vdims u = vdims t /\ odims u = odims t /\
    (NoDup ages -> NoDup l -> forall k v o d, d < List.length l -> amount_at u k v o (nth d l 0%Z) = amount_at t k v o (nth d ages 0%Z)) /\
    rename u (NewDevelopment ages) = (t, None).
Proof.
  intros t l ages D E. exists (set_ddims t (Ages l)). split; [apply same_len_ok; rewrite D; auto|]. split; [apply relabel_same|].
  repeat (split; [reflexivity|]). split.
  - intros N1 N2 k v o d Hd. rewrite development_read; rewrite ?D; auto.
  - cbn [rename]. unfold put_development. rewrite same_len_ok by exact E. destruct t. cbn in D. subst. reflexivity.
Qed.
Print Assumptions C69_development.
(** C69. Any other number of labels is a ValueError and leaves the triangle as it was. *)
Theorem C69_length : forall t,
  (forall l, List.length l <> List.length (vdims t) -> rename t (NewColumns (NmList l)) = (t, Some ValueError)) /\
  (forall rows names, List.length rows <> List.length (kdims t) -> rename t (NewIndex (IxFrame rows names)) = (t, Some ValueError) /\ set_index t (IxFrame rows names) = Err ValueError) /\
  (forall l, List.length l <> List.length (odims t) -> rename t (NewOrigin l) = (t, Some ValueError)) /\
  (forall l, List.length l <> List.length (dlist (ddims t)) -> rename t (NewDevelopment l) = (t, Some ValueError)).
Proof.
  intros t. split; [|split; [|split]].
  - intros l H. apply same_len_no. auto.
  - intros rows names H. cbn [rename]. unfold set_index, put_index. rewrite same_len_no by auto. auto.
  - intros l H. apply same_len_no. auto.
  - intros l H. apply same_len_no. auto.
Qed.
Print Assumptions C69_length.

(** C69. reindex keeps all columns and adds those that are missing, once each, in the order asked for, with the fill value up to
    the valuation date. *)
Theorem C69_reindex : forall fill names t, wf t -> (fill <> None -> real_triangle t) ->
  exists u l, reindex t names fill = Ok u /\ wf u /\ same_but_columns t u /\ vdims u = (vdims t ++ l)%list /\ NoDup l /\
    (forall n, In n l <-> In n names /\ ~ In n (vdims t)) /\
    (NoDup names -> l = filter (fun n => if in_dec string_dec n (vdims t) then false else true) names) /\
    forall i o d, i < ax0 (values t) -> o < ax2 (values t) -> d < ax3 (values t) ->
      (forall c, c < ax1 (values t) -> cel u i c o d = cel t i c o d) /\
      (forall c, ax1 (values t) <= c < ax1 (values u) ->
        ((month_of t o d <= vdate t)%Z -> filled_with fill (cel u i c o d)) /\ (future t o d -> cel u i c o d = None)).
Proof. intros fill names t. apply reindex_ok. Qed.
Print Assumptions C69_reindex.

(** C69. iat reads the cell at four positions, counted from the end if negative. *)
Theorem C69_iat : forall t zi zc zo zd i c o d, wf t ->
  stands_for (ax0 (values t)) zi i -> stands_for (ax1 (values t)) zc c -> stands_for (ax2 (values t)) zo o -> stands_for (ax3 (values t)) zd d ->
  iat_get t zi zc zo zd = Ok (cel t i c o d) /\
  forall x, exists u, iat_set t zi zc zo zd x = Ok u /\ same_but_columns t u /\ vdims u = vdims t /\ ax1 (values u) = ax1 (values t) /\ cel u i c o d = x /\
    (forall i' c' o' d', ~ (i' = i /\ c' = c /\ o' = o /\ d' = d) -> cel u i' c' o' d' = cel t i' c' o' d') /\
    iat_get u zi zc zo zd = Ok x.
Proof.
  intros t zi zc zo zd i c o d W Si Sc So Sd. split; [apply iat_get_ok; auto|]. intros x. unfold iat_set. rewrite (posify_ok _ _ _ Si), (posify_ok _ _ _ Sc), (posify_ok _ _ _ So), (posify_ok _ _ _ Sd). cbn [rbind].
  eexists. split; [reflexivity|]. split; [repeat split|]. split; [reflexivity|]. split; [reflexivity|].
  match goal with |- cel ?u _ _ _ _ = _ /\ _ => set (w := u) end. assert (Ex : cel w i c o d = x) by (unfold w, cel; cbn [set_values values av]; rewrite !Z.eqb_refl; reflexivity).
  split; [exact Ex|]. split.
  - intros i' c' o' d' H. unfold w, cel. cbn [set_values values av].
    destruct (Z.eqb_spec (Z.of_nat i') (Z.of_nat i)), (Z.eqb_spec (Z.of_nat c') (Z.of_nat c)), (Z.eqb_spec (Z.of_nat o') (Z.of_nat o)), (Z.eqb_spec (Z.of_nat d') (Z.of_nat d)); cbn [andb]; try reflexivity.
    exfalso. apply H. lia.
  - rewrite (iat_get_ok w zi zc zo zd i c o d); auto; [rewrite Ex; reflexivity|]. destruct W. constructor; auto.
Qed.
Print Assumptions C69_iat.
(** C69. A position outside its axis is an IndexError. *)
Theorem C69_iat_outside : forall t zi zc zo zd x,
  (zi < - Z.of_nat (ax0 (values t)) \/ Z.of_nat (ax0 (values t)) <= zi \/ zc < - Z.of_nat (ax1 (values t)) \/ Z.of_nat (ax1 (values t)) <= zc \/
   zo < - Z.of_nat (ax2 (values t)) \/ Z.of_nat (ax2 (values t)) <= zo \/ zd < - Z.of_nat (ax3 (values t)) \/ Z.of_nat (ax3 (values t)) <= zd)%Z ->
  iat_get t zi zc zo zd = Err IndexError /\ iat_set t zi zc zo zd x = Err IndexError.
Proof.
  intros t zi zc zo zd x H. unfold iat_get, iat_set, iloc. cbn [norm_key].
  destruct (posify_cases (ax0 (values t)) zi) as [(i & Si)|Si]; [rewrite (posify_ok _ _ _ Si)|rewrite (posify_no _ _ Si); split; reflexivity].
  destruct (posify_cases (ax1 (values t)) zc) as [(c & Sc)|Sc]; [rewrite (posify_ok _ _ _ Sc)|rewrite (posify_no _ _ Sc); split; reflexivity].
  destruct (posify_cases (ax2 (values t)) zo) as [(o & So)|So]; [rewrite (posify_ok _ _ _ So)|rewrite (posify_no _ _ So); split; reflexivity].
  destruct (posify_cases (ax3 (values t)) zd) as [(d & Sd)|Sd]; [|rewrite (posify_no _ _ Sd); split; reflexivity].
  unfold stands_for in *. lia.
Qed.
Print Assumptions C69_iat_outside.

(** C69. append: the rows of the second triangle after those of the first, each with its amounts; a row that is in both is refused. *)
Theorem C69_append : forall t u, wf t -> wf u -> NoDup (vdims t) -> vdims u = vdims t -> odims u = odims t -> ddims u = ddims t ->
  (NoDup (kdims t ++ kdims u) -> exists w, append t u = Ok w /\ kdims w = (kdims t ++ kdims u)%list /\ vdims w = vdims t /\ odims w = odims t /\ dlist (ddims w) = dlist (ddims t) /\
    forall k v o a, amount_at w k v o a = (amount_at t k v o a + amount_at u k v o a)%Qc) /\
  (~ NoDup (kdims t ++ kdims u) -> append t u = Err AssertionError).
Proof.
  intros t u Wt Wu Nv V O D. split.
  - intros N. assert (Hw : forall x, In x [t; u] -> wf x) by (intros x [<-|[<-|[]]]; auto).
    assert (Hc : cols_agree (vdims t) [t; u]).
    { split; [auto|]. split; [intros x [<-|[<-|[]]]; rewrite ?V; exists []; rewrite app_nil_r; reflexivity|]. intros c Hc. exists t. split; [left; reflexivity|auto]. }
    assert (Hs : forall x, In x [u] -> same_other AxIndex t x) by (intros x [<-|[]]; split; [congruence|]; split; [auto|]; split; [auto|]; rewrite D; destruct (ddims t); exact I).
    assert (Hu : axis_unique AxIndex [t; u]) by (cbn; rewrite app_nil_r; exact N).
    destruct (concat_gen AxIndex t [u] (vdims t) ltac:(discriminate) Hw Hc Hs Hu) as (w & E & A1 & _ & A3 & A4 & _ & A6 & _).
    exists w. split; [exact E|]. cbn in A1. rewrite app_nil_r in A1. repeat (split; [auto; fail|]). intros k v o a.
    rewrite (concat_amounts AxIndex t [u] (vdims t) ltac:(discriminate) Hw Hc Hs Hu w E). cbn. ring.
  - intros N. apply concat_raises. right. cbn. rewrite app_nil_r. exact N.
Qed.
Print Assumptions C69_append.

(** C69. Rounding: every amount becomes the nearest multiple of the unit, halves the even one; empty cells stay empty and
    rounding again changes nothing. *)
Theorem C69_round : forall t d, let u := round_tri t d in
  same_but_columns t u /\ vdims u = vdims t /\ ax1 (values u) = ax1 (values t) /\
  forall i c o e, match cel t i c o e with
    | None => cel u i c o e = None
    | Some q => exists y, cel u i c o e = Some y /\ rounded_to (/ ten_to d) q y end /\
    cel (round_tri u d) i c o e = cel u i c o e.
Proof.
  intros t d u. split; [repeat split|]. split; [reflexivity|]. split; [reflexivity|]. intros i c o e. split.
  - unfold u, cel. cbn [round_tri set_values values map_arr av]. destruct (av (values t) i c o e) as [q|]; [|reflexivity]. apply round_ok.
  - unfold u, cel. cbn [round_tri set_values values map_arr av]. apply round_twice.
Qed.
Print Assumptions C69_round.
(** C69. The unit: ten to the number of decimals of them make one; for negative decimals the unit is a power of ten. *)
Theorem C69_unit : forall d, (0 <= d)%Z -> (ten_to d = qc (10 ^ d) /\ / ten_to (- d) = qc (10 ^ d))%Qc.
Proof.
  intros d H. unfold ten_to. destruct (Z.leb_spec 0 d); [|lia]. split; [reflexivity|]. destruct (Z.leb_spec 0 (- d)).
  - replace d with 0%Z by lia. vm_compute. reflexivity.
  - rewrite Z.opp_involutive. assert (N : Q2Qc (inject_Z (10 ^ d)) <> 0%Qc).
    { intros E. apply (f_equal this) in E. cbn [this Q2Qc] in E. assert (X : (inject_Z (10 ^ d) == 0)%Q) by (rewrite <- (Qred_correct (inject_Z (10 ^ d))), E; reflexivity).
      unfold Qeq in X. cbn in X. pose proof (Z.pow_pos_nonneg 10 d ltac:(lia) H). lia. }
    unfold qc. field. repeat split; auto; discriminate.
Qed.
Print Assumptions C69_unit.

Example C69_hyps : wf ex3 /\ real_triangle ex3 /\ NoDup (vdims ex3) /\ NoDup (kdims ex3) /\
  fst (rename ex3 (NewColumns (NmList ["incurred"%string]))) = set_vdims ex3 ["incurred"%string] /\
  odims (fst (rename ex3 (NewOrigin [y 2011 + 5; y 2012; y 2013 + 11]%Z))) = [y 2011; y 2012; y 2013] /\
  vdims (Ex.get ex3 (reindex ex3 ["new"; "paid"; "other"]%string None)) = ["paid"; "new"; "other"]%string /\
  iat_get ex3 (-1) 0 (-2) 1 = Ok (cel ex3 0 0 1 1) /\ cel ex3 0 0 1 1 = Some (qc 180) /\
  cel (round_tri ex3 (-2)) 0 0 0 1 = Some (qc 200) /\ cel (round_tri ex3 (-2)) 0 0 0 0 = Some (qc 100).
Proof.
  split; [apply ex3_wf|]. split; [cbn; unfold real_triangle; cbn; lia|]. split; [repeat constructor; intros []|]. split; [repeat constructor; intros []|].
  split; [reflexivity|]. split; [vm_compute; reflexivity|]. split; [vm_compute; reflexivity|]. split; [vm_compute; reflexivity|]. repeat split; apply cell_eqb_eq; vm_compute; reflexivity.
Qed.

(** C69. A list of new labels for the index, as documented, is refused. *)
Theorem C69_index_list_refuted : forall t l, List.length l = List.length (kdims t) -> rename t (NewIndex (IxList l)) = (t, Some TypeError).
Proof. intros t l E. apply same_len_ok. auto. Qed.
Print Assumptions C69_index_list_refuted.
(** C69. A text assigned to [columns] is measured by its characters: refused for one column, accepted for four, which leaves one
    name for four columns. *)
Theorem C69_text_refuted : exists t1 t4 u, wf t1 /\ wf t4 /\ List.length (vdims t1) = 1 /\ put_columns t1 (NmText "paid") = (t1, Some ValueError) /\
  put_columns t4 (NmText "paid") = (u, None) /\ ax1 (values u) = 4 /\ vdims u = ["paid"%string].
Proof.
  pose (t4 := Tri (kdims ex3) (key_labels ex3) ["a"; "b"; "c"; "d"]%string (odims ex3) (ddims ex3) (Arr 1 4 3 3 (fun _ _ o d => av (values ex3) 0 0 o d)) (vdate ex3) (Some true) false GY GY).
  exists ex3, t4, (set_vdims t4 ["paid"%string]). split; [apply ex3_wf|]. split; [apply wfb_ok; vm_compute; reflexivity|]. repeat split.
Qed.
Print Assumptions C69_text_refuted.
(** C69. Later origins keep the old valuation date: amounts lie after it. *)
Theorem C69_later_origins_refuted : exists t l u o d, wf t /\ blank_future t /\ rename t (NewOrigin l) = (u, None) /\ StronglySorted Z.lt (odims u) /\
  o < ax2 (values u) /\ d < ax3 (values u) /\ future u o d /\ cel u 0 0 o d = Some (qc 175).
Proof.
  exists ex3, [y 2002; y 2003; y 2004], (fst (rename ex3 (NewOrigin [y 2002; y 2003; y 2004]))), 0, 2. split; [apply ex3_wf|]. split; [apply ex3_blank|]. split; [reflexivity|].
  split; [vm_compute; repeat constructor|]. split; [vm_compute; lia|]. split; [vm_compute; lia|]. split; [vm_compute; reflexivity|]. apply cell_eqb_eq; vm_compute; reflexivity.
Qed.
Print Assumptions C69_later_origins_refuted.
(** C69. New labels for the valuations of a valuation triangle make them ages. *)
Theorem C69_valuations_refuted : forall t l vals, ddims t = Vals vals -> List.length l = List.length vals ->
  exists u, rename t (NewDevelopment l) = (u, None) /\ ddims u = Ages l.
Proof. intros t l vals D E. exists (set_ddims t (Ages l)). split; [apply same_len_ok; rewrite D; auto|reflexivity]. Qed.
Print Assumptions C69_valuations_refuted.
(** C69. reindex does not drop the columns that were not asked for, unlike pandas. *)
Theorem C69_reindex_keeps_refuted : exists t u, wf t /\ reindex t ["new"%string] None = Ok u /\ vdims u = ["paid"; "new"]%string.
Proof. exists ex3, (Ex.get ex3 (reindex ex3 ["new"%string] None)). split; [apply ex3_wf|]. split; [apply get_ok; vm_compute; reflexivity|vm_compute; reflexivity]. Qed.
Print Assumptions C69_reindex_keeps_refuted.
(** C69. A single cell can be written after the valuation date. *)
Theorem C69_iat_future_refuted : exists t u, wf t /\ blank_future t /\ iat_set t 0 0 (-1) (-1) (Some (qc 7)) = Ok u /\ future u 2 2 /\ cel u 0 0 2 2 = Some (qc 7).
Proof.
  exists ex3, (Ex.get ex3 (iat_set ex3 0 0 (-1) (-1) (Some (qc 7)))). split; [apply ex3_wf|]. split; [apply ex3_blank|]. split; [apply get_ok; vm_compute; reflexivity|].
  split; [vm_compute; reflexivity|]. apply cell_eqb_eq; vm_compute; reflexivity.
Qed.
Print Assumptions C69_iat_future_refuted.
