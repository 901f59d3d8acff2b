From Coq Require Import Lia.
From Verif Require Import SpecHeap.
Local Open Scope nat_scope.

Lemma replace_len {A} n (x : A) l : List.length (replace n x l) = List.length l.
Proof. revert n. induction l as [|y l IH]; intros [|n]; cbn; auto. Qed.
Lemma replace_nth {A} n m (x : A) l : nth_error (replace n x l) m = if (m =? n) && (n <? List.length l) then Some x else nth_error l m.
Proof.
  revert n m. induction l as [|y l IH]; intros n m.
  - destruct n; cbn; rewrite andb_false_r; destruct m; auto.
  - destruct n as [|n], m as [|m]; cbn [replace nth_error List.length Nat.eqb andb]; auto. rewrite IH. destruct (Nat.eqb_spec m n); cbn [andb]; auto.
Qed.
Lemma replace_nth' {A} n m (x : A) l d : nth m (replace n x l) d = if (m =? n) && (n <? List.length l) then x else nth m l d.
Proof.
  revert n m. induction l as [|y l IH]; intros n m.
  - destruct n; cbn; rewrite andb_false_r; destruct m; auto.
  - destruct n as [|n], m as [|m]; cbn [replace nth List.length Nat.eqb andb]; auto. rewrite IH. destruct (Nat.eqb_spec m n); cbn [andb]; auto.
Qed.

(** [r] is the same triangle in both memories, with the same amounts. *)
Definition keeps (r : nat) (h h' : heap) : Prop := forall o, get_obj h r = Some o -> get_obj h' r = Some o /\ get_arr h' (o_values o) = get_arr h (o_values o).
Lemma keeps_refl r h : keeps r h h. Proof. intros o. auto. Qed.
Lemma keeps_trans r h1 h2 h3 : keeps r h1 h2 -> keeps r h2 h3 -> keeps r h1 h3.
Proof. intros A B o H. destruct (A o H) as (H2 & E2). destruct (B o H2) as (H3 & E3). split; auto. congruence. Qed.
Lemma keeps_observed r h h' : keeps r h h' -> r < List.length (objs h) -> observed h' r = observed h r.
Proof.
  intros K L. unfold observed. destruct (get_obj h r) as [o|] eqn:E; [|apply nth_error_None in E; lia]. destruct (K o E) as (-> & Ea). cbn. unfold content. rewrite Ea. auto.
Qed.

(** * Primitive changes *)
Lemma get_obj_lt h r o : get_obj h r = Some o -> r < List.length (objs h).
Proof. intros H. apply nth_error_Some. unfold get_obj in H. congruence. Qed.
Lemma new_arr_ok h a : memory h -> let '(h', n) := new_arr h a in
  memory h' /\ objs h' = objs h /\ dicts h' = dicts h /\ vars h' = vars h /\ n = List.length (arrs h) /\ get_arr h' n = a /\ n < List.length (arrs h') /\ (forall m, m < List.length (arrs h) -> get_arr h' m = get_arr h m) /\
  (forall r o, get_obj h r = Some o -> o_values o <> n) /\ forall r, keeps r h h'.
Proof.
  intros M. cbn. split; [|split; [|split; [|split; [|split; [|split; [|split; [|split; [|split]]]]]]]]; auto.
  - constructor; cbn [arrs dicts vars objs].
    + intros r o H. apply (me_arr _ M) in H. rewrite app_length. cbn. lia.
    + intros r o H. apply (me_dict _ M r o H).
    + intros r r' o o' H H'. apply (me_own _ M r r' o o' H H').
    + intros x r H. apply (me_var _ M x r H).
  - unfold get_arr. cbn. rewrite app_nth2, Nat.sub_diag; auto.
  - rewrite app_length. cbn. lia.
  - intros m Hm. unfold get_arr. cbn. rewrite app_nth1; auto.
  - intros r o H. apply (me_arr _ M) in H. lia.
  - intros r o H. split; auto. unfold get_arr. cbn. rewrite app_nth1; auto. apply (me_arr _ M r o H).
Qed.
Lemma new_dict_ok h d : memory h -> let '(h', n) := new_dict h d in
  memory h' /\ objs h' = objs h /\ arrs h' = arrs h /\ vars h' = vars h /\ n = List.length (dicts h) /\ get_dict h' n = d /\ n < List.length (dicts h') /\ (forall m, m < List.length (dicts h) -> get_dict h' m = get_dict h m) /\ forall r, keeps r h h'.
Proof.
  intros M. cbn. split; [|split; [|split; [|split; [|split; [|split; [|split; [|split]]]]]]]; auto.
  - constructor; cbn [arrs dicts vars objs].
    + intros r o H. apply (me_arr _ M r o H).
    + intros r o H. apply (me_dict _ M) in H. rewrite app_length. cbn. lia.
    + intros r r' o o' H H'. apply (me_own _ M r r' o o' H H').
    + intros x r H. apply (me_var _ M x r H).
  - unfold get_dict. cbn. rewrite app_nth2, Nat.sub_diag; auto.
  - rewrite app_length. cbn. lia.
  - intros m Hm. unfold get_dict. cbn. rewrite app_nth1; auto.
  - intros r o H. auto.
Qed.
Lemma new_obj_ok h o : memory h -> o_values o < List.length (arrs h) -> o_columns o < List.length (dicts h) -> (forall r o', get_obj h r = Some o' -> o_values o' <> o_values o) -> let '(h', n) := new_obj h o in
  memory h' /\ arrs h' = arrs h /\ dicts h' = dicts h /\ vars h' = vars h /\ n = List.length (objs h) /\ get_obj h' n = Some o /\ List.length (objs h') = S (List.length (objs h)) /\
  (forall r, r < List.length (objs h) -> get_obj h' r = get_obj h r) /\ forall r, keeps r h h'.
Proof.
  intros M La Ld F. cbn.
  assert (G : forall r, get_obj (Heap (objs h ++ [o]) (arrs h) (dicts h) (vars h)) r = if r =? List.length (objs h) then Some o else get_obj h r).
  { intros r. unfold get_obj. cbn. destruct (Nat.eqb_spec r (List.length (objs h))) as [->|D].
    - rewrite nth_error_app2, Nat.sub_diag; auto.
    - destruct (Nat.lt_ge_cases r (List.length (objs h))); [apply nth_error_app1; auto|]. rewrite (proj2 (nth_error_None (objs h) r)) by lia. apply nth_error_None. rewrite app_length. cbn. lia. }
  split; [|split; [|split; [|split; [|split; [|split; [|split; [|split]]]]]]]; auto.
  - constructor; cbn [arrs dicts vars objs].
    + intros r o' H. rewrite G in H. destruct (r =? _); [injection H as <-; auto|apply (me_arr _ M r o' H)].
    + intros r o' H. rewrite G in H. destruct (r =? _); [injection H as <-; auto|apply (me_dict _ M r o' H)].
    + intros r r' o1 o2 H H' E. rewrite G in H, H'. destruct (Nat.eqb_spec r (List.length (objs h))), (Nat.eqb_spec r' (List.length (objs h))); try lia.
      * injection H as <-. exfalso. apply (F r' o2 H'). auto.
      * injection H' as <-. exfalso. apply (F r o1 H). auto.
      * apply (me_own _ M r r' o1 o2 H H' E).
    + intros x r H. apply (me_var _ M) in H. rewrite app_length. lia.
  - rewrite G, Nat.eqb_refl. auto.
  - rewrite app_length. cbn. lia.
  - intros r Hr. rewrite G. destruct (Nat.eqb_spec r (List.length (objs h))); [lia|auto].
  - intros r o' H. split; auto. rewrite G. destruct (Nat.eqb_spec r (List.length (objs h))); auto. apply get_obj_lt in H. lia.
Qed.
Lemma put_obj_get h r o r' : r < List.length (objs h) -> get_obj (put_obj h r o) r' = if r' =? r then Some o else get_obj h r'.
Proof. intros L. unfold get_obj, put_obj. cbn. rewrite replace_nth. apply Nat.ltb_lt in L. rewrite L, andb_true_r. auto. Qed.
Lemma put_obj_ok h r o : memory h -> r < List.length (objs h) -> o_values o < List.length (arrs h) -> o_columns o < List.length (dicts h) -> (forall r' o', r' <> r -> get_obj h r' = Some o' -> o_values o' <> o_values o) ->
  memory (put_obj h r o) /\ forall r', r' <> r -> keeps r' h (put_obj h r o).
Proof.
  intros M L La Ld F. split.
  - constructor.
    + intros r' o' H. rewrite put_obj_get in H by auto. destruct (r' =? r); [injection H as <-; auto|apply (me_arr _ M r' o' H)].
    + intros r' o' H. rewrite put_obj_get in H by auto. destruct (r' =? r); [injection H as <-; auto|apply (me_dict _ M r' o' H)].
    + intros r1 r2 o1 o2 H H' E. rewrite put_obj_get in H, H' by auto. destruct (Nat.eqb_spec r1 r), (Nat.eqb_spec r2 r); try lia.
      * injection H as <-. exfalso. apply (F r2 o2); auto.
      * injection H' as <-. exfalso. apply (F r1 o1); auto.
      * apply (me_own _ M r1 r2 o1 o2 H H' E).
    + intros x r' H. unfold put_obj. cbn. rewrite replace_len. apply (me_var _ M x r' H).
  - intros r' D o' H. split; auto. rewrite put_obj_get by auto. destruct (Nat.eqb_spec r' r); [contradiction|auto].
Qed.
Lemma put_arr_ok h a x : memory h -> memory (put_arr h a x) /\ forall r, (forall o, get_obj h r = Some o -> o_values o <> a) -> keeps r h (put_arr h a x).
Proof.
  intros M. split.
  - constructor; unfold put_arr; cbn [arrs dicts vars objs]; try rewrite replace_len; try apply M.
  - intros r F o H. split; auto. unfold get_arr, put_arr. cbn. rewrite replace_nth'. destruct (Nat.eqb_spec (o_values o) a); cbn [andb]; auto. exfalso. apply (F o H). auto.
Qed.
Lemma put_dict_ok h d x : memory h -> memory (put_dict h d x) /\ forall r, keeps r h (put_dict h d x).
Proof.
  intros M. split.
  - constructor; unfold put_dict; cbn [arrs dicts vars objs]; try rewrite replace_len; try apply M.
  - intros r o H. auto.
Qed.
Lemma bind_ok h y n : memory h -> n < List.length (objs h) -> memory (bind_var h y n) /\ forall r, keeps r h (bind_var h y n).
Proof.
  intros M L. split; [|intros r o H; auto]. constructor; unfold bind_var; cbn [arrs dicts vars objs]; try apply M.
  intros x r H. cbn in H. destruct (y =? x); [injection H as <-; auto|apply (me_var _ M x r H)].
Qed.

(** * Copies and assignments of attributes *)
Record extends (h h' : heap) : Prop := {
  ex_mem : memory h'; ex_keeps : forall r, keeps r h h'; ex_vars : vars h' = vars h; ex_len : List.length (objs h) <= List.length (objs h');
  ex_dict : forall d, d < List.length (dicts h) -> get_dict h' d = get_dict h d /\ d < List.length (dicts h');
  ex_old : forall r o, get_obj h' r = Some o -> r < List.length (objs h) -> get_obj h r = Some o }.
Lemma extends_refl h : memory h -> extends h h.
Proof. intros M. constructor; auto using keeps_refl. Qed.
Lemma extends_trans h1 h2 h3 : extends h1 h2 -> extends h2 h3 -> extends h1 h3.
Proof.
  intros A B. constructor.
  - apply (ex_mem _ _ B).
  - intros r. eapply keeps_trans; [apply (ex_keeps _ _ A)|apply (ex_keeps _ _ B)].
  - rewrite (ex_vars _ _ B). apply (ex_vars _ _ A).
  - pose proof (ex_len _ _ A). pose proof (ex_len _ _ B). lia.
  - intros d L. destruct (ex_dict _ _ A d L) as (E & L'). destruct (ex_dict _ _ B d L') as (E' & L''). split; auto. congruence.
  - intros r o H L. apply (ex_old _ _ A); auto. apply (ex_old _ _ B); auto. pose proof (ex_len _ _ A). lia.
Qed.
Lemma slicers_ok h d : memory h -> d < List.length (dicts h) -> let '(h', d') := slicers h d in
  extends h h' /\ objs h' = objs h /\ arrs h' = arrs h /\ d' < List.length (dicts h') /\ get_dict h' d' = get_dict h d /\ (d' = d /\ get_dict h d <> [] \/ d' = List.length (dicts h) /\ get_dict h d = []).
Proof.
  intros M L. unfold slicers. destruct (get_dict h d) as [|e l] eqn:E.
  - pose proof (new_dict_ok h [] M) as N. destruct (new_dict h []) as (h', n). destruct N as (N1 & N2 & N3 & N4 & N5 & N6 & N7 & N8 & N9).
    split; [|split; [|split; [|split; [|split]]]]; auto. constructor; auto.
    + rewrite N2. auto.
    + intros d' L'. split; auto. subst n. lia.
    + intros r o. unfold get_obj. rewrite N2. auto.
  - split; [apply extends_refl; auto|]. split; auto. split; auto. split; auto. split; auto. left. split; auto. discriminate.
Qed.
Lemma copy_ok h o r : memory h -> get_obj h r = Some o -> let '(h', n) := copy h o in
  extends h h' /\ n = List.length (objs h) /\ List.length (objs h') = S n /\ arrs h' = arrs h ++ [get_arr h (o_values o)] /\ exists d, get_obj h' n = Some (Obj (frame o) (List.length (arrs h)) d) /\ get_arr h' (List.length (arrs h)) = get_arr h (o_values o) /\ get_dict h' d = get_dict h (o_columns o) /\
  (d = o_columns o /\ get_dict h (o_columns o) <> [] \/ d = List.length (dicts h) /\ get_dict h (o_columns o) = []).
Proof.
  intros M H. unfold copy. pose proof (slicers_ok h (o_columns o) M (me_dict _ M r o H)) as S. destruct (slicers h (o_columns o)) as (h1, d). destruct S as (S1 & S2 & S3 & S4 & S5 & S6).
  assert (Ea : get_arr h1 (o_values o) = get_arr h (o_values o)) by (unfold get_arr; rewrite S3; auto).
  pose proof (new_arr_ok h1 (get_arr h1 (o_values o)) (ex_mem _ _ S1)) as A. destruct (new_arr h1 (get_arr h1 (o_values o))) as (h2, a) eqn:Eh2. destruct A as (A1 & A2 & A3 & A4 & A5 & A6 & A7 & A8 & A9 & A10).
  assert (Ea2 : arrs h2 = arrs h ++ [get_arr h (o_values o)]) by (unfold new_arr in Eh2; injection Eh2 as <- _; cbn; rewrite S3, Ea; auto).
  assert (X2 : extends h1 h2).
  { constructor; auto. - rewrite A2. auto. - intros d' L'. unfold get_dict. rewrite A3. auto. - intros r' o'. unfold get_obj. rewrite A2. auto. }
  pose proof (new_obj_ok h2 (Obj (frame o) a d) A1) as N. specialize (N A7). rewrite A3 in N. specialize (N S4). cbn [o_values] in N.
  specialize (N (fun r' o' E => A9 r' o' (eq_trans (eq_sym (f_equal (fun l => nth_error l r') A2)) E))).
  destruct (new_obj h2 (Obj (frame o) a d)) as (h3, n). destruct N as (N1 & N2 & N3 & N4 & N5 & N6 & N7 & N8 & N9).
  rewrite S3 in A5. subst a. rewrite A2, S2 in N5, N7.
  split; [|split; [auto|split; [lia|split; [congruence|]]]].
  - apply (extends_trans _ _ _ S1). apply (extends_trans _ _ _ X2). constructor; auto.
    + rewrite A2, S2. lia.
    + intros d' L'. unfold get_dict. rewrite N3, A3. rewrite A3 in L'. auto.
    + intros r' o' H' L'. rewrite N8 in H'; auto.
  - exists d. split; auto. split; [unfold get_arr in *; rewrite N2; rewrite A6; auto|]. split; [unfold get_dict in *; rewrite N3; auto|auto].
Qed.
Lemma assign_ok h r f a : memory h -> memory (assign h r f a) /\ (forall r', r' <> r -> keeps r' h (assign h r f a)) /\ dicts (assign h r f a) = dicts h /\ vars (assign h r f a) = vars h /\
  List.length (objs (assign h r f a)) = List.length (objs h) /\ (forall r', r' <> r -> get_obj (assign h r f a) r' = get_obj h r') /\
  (forall o, get_obj h r = Some o -> exists n, get_obj (assign h r f a) r = Some (Obj f n (o_columns o)) /\ get_arr (assign h r f a) n = a).
Proof.
  intros M. unfold assign. destruct (get_obj h r) as [o|] eqn:E.
  2: { split; auto. split; [intros; apply keeps_refl|]. split; auto. split; auto. split; auto. split; auto. discriminate. }
  pose proof (new_arr_ok h a M) as A. destruct (new_arr h a) as (h1, n). destruct A as (A1 & A2 & A3 & A4 & A5 & A6 & A7 & A8 & A9 & A10).
  assert (L : r < List.length (objs h1)) by (rewrite A2; eapply get_obj_lt; eauto).
  destruct (put_obj_ok h1 r (Obj f n (o_columns o)) A1 L A7) as (P1 & P2).
  - cbn. rewrite A3. apply (me_dict _ M r o E).
  - intros r' o' _ H. apply (A9 r' o'). unfold get_obj in *. rewrite <- A2. auto.
  - split; auto. split; [intros r' D; eapply keeps_trans; [apply A10|apply P2; auto]|]. split; auto. split; auto. split; [cbn; rewrite replace_len, A2; auto|]. split.
    + intros r' D. rewrite put_obj_get by auto. destruct (Nat.eqb_spec r' r); [contradiction|]. unfold get_obj. rewrite A2. auto.
    + intros o' [= <-]. exists n. split; [rewrite put_obj_get, Nat.eqb_refl; auto|]. exact A6.
Qed.

(** * Steps *)
Record step_ok (h h' : heap) (r : nat) : Prop := { st_mem : memory h'; st_keeps : keeps r h h' }.
Lemma step_ok_refl h r : memory h -> step_ok h h r.
Proof. intros M. constructor; auto using keeps_refl. Qed.
Lemma step_ok_trans h1 h2 h3 r : step_ok h1 h2 r -> step_ok h2 h3 r -> step_ok h1 h3 r.
Proof. intros A B. constructor; [apply (st_mem _ _ _ B)|]. eapply keeps_trans; [apply (st_keeps _ _ _ A)|apply (st_keeps _ _ _ B)]. Qed.
Lemma extends_ok h h' r : extends h h' -> step_ok h h' r.
Proof. intros X. constructor; apply X. Qed.
Lemma bind_step h y n r : memory h -> n < List.length (objs h) -> step_ok h (bind_var h y n) r.
Proof. intros M L. destruct (bind_ok h y n M L) as (A & B). constructor; auto. Qed.
Lemma assign_step h r' f a r : memory h -> r <> r' -> step_ok h (assign h r' f a) r.
Proof. intros M D. destruct (assign_ok h r' f a M) as (A & B & _). constructor; auto. Qed.
Lemma put_dict_step h d x r : memory h -> step_ok h (put_dict h d x) r.
Proof. intros M. destruct (put_dict_ok h d x M) as (A & B). constructor; auto. Qed.
Lemma put_arr_step h r' o' x r : memory h -> get_obj h r' = Some o' -> r <> r' -> step_ok h (put_arr h (o_values o') x) r.
Proof.
  intros M H D. destruct (put_arr_ok h (o_values o') x M) as (A & B). constructor; auto. apply B. intros o E C. apply D. apply (me_own _ M r r' o o' E H C).
Qed.
Lemma derived_ok h y o r0 res r : memory h -> get_obj h r0 = Some o -> r <> List.length (objs h) -> step_ok h (derived h y o res) r.
Proof.
  intros M H L. unfold derived. destruct res as [(f, a)|e]; [|apply step_ok_refl; auto].
  pose proof (copy_ok h o r0 M H) as C. destruct (copy h o) as (h1, n). destruct C as (X & En & El & _).
  apply (step_ok_trans _ h1); [apply extends_ok; auto|]. apply (step_ok_trans _ (assign h1 n f a)); [apply assign_step; [apply X|lia]|].
  destruct (assign_ok h1 n f a (ex_mem _ _ X)) as (A & _ & _ & _ & E & _). apply bind_step; auto. lia.
Qed.
Lemma of_some {A} h x (k : nat -> obj -> A) z : (match (match var x (vars h) with Some r => option_map (fun o => (r, o)) (get_obj h r) | None => None end) with Some (r, o) => k r o | None => z end) =
  match var x (vars h) with Some r => match get_obj h r with Some o => k r o | None => z end | None => z end.
Proof. destruct (var x (vars h)) as [r|]; auto. destruct (get_obj h r); auto. Qed.
Lemma put_dict_get_obj h d x r : get_obj (put_dict h d x) r = get_obj h r. Proof. auto. Qed.
Lemma put_dict_get_arr h d x r : get_arr (put_dict h d x) r = get_arr h r. Proof. auto. Qed.

Lemma set_column_ok h rx name rz r : memory h -> r <> rx -> (forall ox oz, get_obj h rx = Some ox -> get_obj h rz = Some oz -> r = rz ->
    match get_arr h (o_values ox), get_arr h (o_values oz) with Sparse _, Sparse _ => False | _, _ => True end) -> step_ok h (set_column h rx name rz) r.
Proof.
  intros M D F. unfold set_column. destruct (get_obj h rx) as [ox|] eqn:Ex; [|apply step_ok_refl; auto]. destruct (get_obj h rz) as [oz|] eqn:Ez; [|apply step_ok_refl; auto].
  specialize (F ox oz eq_refl eq_refl). set (h1 := put_dict h (o_columns ox) _). apply (step_ok_trans _ h1); [apply put_dict_step; auto|].
  assert (M1 : memory h1) by apply put_dict_ok, M. assert (E1 : get_obj h1 rx = Some ox) by exact Ex. assert (E1' : get_obj h1 rz = Some oz) by exact Ez.
  change (get_arr h1 (o_values ox)) with (get_arr h (o_values ox)). change (get_arr h1 (o_values oz)) with (get_arr h (o_values oz)).
  destruct (get_arr h (o_values ox)) as [a|a].
  - destruct (col_pos (frame ox) name) as [k|].
    + destruct (set_col k _ a); [apply (put_arr_step h1 rx); auto|apply step_ok_refl; auto].
    + destruct (cat_col a _); [apply assign_step; auto|apply step_ok_refl; auto].
  - destruct (get_arr h (o_values oz)) as [b|b].
    + destruct (col_pos (frame ox) name) as [k|]; [apply assign_step; auto|]. destruct (cat_col _ _); [apply assign_step; auto|apply step_ok_refl; auto].
    + assert (Dz : r <> rz) by (intros E; apply (F E)). destruct (col_pos (frame ox) name) as [k|].
      * eapply step_ok_trans; [apply (put_arr_step h1 rz); eauto|]. apply assign_step; auto. apply put_arr_ok, M1.
      * destruct (cat_col _ _); [apply assign_step; auto|apply step_ok_refl; auto].
Qed.
Lemma set_virtual_ok h rx name fn r : memory h -> r <> rx -> step_ok h (set_virtual h rx name fn) r.
Proof.
  intros M D. unfold set_virtual. destruct (get_obj h rx) as [ox|] eqn:Ex; [|apply step_ok_refl; auto].
  set (h1 := put_dict h (o_columns ox) _). apply (step_ok_trans _ h1); [apply put_dict_step; auto|].
  assert (M1 : memory h1) by apply put_dict_ok, M. assert (E1 : get_obj h1 rx = Some ox) by exact Ex.
  change (get_arr h1 (o_values ox)) with (get_arr h (o_values ox)).
  destruct (get_arr h (o_values ox)) as [a|a]; destruct (col_pos (frame ox) name) as [k|].
  - apply (put_arr_step h1 rx); auto.
  - apply assign_step; auto.
  - apply step_ok_refl; auto.
  - assert (L : rx < List.length (objs h1)) by (eapply get_obj_lt; eauto).
    destruct (put_obj_ok h1 rx (Obj (add_vdim (frame ox) name) (o_values ox) (o_columns ox)) M1 L (me_arr _ M1 _ _ E1) (me_dict _ M1 _ _ E1)) as (A & B).
    { intros r' o' D' H C. apply D'. apply (me_own _ M1 r' rx o' ox H E1 C). }
    eapply step_ok_trans; [constructor; [exact A|apply B; auto]|].
    apply (put_arr_step _ rx (Obj (add_vdim (frame ox) name) (o_values ox) (o_columns ox))); auto. rewrite put_obj_get, Nat.eqb_refl; auto.
Qed.
Lemma set_one_ok h rx p v r : memory h -> r <> rx -> step_ok h (set_one h rx p v) r.
Proof.
  intros M D. unfold set_one. destruct (get_obj h rx) as [ox|] eqn:Ex; [|apply step_ok_refl; auto].
  destruct (get_arr h (o_values ox)) as [a|a]; [apply (put_arr_step h rx); auto|]. destruct (sp_set_cell p v a); [apply (put_arr_step h rx); auto|apply step_ok_refl; auto].
Qed.

Lemma step_spares h c r : memory h -> r <> List.length (objs h) -> ~ names h (asked c) r -> ~ names h (exception h c) r -> step_ok h (step h c) r.
Proof.
  intros M L Na Ne. destruct c; cbn [step]; rewrite ?of_some; cbn [asked exception names] in Na, Ne.
  - destruct (var x (vars h)) as [rx|] eqn:V; [|apply step_ok_refl; auto]. destruct (get_obj h rx); [|apply step_ok_refl; auto]. apply bind_step; auto. apply (me_var _ M _ _ V).
  - destruct (var x (vars h)) as [rx|] eqn:V; [|apply step_ok_refl; auto]. destruct (get_obj h rx) as [o|] eqn:E; [|apply step_ok_refl; auto].
    pose proof (copy_ok h o rx M E) as C. destruct (copy h o) as (h1, n). destruct C as (X & En & El & _).
    apply (step_ok_trans _ h1); [apply extends_ok; auto|]. apply bind_step; [apply X|lia].
  - destruct (var x (vars h)) as [rx|] eqn:V; [|apply step_ok_refl; auto]. destruct (get_obj h rx) as [o|] eqn:E; [|apply step_ok_refl; auto]. apply (derived_ok h y o rx); auto.
  - destruct (var x (vars h)) as [rx|] eqn:V; [|apply step_ok_refl; auto]. destruct (get_obj h rx) as [o|] eqn:E; cbn [option_map]; [|apply step_ok_refl; auto].
    destruct (var z (vars h)) as [rz|] eqn:Vz; [|apply step_ok_refl; auto]. destruct (get_obj h rz) as [oz|] eqn:Ez; cbn [option_map]; [|apply step_ok_refl; auto].
    pose proof (copy_ok h o rx M E) as C. destruct (copy h o) as (h1, n). destruct C as (X & En & El & _).
    assert (Ez1 : get_obj h1 rz = Some oz) by (apply (ex_keeps _ _ X rz oz Ez)).
    pose proof (copy_ok h1 oz rz (ex_mem _ _ X) Ez1) as C2. destruct (copy h1 oz) as (h2, n2). destruct C2 as (X2 & En2 & El2 & _).
    apply (step_ok_trans _ h1); [apply extends_ok; auto|]. apply (step_ok_trans _ h2); [apply extends_ok; auto|].
    destruct (f _ _) as [(t, a)|]; [|apply step_ok_refl; apply X2].
    apply (step_ok_trans _ (assign h2 n t a)); [apply assign_step; [apply X2|lia]|].
    destruct (assign_ok h2 n t a (ex_mem _ _ X2)) as (A & _ & _ & _ & Eo & _). apply bind_step; auto. lia.
  - destruct (all_some _) as [[|(rx, o) l]|] eqn:Al; [apply step_ok_refl; auto| |apply step_ok_refl; auto].
    destruct (f _) as [(t, a)|]; [|apply step_ok_refl; auto].
    pose proof (new_dict_ok h (get_dict h (o_columns o)) M) as N1. destruct (new_dict h (get_dict h (o_columns o))) as (h1, d). destruct N1 as (N1 & No & Na1 & Nv & Nd & _ & Nl & _ & Nk).
    pose proof (new_arr_ok h1 a N1) as N2. destruct (new_arr h1 a) as (h2, n). destruct N2 as (M2 & Mo & Md & Mv & Mn & _ & Ml & _ & Mf & Mk).
    pose proof (new_obj_ok h2 (Obj t n d) M2 Ml) as N3. cbn [o_values o_columns] in N3. rewrite Md in N3. specialize (N3 Nl). specialize (N3 (fun r' o' E => Mf r' o' (eq_trans (eq_sym (f_equal (fun l => nth_error l r') Mo)) E))).
    destruct (new_obj h2 (Obj t n d)) as (h3, m). destruct N3 as (M3 & _ & _ & _ & Em & _ & El & _ & Mk3).
    apply (step_ok_trans _ h1); [constructor; auto|]. apply (step_ok_trans _ h2); [constructor; auto|]. apply (step_ok_trans _ h3); [constructor; auto|]. apply bind_step; auto. lia.
  - destruct (var x (vars h)) as [rx|] eqn:V; [|apply step_ok_refl; auto]. destruct (get_obj h rx) as [o|] eqn:E; [|apply step_ok_refl; auto]. apply set_one_ok; [auto|congruence].
  - destruct (var x (vars h)) as [rx|] eqn:V; [|apply step_ok_refl; auto]. destruct (get_obj h rx) as [o|] eqn:E; cbn [option_map]; [|apply step_ok_refl; auto].
    destruct (var z (vars h)) as [rz|] eqn:Vz; [|apply step_ok_refl; auto]. destruct (get_obj h rz) as [oz|] eqn:Ez; cbn [option_map]; [|apply step_ok_refl; auto].
    apply set_column_ok; [auto|congruence|]. intros ox oz' Ex' Ez' ->. rewrite E in Ex'. injection Ex' as <-. rewrite Ez in Ez'. injection Ez' as <-.
    destruct (get_arr h (o_values o)) eqn:G1; auto. destruct (get_arr h (o_values oz)) eqn:G2; auto. apply Ne. unfold is_sparse. rewrite V, Vz, E, Ez, G1, G2. cbn. auto.
  - destruct (var x (vars h)) as [rx|] eqn:V; [|apply step_ok_refl; auto]. destruct (get_obj h rx) as [o|] eqn:E; [|apply step_ok_refl; auto]. apply set_virtual_ok; [auto|congruence].
  - destruct (var x (vars h)) as [rx|] eqn:V; [|apply step_ok_refl; auto]. destruct (get_obj h rx) as [o|] eqn:E; [|apply step_ok_refl; auto].
    destruct (f _) as [(t, a)|]; [|apply step_ok_refl; auto]. apply assign_step; [auto|congruence].
  - destruct (var x (vars h)) as [rx|] eqn:V; [|apply step_ok_refl; auto]. destruct (get_obj h rx) as [o|] eqn:E; [|apply step_ok_refl; auto].
    pose proof (slicers_ok h (o_columns o) M (me_dict _ M _ _ E)) as S. destruct (slicers h (o_columns o)) as (h1, d). destruct S as (S1 & S2 & S3 & S4 & S5 & S6).
    assert (Lx : rx < List.length (objs h1)) by (rewrite S2; eapply get_obj_lt; eauto).
    destruct (put_obj_ok h1 rx (Obj (f (frame o)) (o_values o) d) (ex_mem _ _ S1) Lx) as (A & B).
    { cbn. rewrite S3. apply (me_arr _ M _ _ E). }
    { auto. }
    { cbn. intros r' o' D H C. apply D. apply (me_own _ M r' rx o' o); auto. unfold get_obj in *. rewrite <- S2. auto. }
    apply (step_ok_trans _ h1); [apply extends_ok; auto|]. eapply step_ok_trans; [constructor; [exact A|apply B; congruence]|].
    apply bind_step; auto. cbn. rewrite replace_len. auto.
  - destruct (var x (vars h)) as [rx|] eqn:V; [|apply step_ok_refl; auto]. destruct (get_obj h rx) as [o|] eqn:E; [|apply step_ok_refl; auto].
    assert (D : r <> rx) by congruence.
    destruct (is_pattern (frame o)); [|rewrite E; apply (derived_ok h y o rx); auto].
    assert (K : forall a, step_ok h (match get_obj (assign h rx (frame o) a) rx with Some o' => derived (assign h rx (frame o) a) y o' (f (content h o)) | None => assign h rx (frame o) a end) r).
    { intros a. destruct (assign_ok h rx (frame o) a M) as (A & B & Ed & Ev & El & Eo & Er). destruct (Er o E) as (n & En & _). rewrite En.
      apply (step_ok_trans _ (assign h rx (frame o) a)); [constructor; auto|]. eapply derived_ok; eauto. lia. }
    destruct (get_arr h (o_values o)); apply K.
Qed.

Lemma step_memory h c : memory h -> memory (step h c).
Proof.
  intros M. assert (Nm : forall x, ~ names h x (S (List.length (objs h)))).
  { intros [x|] H; [|exact H]. cbn in H. apply (me_var _ M) in H. lia. }
  apply (step_spares h c (S (List.length (objs h))) M); auto.
Qed.
Lemma run_memory h p : memory h -> memory (run h p).
Proof. revert h. induction p as [|c p IH]; intros h M; cbn; auto. apply IH, step_memory, M. Qed.
Lemma keeps_lt r h h' : keeps r h h' -> r < List.length (objs h) -> r < List.length (objs h').
Proof. intros K L. destruct (get_obj h r) as [o|] eqn:E; [|apply nth_error_None in E; lia]. destruct (K o E) as (E' & _). eapply get_obj_lt; eauto. Qed.
Lemma run_keeps h p r : memory h -> r < List.length (objs h) -> spares r h p -> keeps r h (run h p).
Proof.
  revert h. induction p as [|c p IH]; intros h M L S; cbn; [apply keeps_refl|]. destruct S as (S1 & S2 & S3).
  assert (K : step_ok h (step h c) r) by (apply step_spares; auto; lia).
  eapply keeps_trans; [apply K|]. apply IH; auto; [apply K|]. eapply keeps_lt; [apply K|auto].
Qed.
Theorem run_observed h p r : memory h -> r < List.length (objs h) -> spares r h p -> observed (run h p) r = observed h r.
Proof. intros M L S. apply keeps_observed; auto. apply run_keeps; auto. Qed.

(** * Results are new objects *)
Lemma result_fresh h c y : memory h -> fresh_result c = Some y -> var y (vars (step h c)) = var y (vars h) \/ exists n, var y (vars (step h c)) = Some n /\ List.length (objs h) <= n.
Proof.
  intros M Ey. destruct c; cbn [fresh_result] in Ey; try discriminate; injection Ey as ->; cbn [step]; rewrite ?of_some.
  - destruct (var x (vars h)) as [rx|] eqn:V; auto. destruct (get_obj h rx) as [o|] eqn:E; auto.
    pose proof (copy_ok h o rx M E) as C. destruct (copy h o) as (h1, n). destruct C as (X & En & El & _). right. exists n. cbn. rewrite Nat.eqb_refl. split; auto. lia.
  - destruct (var x (vars h)) as [rx|] eqn:V; auto. destruct (get_obj h rx) as [o|] eqn:E; auto. unfold derived. destruct (f _) as [(t, a)|]; auto.
    pose proof (copy_ok h o rx M E) as C. destruct (copy h o) as (h1, n). destruct C as (X & En & El & _). right. exists n. cbn. rewrite Nat.eqb_refl. split; auto. lia.
  - destruct (var x (vars h)) as [rx|] eqn:V; auto. destruct (get_obj h rx) as [o|] eqn:E; cbn [option_map]; auto.
    destruct (var z (vars h)) as [rz|] eqn:Vz; auto. destruct (get_obj h rz) as [oz|] eqn:Ez; cbn [option_map]; auto.
    pose proof (copy_ok h o rx M E) as C. destruct (copy h o) as (h1, n). destruct C as (X & En & El & _).
    assert (Ez1 : get_obj h1 rz = Some oz) by (apply (ex_keeps _ _ X rz oz Ez)).
    pose proof (copy_ok h1 oz rz (ex_mem _ _ X) Ez1) as C2. destruct (copy h1 oz) as (h2, n2). destruct C2 as (X2 & En2 & El2 & _).
    destruct (f _ _) as [(t, a)|]; [|left; rewrite (ex_vars _ _ X2), (ex_vars _ _ X); auto]. right. exists n. cbn. rewrite Nat.eqb_refl. split; auto. lia.
  - destruct (all_some _) as [[|(rx, o) l]|] eqn:Al; auto. destruct (f _) as [(t, a)|]; auto.
    right. exists (List.length (objs h)). cbn. rewrite Nat.eqb_refl. split; auto.
  - destruct (var x (vars h)) as [rx|] eqn:V; auto. destruct (get_obj h rx) as [o|] eqn:E; auto.
    destruct (is_pattern (frame o)).
    + assert (K : forall a, var y (vars (match get_obj (assign h rx (frame o) a) rx with Some o' => derived (assign h rx (frame o) a) y o' (f (content h o)) | None => assign h rx (frame o) a end)) = var y (vars h) \/
        exists n, var y (vars (match get_obj (assign h rx (frame o) a) rx with Some o' => derived (assign h rx (frame o) a) y o' (f (content h o)) | None => assign h rx (frame o) a end)) = Some n /\ List.length (objs h) <= n).
      { intros a. destruct (assign_ok h rx (frame o) a M) as (A & B & Ed & Ev & El & Eo & Er). destruct (Er o E) as (m & Em & _). rewrite Em. unfold derived. destruct (f _) as [(t, a')|]; [|rewrite Ev; auto].
        pose proof (copy_ok (assign h rx (frame o) a) _ rx A Em) as C. destruct (copy (assign h rx (frame o) a) _) as (h1, n). destruct C as (X & En & El' & _). right. exists n. cbn. rewrite Nat.eqb_refl. split; auto. lia. }
      destruct (get_arr h (o_values o)); apply K.
    + rewrite E. unfold derived. destruct (f _) as [(t, a)|]; auto.
      pose proof (copy_ok h o rx M E) as C. destruct (copy h o) as (h1, n). destruct C as (X & En & El & _). right. exists n. cbn. rewrite Nat.eqb_refl. split; auto. lia.
Qed.
(** What a derived object holds is what the operation computed. *)
Lemma derive_content h y x f r t a : memory h -> var x (vars h) = Some r -> r < List.length (objs h) -> (forall fa, observed h r = Some fa -> f fa = Ok (t, a)) ->
  exists n, var y (vars (step h (CDerive y x f))) = Some n /\ List.length (objs h) <= n /\ observed (step h (CDerive y x f)) n = Some (t, a).
Proof.
  intros M V L F. cbn [step]. rewrite of_some, V. destruct (get_obj h r) as [o|] eqn:E; [|apply nth_error_None in E; lia].
  unfold observed in F. rewrite E in F. cbn in F. rewrite (F _ eq_refl). unfold derived.
  pose proof (copy_ok h o r M E) as C. destruct (copy h o) as (h1, n). destruct C as (X & En & El & Ea & d & G & _). exists n. split; [cbn; rewrite Nat.eqb_refl; auto|]. split; [lia|].
  destruct (assign_ok h1 n t a (ex_mem _ _ X)) as (A & B & Ed & Ev & El' & Eo & Er). destruct (Er _ G) as (m & Em & Eq). unfold observed.
  change (get_obj (bind_var (assign h1 n t a) y n) n) with (get_obj (assign h1 n t a) n). rewrite Em. cbn. unfold content. cbn. f_equal. f_equal. exact Eq.
Qed.
Lemma copy_content h y x r : memory h -> var x (vars h) = Some r ->
  exists n, var y (vars (step h (CCopy y x))) = Some n /\ List.length (objs h) <= n /\ observed (step h (CCopy y x)) n = observed h r /\ virtual_columns (step h (CCopy y x)) n = virtual_columns h r.
Proof.
  intros M V. cbn [step]. rewrite of_some, V. pose proof (me_var _ M _ _ V) as L. destruct (get_obj h r) as [o|] eqn:E; [|apply nth_error_None in E; lia].
  pose proof (copy_ok h o r M E) as C. destruct (copy h o) as (h1, n). destruct C as (X & En & El & Ea & d & G & Ga & Gd & _). exists n. split; [cbn; rewrite Nat.eqb_refl; auto|]. split; [lia|].
  unfold observed, virtual_columns. change (get_obj (bind_var h1 y n) n) with (get_obj h1 n). rewrite G, E. cbn. unfold content. cbn. split; f_equal.
  - f_equal. exact Ga.
  - exact Gd.
Qed.

(** * Virtual columns *)
(** The dictionary [d] keeps its contents, and an object that comes to share it copied it while it was not empty. *)
Record colstep (d : nat) (h h' : heap) : Prop := {
  co_dict : get_dict h' d = get_dict h d; co_len : d < List.length (dicts h) -> d < List.length (dicts h');
  co_obj : forall r o', get_obj h' r = Some o' -> o_columns o' = d -> (exists o, get_obj h r = Some o /\ o_columns o = d) \/ get_dict h d <> [] }.
Lemma colstep_refl d h : colstep d h h.
Proof. constructor; eauto. Qed.
Lemma colstep_trans d h1 h2 h3 : colstep d h1 h2 -> colstep d h2 h3 -> colstep d h1 h3.
Proof.
  intros A B. constructor.
  - rewrite (co_dict _ _ _ B). apply A.
  - intros L. apply B, A, L.
  - intros r o' H E. destruct (co_obj _ _ _ B r o' H E) as [(o & Ho & Eo)|N]; [apply (co_obj _ _ _ A r o Ho Eo)|]. right. rewrite <- (co_dict _ _ _ A). auto.
Qed.
Lemma colstep_same d h h' : dicts h' = dicts h -> (forall r o', get_obj h' r = Some o' -> exists o, get_obj h r = Some o /\ o_columns o = o_columns o') -> colstep d h h'.
Proof.
  intros E H. constructor.
  - unfold get_dict. rewrite E. auto.
  - rewrite E. auto.
  - intros r o' Ho Eo. left. destruct (H r o' Ho) as (o & ? & ?). exists o. split; auto. congruence.
Qed.
Lemma colstep_objs d h h' : dicts h' = dicts h -> objs h' = objs h -> colstep d h h'.
Proof. intros E H. apply colstep_same; auto. intros r o'. unfold get_obj. rewrite H. eauto. Qed.
Lemma colstep_copy d h o r : memory h -> get_obj h r = Some o -> d < List.length (dicts h) -> colstep d h (fst (copy h o)).
Proof.
  intros M H L. pose proof (copy_ok h o r M H) as C. destruct (copy h o) as (h1, n). destruct C as (X & En & El & Ea & d' & G & Ga & Gd & Gs). cbn.
  destruct (ex_dict _ _ X d L) as (E1 & E2). constructor; auto. intros r' o' H' E'.
  destruct (Nat.lt_ge_cases r' (List.length (objs h))) as [Lr|Lr].
  - left. exists o'. split; auto. apply (ex_old _ _ X); auto.
  - right. assert (r' = n) as -> by (apply get_obj_lt in H'; lia). rewrite G in H'. injection H' as <-. cbn in E'. subst d'. destruct Gs as [(Gs & Gn)|(Gs & _)]; [|lia]. congruence.
Qed.
Lemma colstep_assign d h r f a : memory h -> colstep d h (assign h r f a).
Proof.
  intros M. destruct (assign_ok h r f a M) as (A & B & Ed & Ev & El & Eo & Er). apply colstep_same; auto. intros r' o' H. destruct (Nat.eq_dec r' r) as [->|D].
  - destruct (get_obj h r) as [o|] eqn:E.
    + destruct (Er o eq_refl) as (n & En & _). rewrite En in H. injection H as <-. exists o. auto.
    + exfalso. apply get_obj_lt in H. rewrite El in H. apply nth_error_None in E. lia.
  - rewrite Eo in H by auto. eauto.
Qed.
Lemma colstep_bind d h y n : colstep d h (bind_var h y n). Proof. apply colstep_objs; auto. Qed.
Lemma colstep_put_arr d h a x : colstep d h (put_arr h a x). Proof. apply colstep_objs; auto. Qed.
Lemma colstep_put_dict d h d' x : d <> d' -> colstep d h (put_dict h d' x).
Proof.
  intros D. constructor; eauto.
  - unfold get_dict, put_dict. cbn. rewrite replace_nth'. destruct (Nat.eqb_spec d d'); [contradiction|auto].
  - unfold put_dict. cbn. rewrite replace_len. auto.
Qed.
Lemma colstep_derived d h y o r res : memory h -> get_obj h r = Some o -> d < List.length (dicts h) -> colstep d h (derived h y o res).
Proof.
  intros M H L. unfold derived. destruct res as [(f, a)|e]; [|apply colstep_refl].
  pose proof (colstep_copy d h o r M H L) as C. pose proof (copy_ok h o r M H) as K. destruct (copy h o) as (h1, n). destruct K as (X & _). cbn in C.
  eapply colstep_trans; [exact C|]. eapply colstep_trans; [apply (colstep_assign d h1 n f a), X|apply colstep_bind].
Qed.
Lemma step_columns h c d : memory h -> d < List.length (dicts h) -> (forall r o, names h (edits_columns c) r -> get_obj h r = Some o -> o_columns o <> d) -> colstep d h (step h c).
Proof.
  intros M L F. destruct c; cbn [step]; rewrite ?of_some; cbn [edits_columns names] in F.
  - destruct (var x (vars h)) as [rx|] eqn:V; [|apply colstep_refl]. destruct (get_obj h rx); [apply colstep_bind|apply colstep_refl].
  - destruct (var x (vars h)) as [rx|] eqn:V; [|apply colstep_refl]. destruct (get_obj h rx) as [o|] eqn:E; [|apply colstep_refl].
    pose proof (colstep_copy d h o rx M E L) as C. destruct (copy h o) as (h1, n). eapply colstep_trans; [exact C|apply colstep_bind].
  - destruct (var x (vars h)) as [rx|] eqn:V; [|apply colstep_refl]. destruct (get_obj h rx) as [o|] eqn:E; [|apply colstep_refl]. apply (colstep_derived d h y o rx); auto.
  - destruct (var x (vars h)) as [rx|] eqn:V; [|apply colstep_refl]. destruct (get_obj h rx) as [o|] eqn:E; cbn [option_map]; [|apply colstep_refl].
    destruct (var z (vars h)) as [rz|] eqn:Vz; [|apply colstep_refl]. destruct (get_obj h rz) as [oz|] eqn:Ez; cbn [option_map]; [|apply colstep_refl].
    pose proof (colstep_copy d h o rx M E L) as K1. pose proof (copy_ok h o rx M E) as C. destruct (copy h o) as (h1, n). destruct C as (X & En & El & _). cbn in K1.
    assert (Ez1 : get_obj h1 rz = Some oz) by (apply (ex_keeps _ _ X rz oz Ez)).
    pose proof (colstep_copy d h1 oz rz (ex_mem _ _ X) Ez1 (co_len _ _ _ K1 L)) as K2.
    pose proof (copy_ok h1 oz rz (ex_mem _ _ X) Ez1) as C2. destruct (copy h1 oz) as (h2, n2). destruct C2 as (X2 & En2 & El2 & _). cbn in K2.
    eapply colstep_trans; [exact K1|]. eapply colstep_trans; [exact K2|]. destruct (f _ _) as [(t, a)|]; [|apply colstep_refl].
    eapply colstep_trans; [apply (colstep_assign d h2 n t a), X2|apply colstep_bind].
  - destruct (all_some _) as [[|(rx, o) l]|] eqn:Al; [apply colstep_refl| |apply colstep_refl].
    destruct (f _) as [(t, a)|]; [|apply colstep_refl].
    constructor; cbn.
    + unfold get_dict. cbn. rewrite app_nth1; auto.
    + intros _. rewrite app_length. lia.
    + intros r o' H Ed. unfold get_obj in H. cbn in H. destruct (Nat.lt_ge_cases r (List.length (objs h))) as [Lr|Lr].
      * rewrite nth_error_app1 in H by auto. left. exists o'. auto.
      * rewrite nth_error_app2 in H by auto. destruct (r - List.length (objs h)) as [|k]; cbn in H; [|destruct k; discriminate]. injection H as <-. cbn in Ed. lia.
  - destruct (var x (vars h)) as [rx|] eqn:V; [|apply colstep_refl]. destruct (get_obj h rx) as [o|] eqn:E; [|apply colstep_refl]. unfold set_one. rewrite E.
    destruct (get_arr h (o_values o)); [apply colstep_put_arr|]. destruct (sp_set_cell p v c); [apply colstep_put_arr|apply colstep_refl].
  - destruct (var x (vars h)) as [rx|] eqn:V; [|apply colstep_refl]. destruct (get_obj h rx) as [o|] eqn:E; cbn [option_map]; [|apply colstep_refl].
    destruct (var z (vars h)) as [rz|] eqn:Vz; [|apply colstep_refl]. destruct (get_obj h rz) as [oz|] eqn:Ez; cbn [option_map]; [|apply colstep_refl].
    unfold set_column. rewrite E, Ez. set (h1 := put_dict h (o_columns o) _).
    assert (M1 : memory h1) by apply put_dict_ok, M.
    apply (colstep_trans _ _ h1); [apply colstep_put_dict; intros C; apply (F rx o); auto|].
    change (get_arr h1 (o_values o)) with (get_arr h (o_values o)). change (get_arr h1 (o_values oz)) with (get_arr h (o_values oz)).
    destruct (get_arr h (o_values o)) as [a|a].
    + destruct (col_pos (frame o) name) as [k|].
      * destruct (set_col k _ a); [apply colstep_put_arr|apply colstep_refl].
      * destruct (cat_col a _); [apply colstep_assign; auto|apply colstep_refl].
    + destruct (get_arr h (o_values oz)) as [b|b].
      * destruct (col_pos (frame o) name) as [k|]; [apply colstep_assign; auto|]. destruct (cat_col _ _); [apply colstep_assign; auto|apply colstep_refl].
      * destruct (col_pos (frame o) name) as [k|].
        -- eapply colstep_trans; [apply colstep_put_arr|]. apply colstep_assign, put_arr_ok, M1.
        -- destruct (cat_col _ _); [apply colstep_assign; auto|apply colstep_refl].
  - destruct (var x (vars h)) as [rx|] eqn:V; [|apply colstep_refl]. destruct (get_obj h rx) as [o|] eqn:E; [|apply colstep_refl].
    unfold set_virtual. rewrite E. set (h1 := put_dict h (o_columns o) _).
    assert (M1 : memory h1) by apply put_dict_ok, M.
    apply (colstep_trans _ _ h1); [apply colstep_put_dict; intros C; apply (F rx o); auto|].
    change (get_arr h1 (o_values o)) with (get_arr h (o_values o)).
    destruct (get_arr h (o_values o)) as [a|a]; destruct (col_pos (frame o) name) as [k|].
    + apply colstep_put_arr.
    + apply colstep_assign; auto.
    + apply colstep_refl.
    + eapply colstep_trans; [|apply colstep_put_arr]. apply colstep_same; auto. intros r' o' H.
      assert (Lx : rx < List.length (objs h1)) by (eapply get_obj_lt; exact E). rewrite put_obj_get in H by auto. destruct (Nat.eqb_spec r' rx) as [->|D]; eauto. injection H as <-. exists o. auto.
  - destruct (var x (vars h)) as [rx|] eqn:V; [|apply colstep_refl]. destruct (get_obj h rx) as [o|] eqn:E; [|apply colstep_refl].
    destruct (f _) as [(t, a)|]; [|apply colstep_refl]. apply colstep_assign; auto.
  - destruct (var x (vars h)) as [rx|] eqn:V; [|apply colstep_refl]. destruct (get_obj h rx) as [o|] eqn:E; [|apply colstep_refl].
    pose proof (slicers_ok h (o_columns o) M (me_dict _ M _ _ E)) as S. destruct (slicers h (o_columns o)) as (h1, d'). destruct S as (S1 & S2 & S3 & S4 & S5 & S6).
    assert (Lx : rx < List.length (objs h1)) by (rewrite S2; eapply get_obj_lt; eauto).
    eapply colstep_trans; [|apply colstep_bind]. destruct (ex_dict _ _ S1 d L) as (D1 & D2). constructor; auto. intros r' o' H Ed. left.
    rewrite put_obj_get in H by auto. destruct (Nat.eqb_spec r' rx) as [->|D].
    + injection H as <-. cbn in Ed. subst d'. exists o. split; auto. destruct S6 as [(S6 & _)|(S6 & _)]; [auto|lia].
    + exists o'. split; auto. unfold get_obj in *. rewrite <- S2. auto.
  - destruct (var x (vars h)) as [rx|] eqn:V; [|apply colstep_refl]. destruct (get_obj h rx) as [o|] eqn:E; [|apply colstep_refl].
    destruct (is_pattern (frame o)); [|rewrite E; apply (colstep_derived d h y o rx); auto].
    assert (K : forall a, colstep d h (match get_obj (assign h rx (frame o) a) rx with Some o' => derived (assign h rx (frame o) a) y o' (f (content h o)) | None => assign h rx (frame o) a end)).
    { intros a. destruct (assign_ok h rx (frame o) a M) as (A & B & Ed & Ev & El & Eo & Er). destruct (Er o E) as (n & En & _). rewrite En.
      eapply colstep_trans; [apply colstep_assign; auto|]. eapply colstep_derived; eauto. rewrite Ed. auto. }
    destruct (get_arr h (o_values o)); apply K.
Qed.
Theorem run_columns h p r : memory h -> r < List.length (objs h) -> spares r h p -> spares_columns r h p -> virtual_columns (run h p) r = virtual_columns h r.
Proof.
  revert h. induction p as [|c p IH]; intros h M L S C; cbn [run fold_left]; auto. destruct S as (S1 & S2 & S3), C as (C1 & C2).
  assert (K : step_ok h (step h c) r) by (apply step_spares; auto; lia).
  change (fold_left step p (step h c)) with (run (step h c) p). rewrite IH; [|apply K|eapply keeps_lt; [apply K|auto]|auto|auto].
  unfold virtual_columns. destruct (get_obj h r) as [o|] eqn:E; [|apply nth_error_None in E; lia]. destruct (st_keeps _ _ _ K o E) as (E' & _). rewrite E'. cbn. f_equal.
  apply (step_columns h c (o_columns o) M (me_dict _ M _ _ E)). intros r' o' N Ho Ed. apply (C1 r' N). exists o, o'. auto.
Qed.
Theorem run_no_columns h p r : memory h -> r < List.length (objs h) -> spares r h p -> virtual_columns h r = Some [] -> (forall r', r' <> r -> ~ same_dict h r r') ->
  virtual_columns (run h p) r = Some [] /\ forall r', r' <> r -> ~ same_dict (run h p) r r'.
Proof.
  revert h. induction p as [|c p IH]; intros h M L S V U; cbn [run fold_left]; auto. destruct S as (S1 & S2 & S3).
  assert (K : step_ok h (step h c) r) by (apply step_spares; auto; lia).
  change (fold_left step p (step h c)) with (run (step h c) p).
  unfold virtual_columns in V. destruct (get_obj h r) as [o|] eqn:E; [|discriminate]. cbn in V. destruct (st_keeps _ _ _ K o E) as (E' & _).
  assert (X : colstep (o_columns o) h (step h c)).
  { apply step_columns; auto; [apply (me_dict _ M _ _ E)|]. intros r' o' N Ho Ed. destruct (Nat.eq_dec r' r) as [->|D].
    - apply S1. destruct c; cbn in *; auto; contradiction.
    - apply (U r' D). exists o, o'. auto. }
  apply IH; auto; [apply K|eapply keeps_lt; [apply K|auto]| |].
  - unfold virtual_columns. rewrite E'. cbn. f_equal. rewrite (co_dict _ _ _ X). congruence.
  - intros r' D (o1 & o2 & H1 & H2 & Ed). rewrite E' in H1. injection H1 as <-. destruct (co_obj _ _ _ X r' o2 H2 (eq_sym Ed)) as [(o0 & H0 & Ee)|Nn]; [|congruence].
    apply (U r' D). exists o, o0. auto.
Qed.
Lemma start_memory l : memory (start l).
Proof.
  assert (G : forall r o, get_obj (start l) r = Some o -> r < List.length l /\ o_values o = r /\ o_columns o = r).
  { intros r o H. unfold get_obj, start in H. cbn in H. assert (L : r < List.length l) by (pose proof (proj1 (nth_error_Some _ _) (ltac:(rewrite H; discriminate) : nth_error _ r <> None)) as L; rewrite map_length, seq_length in L; auto).
    apply (nth_error_nth _ _ o) in H. rewrite (nth_indep _ _ (Obj (fst (fst (nth 0 l (Tri [] [] [] [] (Ages []) (Arr 0 0 0 0 (fun _ _ _ _ => None)) 0%Z None false GY GY, Sparse (Coo 0 0 0 0 None []), [])))) 0 0)) in H by (rewrite map_length, seq_length; auto).
    rewrite (map_nth (fun n => Obj (fst (fst (nth n l (Tri [] [] [] [] (Ages []) (Arr 0 0 0 0 (fun _ _ _ _ => None)) 0%Z None false GY GY, Sparse (Coo 0 0 0 0 None []), [])))) n n) (seq 0 (List.length l)) 0), seq_nth in H by auto. subst o. auto. }
  constructor.
  - intros r o H. destruct (G r o H) as (L & -> & _). cbn. rewrite map_length. auto.
  - intros r o H. destruct (G r o H) as (L & _ & ->). cbn. rewrite map_length. auto.
  - intros r r' o o' H H' E. destruct (G r o H) as (_ & A & _), (G r' o' H') as (_ & B & _). congruence.
  - intros x r H. cbn in *. rewrite map_length, seq_length. assert (V : forall s n, var x (map (fun n => (n, n)) (seq s n)) = Some r -> r < s + n).
    { intros s n. revert s. induction n as [|n IH]; intros s; cbn; [discriminate|]. destruct (s =? x); [intros [= ->]; lia|]. intros E. apply IH in E. lia. }
    apply V in H. lia.
Qed.
Lemma inplace_content h x f r t a : memory h -> var x (vars h) = Some r -> (forall fa, observed h r = Some fa -> f fa = Ok (t, a)) -> observed (step h (CInPlace x f)) r = Some (t, a).
Proof.
  intros M V F. cbn [step]. rewrite of_some, V. pose proof (me_var _ M _ _ V) as L. destruct (get_obj h r) as [o|] eqn:E; [|apply nth_error_None in E; lia].
  unfold observed in F. rewrite E in F. cbn in F. rewrite (F _ eq_refl).
  destruct (assign_ok h r t a M) as (A & B & Ed & Ev & El & Eo & Er). destruct (Er _ E) as (m & Em & Eq). unfold observed. rewrite Em. cbn. unfold content. cbn. rewrite Eq. auto.
Qed.
Lemma rebound_same h y x f r o : memory h -> var x (vars h) = Some r -> get_obj h r = Some o -> is_pattern (frame o) = false -> keeps r h (step h (CRebound y x f)).
Proof.
  intros M V E P. cbn [step]. rewrite of_some, V, E, P, E. apply (derived_ok h y o r (f (content h o)) r M E). apply get_obj_lt in E. lia.
Qed.
