(** C54 and C55: selection by label, and assignment of a column. *)
From Coq Require Import Lia.
From Verif Require Import Ex ExLabel P_Select P_Select2 P_Select3 SpecSelect.
Local Open Scope Z_scope.

(** C54. [loc] with labels, lists of labels, ranges (both ends included) and boolean masks
    on the four axes. *)
Theorem C54_loc : forall t ki kc ko kd p0 p1 p2 p3, wf t -> uniq_labels t -> named_rows t ->
  index_asks (kdims t) ki p0 -> labels_ask (names_from_to (vdims t)) (vdims t) kc p1 ->
  labels_ask (dates_from_to (odims t)) (odims t) ko p2 -> labels_ask (dates_from_to (dlist (ddims t))) (dlist (ddims t)) kd p3 ->
  are_labels (vdims t) kc -> (by_position ko \/ origins_named t) -> (by_position kd \/ ages_named t) ->
  p0 <> [] -> p1 <> [] -> p2 <> [] -> p3 <> [] -> NoDup p0 -> NoDup p1 -> progression p2 -> progression p3 ->
  exists w u, loc t ki kc ko kd = Ok u /\ taken t w p0 p1 p2 p3 /\ (no_ultimate t -> latest_left t w p2 p3) /\ without_shared_label w u.
Proof. exact loc_ok. Qed.
Print Assumptions C54_loc.
(** A label the triangle does not have is refused. *)
Theorem C54_unknown_column : forall t ki kc ko kd x, ~ In x (vdims t) -> (kc = LOne x \/ exists xs, kc = LList xs /\ In x xs) ->
  exists e, loc t ki kc ko kd = Err e.
Proof. exact loc_unknown_column. Qed.
Print Assumptions C54_unknown_column.
Theorem C54_unknown_origin : forall t ki kc ko kd x, ~ In x (odims t) -> (ko = LOne x \/ exists xs, ko = LList xs /\ In x xs) ->
  exists e, loc t ki kc ko kd = Err e.
Proof. exact loc_unknown_origin. Qed.
Print Assumptions C54_unknown_origin.
Theorem C54_unknown_age : forall t ki kc ko kd x, ~ In x (dlist (ddims t)) -> (kd = LOne x \/ exists xs, kd = LList xs /\ In x xs) ->
  exists e, loc t ki kc ko kd = Err e.
Proof. exact loc_unknown_age. Qed.
Print Assumptions C54_unknown_age.
Theorem C54_unknown_key : forall t ki kc ko kd k, ~ In k (kdims t) ->
  (exists ks, ki = IKeys ks /\ In k ks) \/ (exists x r, k = x :: r /\ ki = IFirst x /\ forall k', In k' (kdims t) -> hd EmptyString k' <> x) ->
  exists e, loc t ki kc ko kd = Err e.
Proof. exact loc_unknown_key. Qed.
Print Assumptions C54_unknown_key.
(** [t[['a', 'b']]] and [t['a']]. *)
Theorem C54_columns : forall t cols ps, wf t -> NoDup (vdims t) -> (1 <= ax0 (values t))%nat -> cols <> [] -> NoDup ps ->
  Forall2 (fun c p => nth_error (vdims t) p = Some c) cols ps ->
  exists u, getitem_cols t cols = Ok u /\ taken t u (every (ax0 (values t))) ps (every (ax2 (values t))) (every (ax3 (values t))) /\
    (no_ultimate t -> latest_left t u (every (ax2 (values t))) (every (ax3 (values t)))).
Proof. exact cols_taken. Qed.
Print Assumptions C54_columns.
Theorem C54_column : forall t name p, wf t -> NoDup (vdims t) -> (1 <= ax0 (values t))%nat -> ~ In name (key_labels t) -> nth_error (vdims t) p = Some name ->
  exists u, getitem_name t name = Ok (GotTri u) /\ taken t u (every (ax0 (values t))) [p] (every (ax2 (values t))) (every (ax3 (values t))) /\
    (no_ultimate t -> latest_left t u (every (ax2 (values t))) (every (ax3 (values t)))).
Proof. exact name_taken. Qed.
Print Assumptions C54_column.
(** The name of a key label gives the rows' values of that label. *)
Theorem C54_key_values : forall t name, In name (key_labels t) ->
  exists j, nth_error (key_labels t) j = Some name /\ (forall i, (i < j)%nat -> nth_error (key_labels t) i <> Some name) /\
    getitem_name t name = Ok (GotIndex (map (fun k => nth j k EmptyString) (kdims t))).
Proof. exact name_key. Qed.
Print Assumptions C54_key_values.
Theorem C54_unknown_name : forall t name, ~ In name (key_labels t) -> ~ In name (vdims t) -> getitem_name t name = Err ValueError.
Proof. exact name_missing. Qed.
Print Assumptions C54_unknown_name.
(** Boolean filters on rows, origins and ages keep exactly the positions marked true. *)
Theorem C54_row_filter : forall t m ps, wf t -> (1 <= ax1 (values t))%nat -> List.length m = ax0 (values t) -> positions_where (fun p => nth_error m p = Some true) ps -> ps <> [] ->
  exists u, getitem_index t m = Ok u /\ taken t u ps (every (ax1 (values t))) (every (ax2 (values t))) (every (ax3 (values t))) /\
    (no_ultimate t -> latest_left t u (every (ax2 (values t))) (every (ax3 (values t)))).
Proof. exact index_filter. Qed.
Print Assumptions C54_row_filter.
Theorem C54_origin_filter : forall t m ps, wf t -> List.length m = ax2 (values t) -> positions_where (fun p => nth_error m p = Some true) ps -> ps <> [] ->
  exists u, getitem_array t m = Ok u /\ taken t u (every (ax0 (values t))) (every (ax1 (values t))) ps (every (ax3 (values t))) /\ vdate u = vdate t.
Proof. exact origin_filter. Qed.
Print Assumptions C54_origin_filter.
Theorem C54_age_filter : forall t m ps, wf t -> List.length m = ax3 (values t) -> positions_where (fun p => nth_error m p = Some true) ps -> ps <> [] ->
  exists u, getitem_dev t m = Ok u /\ taken t u (every (ax0 (values t))) (every (ax1 (values t))) (every (ax2 (values t))) ps /\ vdate u = vdate t.
Proof. exact age_filter. Qed.
Print Assumptions C54_age_filter.
(** An array with an entry for every cell, age by age, keeps exactly the cells marked true. *)
Theorem C54_cell_filter : forall t key, wf t -> (2 <= ax3 (values t))%nat ->
  (exists o d, (o < ax2 (values t))%nat /\ (d < ax3 (values t))%nat /\ key o d = true) ->
  evenly (ax2 (values t)) (fun o => exists d, (d < ax3 (values t))%nat /\ key o d = true) ->
  evenly (ax3 (values t)) (fun d => exists o, (o < ax2 (values t))%nat /\ key o d = true) ->
  exists u, getitem_array t (age_by_age t key) = Ok u /\ wf u /\ kdims u = kdims t /\ vdims u = vdims t /\
    (forall o, (o < ax2 (values t))%nat -> (In (nth o (odims t) 0) (odims u) <-> exists d, (d < ax3 (values t))%nat /\ key o d = true)) /\
    (forall d, (d < ax3 (values t))%nat -> (In (nth d (dlist (ddims t)) 0) (dlist (ddims u)) <-> exists o, (o < ax2 (values t))%nat /\ key o d = true)) /\
    (forall i c o d o' d', in_range t i c o d -> in_range u i c o' d' ->
       nth o' (odims u) 0 = nth o (odims t) 0 -> nth d' (dlist (ddims u)) 0 = nth d (dlist (ddims t)) 0 ->
       cel u i c o' d' = if key o d then n2n (cel t i c o d) else None).
Proof. exact cell_filter. Qed.
Print Assumptions C54_cell_filter.
Example C54_cell_filter_case : wf ex3 /\ (2 <= ax3 (values ex3))%nat /\
  age_by_age ex3 (fun o d => (o =? 0)%nat && (d <=? 1)%nat) = [true; false; false; true; false; false; false; false; false] /\
  exists u, getitem_array ex3 [true; false; false; true; false; false; false; false; false] = Ok u /\ odims u = [y 2001] /\ ddims u = Ages [12; 24].
Proof.
  split; [apply ex3_wf|]. split; [cbn; lia|]. split; [reflexivity|].
  exists (Ex.get ex3 (getitem_array ex3 [true; false; false; true; false; false; false; false; false])). split; [apply get_ok; vm_compute; reflexivity|]. split; vm_compute; reflexivity.
Qed.

Definition sel3 := tri4 [["a"; "x"]; ["a"; "y"]; ["b"; "x"]]%string ["lob"; "state"]%string ["paid"; "incurred"]%string [y 2001; y 2002; y 2003] (Ages [12; 24; 36]) (dec 2003)
  [ [ [[Some 1; Some 2; Some 3]; [Some 4; Some 5; None]; [Some 6; None; None]]; [[Some 11; Some 12; Some 13]; [Some 14; Some 15; None]; [Some 16; None; None]] ];
    [ [[Some 21; Some 22; Some 23]; [Some 24; Some 25; None]; [Some 26; None; None]]; [[Some 31; Some 32; Some 33]; [Some 34; Some 35; None]; [Some 36; None; None]] ];
    [ [[Some 41; Some 42; Some 43]; [Some 44; Some 45; None]; [Some 46; None; None]]; [[Some 51; Some 52; Some 53]; [Some 54; Some 55; None]; [Some 56; None; None]] ] ].
Example C54_hyps : wf sel3 /\ uniq_labels sel3 /\ named_rows sel3 /\
  index_asks (kdims sel3) (IFirst "a") [0; 1]%nat /\ labels_ask (names_from_to (vdims sel3)) (vdims sel3) (LOne "incurred"%string) [1%nat] /\
  labels_ask (dates_from_to (odims sel3)) (odims sel3) (LRange (Some (y 2002)) None) [1; 2]%nat /\
  labels_ask (dates_from_to (dlist (ddims sel3))) (dlist (ddims sel3)) (LList [12; 24]) [0; 1]%nat /\
  origins_named sel3 /\ ages_named sel3 /\ progression [1; 2]%nat /\ progression [0; 1]%nat /\ no_ultimate sel3 /\
  exists u, loc sel3 (IFirst "a") (LOne "incurred"%string) (LRange (Some (y 2002)) None) (LList [12; 24]) = Ok u /\
    kdims u = [["x"]; ["y"]]%string /\ odims u = [y 2002; y 2003] /\ cell_eqb (cel u 1 0 0 1) (Some (qc 35)) = true.
Proof.
  split; [by_wfb|]. split; [by_uniqb|]. split. { intros k H. cbn in H. destruct H as [<- | [<- | [<- | []]]]; discriminate. }
  split.
  { split; [repeat constructor|]. intros p. cbn [kdims sel3 tri4]. split.
    - intros [<- | [<- | []]]; eexists; reflexivity.
    - intros (r & E). destruct p as [|[|[|p]]]; cbn in E; try discriminate; [left|right; left|destruct p; discriminate]; reflexivity. }
  split. { exists 1%nat. split; reflexivity. }
  split.
  { split; [repeat constructor|]. intros p. split.
    - intros [<- | [<- | []]]; eexists; (split; [reflexivity|]); (split; [vm_compute; congruence|exact I]).
    - intros (r & E & L & _). destruct p as [|[|[|p]]]; cbn in E; [|left; reflexivity|right; left; reflexivity|destruct p; discriminate].
      exfalso. injection E as <-. vm_compute in L. congruence. }
  split. { repeat constructor. }
  split; [right; vm_compute; lia|]. split; [split; [reflexivity|exact I]|].
  split. { exists 1, 1. split; [lia|]. intros [|[|k]] Hk; cbn in *; lia. }
  split. { exists 0, 1. split; [lia|]. intros [|[|k]] Hk; cbn in *; lia. }
  split. { cbn. intuition lia. }
  exists (Ex.get sel3 (loc sel3 (IFirst "a") (LOne "incurred"%string) (LRange (Some (y 2002)) None) (LList [12; 24]))).
  split; [apply get_ok; vm_compute; reflexivity|]. vm_compute. auto.
Qed.
(** A column with the name of a key label cannot be selected by name. *)
Theorem C54_shadowed_refuted : exists t name, wf t /\ uniq_labels t /\ In name (vdims t) /\ forall u, getitem_name t name <> Ok (GotTri u).
Proof.
  exists (tri4 [["a"]]%string ["paid"]%string ["paid"]%string [y 2001; y 2002] (Ages [12; 24]) (dec 2002) [[[[Some 1; Some 2]; [Some 3; None]]]]), "paid"%string.
  split; [by_wfb|]. split; [by_uniqb|]. split; [left; reflexivity|]. intros u E. discriminate.
Qed.
Print Assumptions C54_shadowed_refuted.
(** Filters on origins and ages keep the valuation date, even if nothing selected is that recent:
    the triangle left then has no latest diagonal. *)
Theorem C54_filter_date_refuted : exists t u w, wf t /\ blank_future t /\
  getitem_array t [true; false; false] = Ok u /\ getitem_dev u [true; false; false] = Ok w /\
  cell_eqb (cel w 0 0 0 0) None = false /\ latest_diagonal w = Err ValueError.
Proof.
  exists ex3, (Ex.get ex3 (getitem_array ex3 [true; false; false])), (Ex.get ex3 (getitem_dev (Ex.get ex3 (getitem_array ex3 [true; false; false])) [true; false; false])).
  split; [apply ex3_wf|]. split; [apply ex3_blank|]. split; [apply get_ok; vm_compute; reflexivity|]. split; [apply get_ok; vm_compute; reflexivity|]. split; vm_compute; reflexivity.
Qed.
Print Assumptions C54_filter_date_refuted.

(** C55. [t[name] = value] changes the column called [name], or appends it. *)
Theorem C55_assign : forall t name v, wf t -> NoDup (vdims t) -> wf v -> same_rows_one_column t v ->
  exists u, setitem t name (VTri v) = (u, None) /\ column_set t u name (fun i o d => cel v i 0 o d).
Proof. exact setitem_ok. Qed.
Print Assumptions C55_assign.
Theorem C55_read_back : forall t u name f, wf t -> NoDup (vdims t) -> (1 <= ax0 (values t))%nat -> ~ In name (key_labels t) -> column_set t u name f ->
  exists w, getitem_name u name = Ok (GotTri w) /\ vdims w = [name] /\ kdims w = kdims t /\ odims w = odims t /\ ddims w = ddims t /\
    forall i o d, (i < ax0 (values t))%nat -> (o < ax2 (values t))%nat -> (d < ax3 (values t))%nat -> cel w i 0 o d = f i o d.
Proof. exact read_back. Qed.
Print Assumptions C55_read_back.
(** A value with fewer origins or ages is filed in a new column under its labels. *)
Theorem C55_by_label : forall g h t name v, 0 < g -> 0 < h -> wf t -> wf v -> uniq_labels t -> blank_future t -> blank_future v ->
  kdims v = kdims t -> key_labels v = key_labels t -> List.length (vdims v) = 1%nat -> ograin v = ograin t -> dgrain v = dgrain t ->
  same_kind (ddims t) (ddims v) -> alignable g (odims t) (odims v) -> alignable h (dlist (ddims t)) (dlist (ddims v)) -> frame_fits t v ->
  incl (odims v) (odims t) -> incl (dlist (ddims v)) (dlist (ddims t)) -> (odims v <> odims t \/ ddims v <> ddims t) ->
  (1 <= ax1 (values t))%nat -> (1 <= ax0 (values t))%nat -> ~ In name (vdims t) ->
  exists u, setitem t name (VTri v) = (u, None) /\ exists f, column_set t u name f /\
    forall i o d, (i < ax0 (values t))%nat -> (o < ax2 (values t))%nat -> (d < ax3 (values t))%nat ->
      nz (f i o d) = amount_at v (nth i (kdims t) []) (nth 0 (vdims v) EmptyString) (nth o (odims t) 0) (nth d (dlist (ddims t)) 0).
Proof. exact set_by_label. Qed.
Print Assumptions C55_by_label.
(** A number: in a new column only where there is data to expect, over an old one everywhere. *)
Theorem C55_new_number : forall t name q, wf t -> (1 <= ax0 (values t))%nat -> (1 <= ax1 (values t))%nat -> (2 <= ax2 (values t))%nat -> (2 <= ax3 (values t))%nat -> ~ In name (vdims t) ->
  exists u, setitem t name (VNum q) = (u, None) /\
    exists f, column_set t u name f /\ forall i o d, (i < ax0 (values t))%nat -> (o < ax2 (values t))%nat -> (d < ax3 (values t))%nat ->
      (month_of t o d <= vdate t -> stores (f i o d) q) /\ (future t o d -> f i o d = None).
Proof. exact set_new_number. Qed.
Print Assumptions C55_new_number.
Theorem C55_old_number : forall t name q, wf t -> NoDup (vdims t) -> In name (vdims t) ->
  exists u, setitem t name (VNum q) = (u, None) /\ column_set t u name (fun _ _ _ => Some q).
Proof. exact set_old_number. Qed.
Print Assumptions C55_old_number.

Definition sel_v := tri_of [[Some 7; Some 8; Some 9]; [Some 6; Some 5; None]; [Some 4; None; None]] [y 2001; y 2002; y 2003] (Ages [12; 24; 36]) (dec 2003) (Some true) false.
Definition sel_w := tri_of [[Some 7; Some 8]; [Some 6; Some 5]] [y 2001; y 2002] (Ages [12; 24]) (dec 2003) (Some true) false.
Definition sel_t := tri_of [[Some 1; Some 2; Some 3]; [Some 4; Some 5; None]; [Some 6; None; None]] [y 2001; y 2002; y 2003] (Ages [12; 24; 36]) (dec 2003) (Some true) false.
Example C55_hyps : wf sel_t /\ wf sel_v /\ wf sel_w /\ NoDup (vdims sel_t) /\ same_rows_one_column sel_t sel_v /\ uniq_labels sel_t /\ blank_future sel_t /\ blank_future sel_w /\
  alignable 12 (odims sel_t) (odims sel_w) /\ alignable 12 (dlist (ddims sel_t)) (dlist (ddims sel_w)) /\ frame_fits sel_t sel_w /\
  incl (odims sel_w) (odims sel_t) /\ incl (dlist (ddims sel_w)) (dlist (ddims sel_t)) /\ odims sel_w <> odims sel_t /\ ~ In "new"%string (vdims sel_t) /\
  cell_eqb (cel (fst (setitem sel_t "new" (VTri sel_w))) 0 1 1 1) (Some (qc 5)) = true /\
  cell_eqb (cel (fst (setitem sel_t "new" (VTri sel_w))) 0 0 1 1) (Some (qc 5)) = true.
Proof.
  split; [by_wfb|]. split; [by_wfb|]. split; [by_wfb|]. split; [repeat constructor; intros []|]. split; [repeat split|]. split; [by_uniqb|]. split; [by_blankb|]. split; [by_blankb|].
  split.
  { right. split; [exists (y 2001); reflexivity|]. split; [exists (y 2001); reflexivity|]. split; [|cbn; lia].
    intros u v Hu Hv. cbn in Hu, Hv. unfold y in *. destruct Hu as [<- | [<- | [<- | []]]], Hv as [<- | [<- | []]];
      [exists 0|exists (-1)|exists 1|exists 0|exists 2|exists 1]; reflexivity. }
  split.
  { right. split; [exists 12; reflexivity|]. split; [exists 12; reflexivity|]. split; [|cbn; lia].
    intros u v Hu Hv. cbn in Hu, Hv. destruct Hu as [<- | [<- | [<- | []]]], Hv as [<- | [<- | []]];
      [exists 0|exists (-1)|exists 1|exists 0|exists 2|exists 1]; reflexivity. }
  split. { intros o a Ho Ha _. cbn in Ho, Ha. unfold y, ULT_VAL in *. lia. }
  split. { intros x Hx. cbn in *. tauto. } split. { intros x Hx. cbn in *. tauto. }
  split; [discriminate|]. split; [cbn; intuition discriminate|]. split; vm_compute; reflexivity.
Qed.
(** A value of the same shape with other origins is filed by position, under the wrong origins. *)
Theorem C55_same_shape_refuted : exists t v u, wf t /\ wf v /\ blank_future t /\ blank_future v /\ kdims v = kdims t /\ vdims v = ["paid"%string] /\ ddims v = ddims t /\
  setitem t "new" (VTri v) = (u, None) /\ ~ In (y 2001) (odims v) /\ amount_at v ["Total"%string] "paid" (y 2002) 12 = qc 5 /\
  amount_at u ["Total"%string] "new" (y 2001) 12 = qc 5.
Proof.
  exists ex2, (tri_of [[Some 5; Some 6]; [Some 7; None]] [y 2002; y 2003] (Ages [12; 24]) (dec 2003) (Some true) false),
    (fst (setitem ex2 "new" (VTri (tri_of [[Some 5; Some 6]; [Some 7; None]] [y 2002; y 2003] (Ages [12; 24]) (dec 2003) (Some true) false)))).
  split; [by_wfb|]. split; [by_wfb|]. split; [by_blankb|]. split; [by_blankb|]. do 3 (split; [reflexivity|]). split; [reflexivity|].
  split; [cbn; unfold y; lia|]. split; apply qeqb; vm_compute; reflexivity.
Qed.
Print Assumptions C55_same_shape_refuted.
(** An assignment that raises leaves the new name behind: more names than columns. *)
Theorem C55_failure_refuted : exists t v u e, wf t /\ wf v /\ setitem t "new" (VTri v) = (u, Some e) /\ vdims u <> vdims t /\ List.length (vdims u) <> ax1 (values u).
Proof.
  exists ex2, (tri_of [[Some 5; Some 6]; [Some 7; None]; [Some 8; None]] [y 2001; y 2002; y 2003] (Vals [dec 2002; dec 2003]) (dec 2003) (Some true) false).
  eexists. eexists. split; [by_wfb|]. split; [by_wfb|]. split; [vm_compute; reflexivity|]. split; [discriminate|]. vm_compute. lia.
Qed.
Print Assumptions C55_failure_refuted.
(** A number assigned over an existing column fills cells after the valuation date. *)
Theorem C55_future_refuted : exists t u o d, wf t /\ blank_future t /\ setitem t "paid" (VNum (qc 1)) = (u, None) /\ (o < ax2 (values u))%nat /\ (d < ax3 (values u))%nat /\ future u o d /\ cel u 0 0 o d = Some (qc 1).
Proof.
  exists ex2, (fst (setitem ex2 "paid" (VNum (qc 1)))), 1%nat, 1%nat. split; [by_wfb|]. split; [by_blankb|]. split; [reflexivity|].
  split; [vm_compute; lia|]. split; [vm_compute; lia|]. split; [vm_compute; reflexivity|reflexivity].
Qed.
Print Assumptions C55_future_refuted.
(** A value of two columns is accepted for one name: more columns than names. *)
Theorem C55_wide_refuted : exists t v u, wf t /\ wf v /\ setitem t "new" (VTri v) = (u, None) /\ ax1 (values u) <> List.length (vdims u).
Proof.
  exists colsA, colsA, (fst (setitem colsA "new" (VTri colsA))). split; [by_wfb|]. split; [by_wfb|]. split; [reflexivity|]. vm_compute. lia.
Qed.
Print Assumptions C55_wide_refuted.
