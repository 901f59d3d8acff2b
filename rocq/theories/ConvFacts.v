(** Accumulation and differencing: what the model computes, cell by cell. *)
From Coq Require Import Lia Sorted.
From Verif Require Export TriFacts.
Local Open Scope Z_scope.

(** ** Reflection of the boolean label tests *)
Lemma strs_eqb_refl l : strs_eqb l l = true.
Proof. induction l; simpl; auto. rewrite String.eqb_refl; auto. Qed.
Lemma keys_eqb_refl l : keys_eqb l l = true.
Proof. induction l; simpl; auto. rewrite strs_eqb_refl; auto. Qed.
Lemma Zs_eqb_refl l : Zs_eqb l l = true.
Proof. induction l; simpl; auto. rewrite Z.eqb_refl; auto. Qed.
Lemma ddim_eqb_refl d : ddim_eqb d d = true.
Proof. destruct d; apply Zs_eqb_refl. Qed.
Lemma mem_str_In s l : mem_str s l = true <-> In s l.
Proof.
  unfold mem_str. rewrite existsb_exists. split.
  - intros (x & Hx & E). apply String.eqb_eq in E. subst; auto.
  - intros H. exists s; split; auto. apply String.eqb_refl.
Qed.
Lemma nodup_Zb_NoDup l : nodup_Zb l = true <-> NoDup l.
Proof.
  induction l as [|x l IH]; simpl; [split; auto; constructor|].
  rewrite andb_true_iff, negb_true_iff, IH. split.
  - intros [E H]. constructor; auto. intros Hin.
    assert (existsb (Z.eqb x) l = true) by (apply existsb_exists; exists x; split; auto; apply Z.eqb_refl). congruence.
  - intros H. inversion H; subst. split; auto. destruct (existsb (Z.eqb x) l) eqn:E; auto.
    apply existsb_exists in E. destruct E as (y & Hy & E). apply Z.eqb_eq in E. subst. contradiction.
Qed.
Lemma sorted_NoDup l : StronglySorted Z.lt l -> NoDup l.
Proof.
  induction 1 as [|a l Hs IH Hf]; constructor; auto.
  intros Hin. rewrite Forall_forall in Hf. specialize (Hf _ Hin). lia.
Qed.

(** ** Column alignment in concat is the identity when the columns agree *)
Lemma union_cols_In objs c : In c (union_cols objs) -> exists t, In t objs /\ In c (vdims t).
Proof.
  unfold union_cols.
  assert (Hin : forall l acc c, In c (fold_left (fun acc c => if mem_str c acc then acc else acc ++ [c]) l acc) ->
                 In c acc \/ In c l).
  { induction l as [|x l IH]; simpl; intros acc c0 H; auto. apply IH in H. destruct H as [H|H]; auto.
    destruct (mem_str x acc); auto. apply in_app_or in H. destruct H as [H|[->|[]]]; auto. }
  assert (Hout : forall objs acc, In c (fold_left (fun acc t => fold_left (fun acc c => if mem_str c acc then acc else acc ++ [c]) (vdims t) acc) objs acc) ->
                 In c acc \/ exists t, In t objs /\ In c (vdims t)).
  { clear objs. induction objs as [|t objs IH]; simpl; intros acc H; auto.
    apply IH in H. destruct H as [H|(t' & H1 & H2)].
    - apply Hin in H. destruct H as [H|H]; auto. right; exists t; auto.
    - right; exists t'; auto. }
  intros H. apply Hout in H. destruct H as [[]|H]; auto.
Qed.
Lemma fill_cols_id all t : (forall c, In c all -> In c (vdims t)) -> fill_cols all t = t.
Proof.
  unfold fill_cols. induction all as [|c all IH]; simpl; intros H; auto.
  assert (E : mem_str c (vdims t) = true) by (apply mem_str_In; auto).
  rewrite E. apply IH; auto.
Qed.
Lemma fill_cols_same objs vs : (forall t, In t objs -> vdims t = vs) ->
  map (fill_cols (union_cols objs)) objs = objs.
Proof.
  intros H. transitivity (map (fun t => t) objs); [|apply map_id]. apply map_ext_in. intros t Ht.
  apply fill_cols_id. intros c Hc. apply union_cols_In in Hc. destruct Hc as (t' & Ht' & Hc).
  rewrite (H t); auto. rewrite <- (H t'); auto.
Qed.

(** ** Concatenating two triangles on the development axis *)
Lemma concat_dev2 a b d : kdims b = kdims a -> vdims b = vdims a -> odims b = odims a ->
  ddim_app (ddims a) (ddims b) = Ok d -> NoDup (dlist d) ->
  ax0 (values b) = ax0 (values a) -> ax1 (values b) = ax1 (values a) -> ax2 (values b) = ax2 (values a) ->
  concat [a; b] AxDev =
    Ok (set_vdate (set_values (set_ddims a d) (cat2 3 (values a) (values b))) (Z.max (vdate b) (vdate a))).
Proof.
  intros Hk Hv Ho Hd Hn H0 H1 H2. unfold concat.
  rewrite (fill_cols_same [a; b] (vdims a)) by (intros t [<-|[<-|[]]]; auto).
  cbn [forallb map List.concat]. rewrite Hk, Ho, keys_eqb_refl, Zs_eqb_refl.
  assert (Ed : dlist (ddims a) ++ dlist (ddims b) = dlist d).
  { destruct (ddims a), (ddims b); simpl in Hd; try discriminate; injection Hd as <-; reflexivity. }
  rewrite app_nil_r, Ed, (proj2 (nodup_Zb_NoDup _) Hn). cbn [andb negb].
  cbn [cat_all axis_num rbind ddim_concat]. unfold cat_ok.
  rewrite H0, H1, H2, !Nat.eqb_refl. cbn [orb andb Nat.eqb rbind]. rewrite Hd. cbn [rbind]. reflexivity.
Qed.

Lemma ddim_app_sel dd x y :
  ddim_app (dmap (fun l => sel l 0 x) dd) (dmap (fun l => sel l 0 y) dd) = Ok (dmap (fun l => sel l 0 (x ++ y)) dd).
Proof. destruct dd; simpl; unfold sel; rewrite map_app; reflexivity. Qed.
Lemma dmap_sel_all dd n : n = List.length (dlist dd) -> dmap (fun l => sel l 0 (seq 0 n)) dd = dd.
Proof. intros ->. destruct dd; simpl; rewrite sel_seq_all; auto. Qed.

(** ** incr_to_cum *)
Lemma incr_to_cum_cell t i c o d : wf t -> is_pattern t = false -> is_cumulative t <> Some true ->
  (o < ax2 (values t))%nat -> (d < ax3 (values t))%nat ->
  cel (incr_to_cum t) i c o d =
    if (Nat.min (ax2 (values t)) (ax3 (values t)) =? 1)%nat || negb (vdate t <? month_of t o d)
    then n2n (Some (sumn (S d) (fun k => amount t i c o k))) else None.
Proof.
  intros W Hp Hc Ho Hd. unfold incr_to_cum, cel.
  assert (E : forall A (x y : A), match is_cumulative t with Some true => x | _ => y end = y).
  { intros A x y. destruct (is_cumulative t) as [[|]|]; congruence. }
  rewrite E, Hp. cbn [values set_cumulative set_values av ax2 ax3].
  rewrite nan_triangle_cases by auto. unfold cumsum3. cbn [av].
  destruct (Nat.eqb (Nat.min (ax2 (values t)) (ax3 (values t))) 1) eqn:Em; cbn [orb].
  - unfold cmul, nansum. rewrite Qcmult_1_r. reflexivity.
  - destruct (vdate t <? month_of t o d); cbn [negb]; auto.
    unfold cmul, nansum. rewrite Qcmult_1_r. reflexivity.
Qed.

Lemma incr_to_cum_frame t : is_pattern t = false -> is_cumulative t <> Some true ->
  same_frame t (incr_to_cum t) /\ is_cumulative (incr_to_cum t) = Some true /\ is_pattern (incr_to_cum t) = false.
Proof.
  intros Hp Hc. unfold incr_to_cum. rewrite Hp.
  destruct (is_cumulative t) as [[|]|]; try congruence; (split; [constructor|split]); auto.
Qed.

(** ** cum_to_incr *)
(** Which differences survive: the difference triangle has one column fewer, so
    its "one row or one column" case starts at two columns. *)
Definition diff_kept (t : tri) (o d : nat) : bool :=
  (Nat.min (ax2 (values t)) (ax3 (values t) - 1) =? 1)%nat || negb (vdate t <? month_of t o d).

Lemma bmap2_same f a b : ax0 b = ax0 a -> ax1 b = ax1 a -> ax2 b = ax2 a -> ax3 b = ax3 a ->
  exists r, bmap2 f a b = Ok r /\ ax0 r = ax0 a /\ ax1 r = ax1 a /\ ax2 r = ax2 a /\ ax3 r = ax3 a /\
  forall i c o d, (i < ax0 a)%nat -> (c < ax1 a)%nat -> (o < ax2 a)%nat -> (d < ax3 a)%nat ->
     av r i c o d = f (av a i c o d) (av b i c o d).
Proof.
  intros H0 H1 H2 H3. unfold bmap2, bdim. rewrite H0, H1, H2, H3, !Nat.eqb_refl. cbn [rbind].
  eexists; split; [reflexivity|]. cbn [ax0 ax1 ax2 ax3 av]. repeat split; auto.
  intros i c o d Hi Hc Ho Hd. unfold bidx.
  assert (E : forall n i, (i < n)%nat -> (if (n =? 1)%nat then 0%nat else i) = i)
    by (intros n k Hk; destruct (Nat.eqb_spec n 1); lia).
  rewrite !E by auto. reflexivity.
Qed.

Lemma cum_to_incr_cell t : wf t -> is_pattern t = false -> is_cumulative t <> Some false ->
  (2 <= ax3 (values t))%nat ->
  exists u, cum_to_incr t = Ok u /\ same_frame t u /\ is_cumulative u = Some false /\ is_pattern u = false /\
    forall i c o d, in_range t i c o d ->
      cel u i c o d = match d with
                      | O => cel t i c o 0%nat
                      | S d' => if diff_kept t o d
                                then n2n (Some (amount t i c o d - amount t i c o d')%Qc) else None
                      end.
Proof.
  intros W Hp Hc Hn. unfold cum_to_incr.
  assert (E : forall A (x y : A), match is_cumulative t with Some false => x | _ => y end = y).
  { intros A x y. destruct (is_cumulative t) as [[|]|]; congruence. }
  rewrite E, Hp. clear E.
  destruct (iloc_dev_tail t W Hn) as (hi & -> & Chi). cbn [rbind].
  destruct (iloc_dev_init t W Hn) as (lo & -> & Clo). cbn [rbind].
  pose proof (cl_eq _ _ Chi) as Ehi. pose proof (cl_eq _ _ Clo) as Elo.
  assert (Shi : values hi = values (sel_dev t (seq 1 (ax3 (values t) - 1)))) by (rewrite Ehi; reflexivity).
  assert (Slo : values lo = values (sel_dev t (seq 0 (ax3 (values t) - 1)))) by (rewrite Elo; reflexivity).
  unfold sub_arr.
  destruct (bmap2_same nz_sub (values hi) (values lo)) as (dv & -> & D0 & D1 & D2 & D3 & Dv);
    try (rewrite Shi, Slo; simpl; rewrite ?seq_length; reflexivity).
  cbn [rbind].
  destruct (iloc_dev_int_ok t 0 W) as (f0 & Ef0 & Cf0); [lia|]. change (Z.of_nat 0) with 0 in Ef0.
  rewrite Ef0. cbn [rbind]. pose proof (cl_eq _ _ Cf0) as Ef.
  set (diff := cleanup (set_values hi dv)).
  assert (Hall : seq 0 (ax3 (values t)) = [0%nat] ++ seq 1 (ax3 (values t) - 1)).
  { destruct (ax3 (values t)) as [|n]; [lia|]. simpl. rewrite Nat.sub_0_r. reflexivity. }
  assert (Ed : ddim_app (ddims f0) (ddims diff) = Ok (ddims t)).
  { unfold diff. cbn [cleanup set_values ddims]. rewrite Ehi, Ef. cbn [set_vdate ddims sel_dev sel_tri].
    rewrite ddim_app_sel, <- Hall, dmap_sel_all; auto. apply W. }
  rewrite (concat_dev2 f0 diff (ddims t)); auto.
  - cbn [rbind]. eexists; split; [reflexivity|].
    assert (V0 : ax3 (values f0) = 1%nat) by (rewrite Ef; reflexivity).
    assert (V1 : ax3 dv = (ax3 (values t) - 1)%nat).
    { rewrite D3, Shi. simpl. rewrite seq_length. reflexivity. }
    split; [|split; [reflexivity|split]].
    + constructor; try (rewrite Ef; cbn; rewrite ?seq_length; auto; fail); try reflexivity.
      * rewrite Ef. cbn. rewrite sel_seq_all; auto. apply W.
      * rewrite Ef. cbn. rewrite sel_seq_all; auto. apply W.
      * rewrite Ef. cbn. rewrite sel_seq_all; auto. apply W.
      * unfold diff. cbn [values set_vdate set_cumulative set_values cat2 ax3 cleanup]. rewrite V0, V1. lia.
    + rewrite Ef. exact Hp.
    + intros i c o d (Ri & Rc & Ro & Rd). unfold cel.
      cbn [values set_vdate set_cumulative set_values cat2 av]. rewrite V0.
      destruct d as [|d].
      * cbn [Nat.ltb Nat.leb]. rewrite Ef. cbn [set_vdate values sel_dev sel_tri sel_arr av].
        rewrite !seq_nth by auto. reflexivity.
      * cbn [Nat.ltb Nat.leb]. unfold diff. cbn [values cleanup set_values av].
        replace (S d - 1)%nat with d by lia.
        assert (Rh : (i < ax0 (values hi) /\ c < ax1 (values hi) /\ o < ax2 (values hi) /\ d < ax3 (values hi))%nat).
        { rewrite Shi. simpl. rewrite !seq_length. lia. }
        destruct Rh as (R0 & R1 & R2 & R3).
        rewrite Dv by auto. rewrite Shi, Slo. cbn [values sel_dev sel_tri sel_arr av].
        rewrite !seq_nth by lia.
        change (0 + i)%nat with i. change (0 + c)%nat with c. change (0 + o)%nat with o.
        change (0 + d)%nat with d. change (1 + d)%nat with (S d).
        assert (Em : nan_triangle (set_values hi dv) o d = if diff_kept t o (S d) then Some 1%Qc else None).
        { assert (E1 : nan_triangle (set_values hi dv) o d = nan_triangle hi o d).
          { unfold nan_triangle. cbn [values set_values vdate]. rewrite D2, D3. reflexivity. }
          rewrite E1, nan_triangle_cases; [| apply Chi | auto | auto].
          assert (E2 : month_of (sel_dev t (seq 1 (ax3 (values t) - 1))) o d = month_of t o (S d)).
          { unfold sel_dev. rewrite month_of_sel by (rewrite seq_length; lia).
            rewrite !seq_nth by lia. reflexivity. }
          assert (E3 : (vdate hi <? month_of t o (S d)) = (vdate t <? month_of t o (S d))).
          { rewrite <- E2. apply (cl_fut _ _ Chi); simpl; rewrite seq_length; lia. }
          assert (E4 : month_of hi o d = month_of t o (S d)) by (rewrite Ehi; exact E2).
          rewrite E4, E3. unfold diff_kept. rewrite Shi. simpl ax2. simpl ax3. rewrite !seq_length.
          destruct (Nat.min (ax2 (values t)) (ax3 (values t) - 1) =? 1)%nat; auto.
          cbn [orb]. destruct (vdate t <? month_of t o (S d)); auto. }
        rewrite Em. unfold nz_sub, amount, cel. destruct (diff_kept t o (S d)); cbn [nz cmul].
        -- rewrite Qcmult_1_r. reflexivity.
        -- rewrite Qcmult_0_r. reflexivity.
  - unfold diff. cbn. rewrite Ehi, Ef. reflexivity.
  - unfold diff. cbn. rewrite Ehi, Ef. reflexivity.
  - unfold diff. cbn. rewrite Ehi, Ef. reflexivity.
  - apply sorted_NoDup, W.
  - unfold diff. cbn. rewrite D0, Shi, Ef. reflexivity.
  - unfold diff. cbn. rewrite D1, Shi, Ef. reflexivity.
  - unfold diff. cbn. rewrite D2, Shi, Ef. reflexivity.
Qed.

Lemma cum_to_incr_one t : wf t -> is_pattern t = false -> is_cumulative t <> Some false ->
  ax3 (values t) = 1%nat -> exists e, cum_to_incr t = Err e.
Proof.
  intros W Hp Hc Hn. unfold cum_to_incr.
  assert (E : forall A (x y : A), match is_cumulative t with Some false => x | _ => y end = y).
  { intros A x y. destruct (is_cumulative t) as [[|]|]; congruence. }
  rewrite E, Hp. unfold iloc_dev.
  pose proof (positions_tail (ax3 (values t)) ltac:(lia)) as Ht. unfold normalize_slice in *.
  destruct (slice_triple (Some 1) None None (ax3 (values t))) as [[[x y] z]|e]; [|discriminate].
  cbn [rbind] in *. erewrite (get_idx_dev t _ _); [| |exact Ht]; [|reflexivity]. rewrite Hn. cbn [Nat.sub seq].
  unfold clip_vdate. destruct (valuations (sel_dev t [])) as [|v vs] eqn:Ev; [eexists; reflexivity|].
  exfalso. assert (H : In v (valuations (sel_dev t []))) by (rewrite Ev; left; auto).
  apply in_valuations in H. destruct H as (o & d & _ & Hd & _). unfold sel_dev in Hd. simpl in Hd.
  destruct (ddims t); simpl in Hd; lia.
Qed.
