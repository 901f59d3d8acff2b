From Coq Require Import Lia.
From Verif Require Import SpecVoting NumFacts ArrFacts TriFacts P_Core P_Arith BcastFacts P_Methods.
Local Open Scope Z_scope.

Lemma wf_ultimate t u : wf t -> ultimate_frame t u -> wf u /\ no_future u.
Proof.
  intros W U. assert (Wu : wf u).
  { constructor.
    - rewrite (uf_0 _ _ U), (uf_k _ _ U). apply W.
    - rewrite (uf_1 _ _ U), (uf_v _ _ U). apply W.
    - rewrite (uf_2 _ _ U), (uf_o _ _ U). apply W.
    - rewrite (uf_3 _ _ U), (uf_d _ _ U). reflexivity.
    - rewrite (uf_2 _ _ U). apply W.
    - rewrite (uf_3 _ _ U). lia.
    - rewrite (uf_o _ _ U). apply W.
    - rewrite (uf_d _ _ U). repeat constructor.
    - rewrite (uf_vd _ _ U). lia.
    - rewrite (uf_d _ _ U). intros v [<-|[]]. lia. }
  split; auto. intros o d Ho Hd F. unfold future, month_of in F. rewrite (uf_d _ _ U), (uf_vd _ _ U) in F.
  rewrite (uf_3 _ _ U) in Hd. assert (d = 0%nat) by lia. subst. cbn in F. lia.
Qed.
Lemma no_future_blank t : no_future t -> blank_future t.
Proof. intros H i c o d (Hi & Hc & Ho & Hd) F. exfalso. exact (H o d Ho Hd F). Qed.
Lemma ultimate_axes t u v : ultimate_frame t u -> ultimate_frame t v -> same_axes u v.
Proof. intros [] []. constructor; congruence. Qed.

Lemma slice_bok t w n e u : weights_cover t w n -> (1 <= ax0 (values t))%nat -> (1 <= ax1 (values t))%nat -> (1 <= ax2 (values t))%nat ->
  ultimate_frame t u -> bok (values u) (weight_slice t w e).
Proof.
  intros C H0 H1 H2 U. unfold bok. rewrite (uf_0 _ _ U), (uf_1 _ _ U), (uf_2 _ _ U), (uf_3 _ _ U).
  destruct w; cbn in *; intuition lia.
Qed.
Lemma sum_bok t w n u : weights_cover t w n -> (1 <= ax0 (values t))%nat -> (1 <= ax1 (values t))%nat -> (1 <= ax2 (values t))%nat ->
  ultimate_frame t u -> bok (values u) (weight_sum t w).
Proof.
  intros C H0 H1 H2 U. unfold bok. rewrite (uf_0 _ _ U), (uf_1 _ _ U), (uf_2 _ _ U), (uf_3 _ _ U).
  destruct w; cbn in *; intuition lia.
Qed.
Lemma bidx_lt' n i : (i < n)%nat -> bidx n i = i.
Proof. apply bidx_lt. Qed.
Lemma slice_bav t w n e i c o : weights_cover t w n -> (i < ax0 (values t))%nat -> (c < ax1 (values t))%nat -> (o < ax2 (values t))%nat ->
  bav (weight_slice t w e) i c o 0 = Some (weight_of w i c o e).
Proof.
  intros C Hi Hc Ho. unfold bav. destruct w; cbn in *.
  - destruct C as (-> & _). rewrite (bidx_lt (ax2 (values t))) by auto. reflexivity.
  - destruct C as (-> & -> & _). rewrite (bidx_lt (ax2 (values t))), (bidx_lt (ax1 (values t))) by auto. reflexivity.
  - destruct C as (-> & -> & -> & _). rewrite (bidx_lt (ax2 (values t))), (bidx_lt (ax1 (values t))), (bidx_lt (ax0 (values t))) by auto. reflexivity.
Qed.
Lemma sum_bav t w n i c o : weights_cover t w n -> (i < ax0 (values t))%nat -> (c < ax1 (values t))%nat -> (o < ax2 (values t))%nat ->
  bav (weight_sum t w) i c o 0 = Some (total_weight w n i c o).
Proof.
  intros C Hi Hc Ho. unfold bav, total_weight. destruct w; cbn in *.
  - destruct C as (-> & ->). rewrite (bidx_lt (ax2 (values t))) by auto. reflexivity.
  - destruct C as (-> & -> & ->). rewrite (bidx_lt (ax2 (values t))), (bidx_lt (ax1 (values t))) by auto. reflexivity.
  - destruct C as (-> & -> & -> & ->). rewrite (bidx_lt (ax2 (values t))), (bidx_lt (ax1 (values t))), (bidx_lt (ax0 (values t))) by auto. reflexivity.
Qed.
Lemma ares_frame op t u b r : ultimate_frame t u -> ares op u b r ->
  Nat.max (ax0 (values u)) (ax0 b) = ax0 (values u) -> Nat.max (ax1 (values u)) (ax1 b) = ax1 (values u) ->
  Nat.max (ax2 (values u)) (ax2 b) = ax2 (values u) -> ax3 b = 1%nat -> ultimate_frame t r.
Proof.
  intros [] [] E0 E1 E2 E3. destruct ar_fl as (F1 & F2 & F3 & F4).
  constructor; try congruence; rewrite ?ar_0, ?ar_1, ?ar_2, ?ar_3, ?E0, ?E1, ?E2, ?E3, ?uf_3; auto.
Qed.

Lemma weigh_ok t w n us k : wf t -> weights_cover t w n -> (1 <= ax0 (values t))%nat -> (1 <= ax1 (values t))%nat ->
  (forall u, In u us -> ultimate_frame t u) ->
  exists xs, weigh t w k us = Ok xs /\ List.length xs = List.length us /\ (forall x, In x xs -> ultimate_frame t x) /\
    forall e i c o, (e < List.length us)%nat -> (i < ax0 (values t))%nat -> (c < ax1 (values t))%nat -> (o < ax2 (values t))%nat ->
      member xs e i c o = (weight_of w i c o (k + e) * member us e i c o)%Qc.
Proof.
  intros W C H0 H1. pose proof (wf_o1 _ W) as H2. revert k. induction us as [|u us IH]; intros k Hu.
  - exists []. repeat split; auto; cbn; intros; try contradiction; lia.
  - assert (U : ultimate_frame t u) by (apply Hu; left; auto).
    destruct (op_arr_ok OMul u (weight_slice t w k) (slice_bok t w n k u C H0 H1 H2 U)) as (x & Ex & Rx).
    cbn [op_arr] in Ex. cbn [weigh]. rewrite Ex. cbn [rbind].
    destruct (IH (S k)) as (xs & -> & L & F & V); [intros; apply Hu; right; auto|]. cbn [rbind].
    exists (x :: xs). split; auto. split; [cbn; congruence|].
    assert (Fx : ultimate_frame t x).
    { eapply ares_frame; eauto; rewrite ?(uf_0 _ _ U), ?(uf_1 _ _ U), ?(uf_2 _ _ U); destruct w; cbn in *; try (intuition lia). }
    split; [intros y [<-|Hy]; auto|]. intros [|e] i c o He Hi Hc Ho.
    + unfold member. cbn [map nth]. unfold amount. rewrite (ar_cell _ _ _ _ Rx). cbn [cop].
      rewrite bav_in by (rewrite ?(uf_0 _ _ U), ?(uf_1 _ _ U), ?(uf_2 _ _ U), ?(uf_3 _ _ U); auto).
      rewrite (slice_bav t w n k i c o C Hi Hc Ho), Nat.add_0_r. fold (cel u i c o 0). destruct (cel u i c o 0); cbn; ring.
    + unfold member. cbn [map nth]. fold (member xs e i c o) (member us e i c o).
      rewrite V by (cbn in He; auto; lia). do 2 f_equal. lia.
Qed.

Lemma sum_members t xs : wf t -> (forall x, In x xs -> ultimate_frame t x) -> xs <> [] ->
  exists s, py_sum xs = Ok s /\ ultimate_frame t s /\
    (forall i c o, (i < ax0 (values t))%nat -> (c < ax1 (values t))%nat -> (o < ax2 (values t))%nat ->
      amount s i c o 0 = sumn (List.length xs) (fun e => member xs e i c o)) /\
    (forall i c o, (i < ax0 (values t))%nat -> (c < ax1 (values t))%nat -> (o < ax2 (values t))%nat ->
      (2 <= List.length xs)%nat -> stores (cel s i c o 0) (amount s i c o 0)).
Proof.
  intros W F N. destruct xs as [|x xs]; [congruence|]. cbn [py_sum]. unfold radd_scalar.
  destruct (Qc_eqb_spec 0 0) as [_|]; [|congruence].
  assert (Fx : ultimate_frame t x) by (apply F; left; auto).
  assert (G : forall ys acc, ultimate_frame t acc -> (forall y, In y ys -> ultimate_frame t y) ->
    exists s, fold_left (fun acc u => do a <- acc; tri_op OAdd a u) ys (Ok acc) = Ok s /\ ultimate_frame t s /\
     (forall i c o, (i < ax0 (values t))%nat -> (c < ax1 (values t))%nat -> (o < ax2 (values t))%nat ->
       amount s i c o 0 = (amount acc i c o 0 + sumn (List.length ys) (fun e => member ys e i c o))%Qc) /\
     (forall i c o, (i < ax0 (values t))%nat -> (c < ax1 (values t))%nat -> (o < ax2 (values t))%nat ->
        (ys <> [] \/ stores (cel acc i c o 0) (amount acc i c o 0)) -> stores (cel s i c o 0) (amount s i c o 0))).
  { induction ys as [|y ys IH]; intros acc Fa Fy.
    - exists acc. cbn. split; auto. split; auto. split; [intros; ring|]. intros i c o _ _ _ [H|H]; [congruence|exact H].
    - cbn [fold_left rbind]. assert (Y : ultimate_frame t y) by (apply Fy; left; auto).
      destruct (wf_ultimate t acc W Fa) as (Wa & Na). destruct (wf_ultimate t y W Y) as (Wy & Ny).
      destruct (addsub_same OAdd acc y (or_introl eq_refl) Wa Wy (ultimate_axes _ _ _ Fa Y) (no_future_blank _ Na) (no_future_blank _ Ny))
        as (v & -> & Wv & (J1 & J2 & J3 & J4 & J5 & J6 & J7 & J8 & J9 & J10) & Sv & Bv & Hv).
      assert (Fv : ultimate_frame t v).
      { pose proof (wf_k _ Wv) as Z0. pose proof (wf_v _ Wv) as Z1. pose proof (wf_o _ Wv) as Z2. pose proof (wf_d _ Wv) as Z3.
        rewrite J1, <- (wf_k _ Wa), (uf_0 _ _ Fa) in Z0. rewrite J3, <- (wf_v _ Wa), (uf_1 _ _ Fa) in Z1.
        rewrite J4, <- (wf_o _ Wa), (uf_2 _ _ Fa) in Z2. rewrite J5, <- (wf_d _ Wa), (uf_3 _ _ Fa) in Z3.
        pose proof (uf_vd _ _ Y) as Yd. rewrite (uf_vd _ _ Fa), Yd in J6. rewrite (uf_pat _ _ Fa) in J10.
        destruct Fa. constructor; congruence || (rewrite J6; apply Z.max_id) || idtac. rewrite J10; reflexivity. }
      destruct (IH v Fv) as (s & -> & Fs & As & Ss); [intros; apply Fy; right; auto|].
      assert (Sv' : forall i c o, (i < ax0 (values t))%nat -> (c < ax1 (values t))%nat -> (o < ax2 (values t))%nat ->
        stores (cel v i c o 0) (amount acc i c o 0 + amount y i c o 0)).
      { intros i c o Hi Hc Ho. apply (Hv i c o 0%nat). unfold in_range.
        rewrite (uf_0 _ _ Fa), (uf_1 _ _ Fa), (uf_2 _ _ Fa), (uf_3 _ _ Fa). repeat split; auto. }
      exists s. split; auto. split; auto. split.
      + intros i c o Hi Hc Ho. rewrite As by auto. cbn [List.length]. rewrite sumn_S_l. unfold member at 2. cbn [map nth].
        unfold amount at 1. rewrite (stores_nz _ _ (Sv' i c o Hi Hc Ho)).
        replace (sumn (List.length ys) (fun e => member (y :: ys) (S e) i c o)) with (sumn (List.length ys) (fun e => member ys e i c o)) by (apply sumn_ext; intros; reflexivity).
        ring.
      + intros i c o Hi Hc Ho _. apply Ss; auto. right. unfold amount. rewrite (stores_nz _ _ (Sv' i c o Hi Hc Ho)). apply Sv'; auto. }
  destruct (G xs x Fx) as (s & Es & Fs & As & Ss); [intros; apply F; right; auto|].
  exists s. split; auto. split; auto. split.
  - intros i c o Hi Hc Ho. rewrite As by auto. cbn [List.length]. rewrite sumn_S_l. unfold member at 2. cbn [map nth]. f_equal.
  - intros i c o Hi Hc Ho H. apply Ss; auto. left. destruct xs; [cbn in H; lia|discriminate].
Qed.

Lemma kept_all us : kept_members (map Some us) = us.
Proof. induction us; cbn; congruence. Qed.
Lemma vote_ok t w us : wf t -> (1 <= ax0 (values t))%nat -> (1 <= ax1 (values t))%nat -> us <> [] -> weights_cover t w (List.length us) ->
  (forall u, In u us -> ultimate_frame t u) ->
  exists r, vote t w (map Some us) = Ok r /\ ultimate_frame t r /\
    forall i c o, (i < ax0 (values t))%nat -> (c < ax1 (values t))%nat -> (o < ax2 (values t))%nat ->
      (total_weight w (List.length us) i c o <> 0%Qc -> amount r i c o 0 = voted w us i c o) /\
      (total_weight w (List.length us) i c o = 0%Qc -> cel r i c o 0 = None).
Proof.
  intros W H0 H1 N C F. pose proof (wf_o1 _ W) as H2. unfold vote. rewrite kept_all.
  assert (I : index_ok t w = true).
  { destruct w; auto. cbn in *. destruct C as (-> & -> & _). rewrite !Nat.eqb_refl. reflexivity. }
  rewrite I. cbn [negb].
  destruct (weigh_ok t w _ us 0 W C H0 H1 F) as (xs & -> & L & Fx & V). cbn [rbind].
  destruct (sum_members t xs W Fx) as (s & -> & Fs & As & _); [intros ->; destruct us; [congruence|discriminate]|]. cbn [rbind].
  destruct (op_arr_ok ODiv s (weight_sum t w) (sum_bok t w _ s C H0 H1 H2 Fs)) as (r & Er & Rr). cbn [op_arr] in Er.
  exists r. split; auto. split.
  { eapply ares_frame; eauto; rewrite ?(uf_0 _ _ Fs), ?(uf_1 _ _ Fs), ?(uf_2 _ _ Fs); destruct w; cbn in *; try (intuition lia). }
  intros i c o Hi Hc Ho.
  assert (Cell : cel r i c o 0 = cdiv (cel s i c o 0) (Some (total_weight w (List.length us) i c o))).
  { rewrite (ar_cell _ _ _ _ Rr). cbn [cop].
    rewrite bav_in by (rewrite ?(uf_0 _ _ Fs), ?(uf_1 _ _ Fs), ?(uf_2 _ _ Fs), ?(uf_3 _ _ Fs); auto).
    rewrite (sum_bav t w _ i c o C Hi Hc Ho). reflexivity. }
  specialize (As i c o Hi Hc Ho).
  assert (Q : amount s i c o 0 = sumn (List.length us) (fun e => weight_of w i c o e * member us e i c o)%Qc).
  { rewrite As, L. apply sumn_ext. intros e He. rewrite V by auto. reflexivity. }
  unfold amount at 1. rewrite Cell. unfold voted. rewrite <- Q. unfold amount. set (T := total_weight _ _ _ _ _). split.
  - intros T0. destruct (cel s i c o 0) as [q|]; cbn; destruct (Qc_eqb_spec T 0); cbn; try congruence. field. auto.
  - intros ->. destruct (cel s i c o 0) as [q|]; cbn; auto.
Qed.

(** Laws of the weighted average. *)
Local Open Scope Qc_scope.
Lemma weighted_ge n (w u : nat -> Qc) lo : (forall e, (e < n)%nat -> 0 <= w e) -> 0 < sumn n w ->
  (forall e, (e < n)%nat -> 0 < w e -> lo <= u e) -> lo <= sumn n (fun e => w e * u e) / sumn n w.
Proof.
  intros Hw Hs Hu.
  assert (A : sumn n (fun e => w e * lo) <= sumn n (fun e => w e * u e)).
  { apply sumn_le. intros e He. destruct (Qcle_lt_or_eq _ _ (Hw e He)) as [P|P].
    - rewrite !(Qcmult_comm (w e)). apply Qcmult_le_compat_r; auto.
    - rewrite <- P. replace (0 * lo) with 0 by ring. replace (0 * u e) with 0 by ring. apply Qcle_refl. }
  assert (E : sumn n (fun e => w e * lo) = lo * sumn n w).
  { clear. induction n as [|n IH]; cbn; [ring|]. rewrite IH. ring. }
  rewrite E in A. apply Qcmult_lt_0_le_reg_r with (sumn n w); auto.
  assert (NZ : sumn n w <> 0) by (intros Z; rewrite Z in Hs; discriminate Hs).
  replace (sumn n (fun e => w e * u e) / sumn n w * sumn n w) with (sumn n (fun e => w e * u e)) by (field; auto). exact A.
Qed.

Lemma weighted_le n (w u : nat -> Qc) hi : (forall e, (e < n)%nat -> 0 <= w e) -> 0 < sumn n w ->
  (forall e, (e < n)%nat -> 0 < w e -> u e <= hi) -> sumn n (fun e => w e * u e) / sumn n w <= hi.
Proof.
  intros Hw Hs Hu.
  assert (NZ : sumn n w <> 0) by (intros Z; rewrite Z in Hs; discriminate Hs).
  pose proof (weighted_ge n w (fun e => - u e) (- hi) Hw Hs) as G. cbv beta in G.
  assert (E : sumn n (fun e => w e * - u e) = - sumn n (fun e => w e * u e)) by (clear; induction n as [|n IH]; cbn; [ring|]; rewrite IH; ring).
  rewrite E in G. replace (- sumn n (fun e => w e * u e) / sumn n w) with (- (sumn n (fun e => w e * u e) / sumn n w)) in G by (field; auto).
  rewrite <- (Qcopp_involutive hi), <- (Qcopp_involutive (_ / _)). apply Qcopp_le_compat, G.
  intros e He P. apply Qcopp_le_compat. auto.
Qed.

Lemma vote_amount t w us r i c o : ready t w us -> vote t w (map Some us) = Ok r -> 
  (i < ax0 (values t))%nat -> (c < ax1 (values t))%nat -> (o < ax2 (values t))%nat ->
  total_weight w (List.length us) i c o <> 0 -> amount r i c o 0 = voted w us i c o.
Proof.
  intros (W & H0 & H1 & N & C & F) E Hi Hc Ho T. destruct (vote_ok t w us W H0 H1 N C F) as (r' & E' & _ & A).
  rewrite E in E'. injection E' as <-. apply (A i c o Hi Hc Ho); auto.
Qed.
Lemma vote_between t w us r i c o lo hi : ready t w us -> vote t w (map Some us) = Ok r ->
  (i < ax0 (values t))%nat -> (c < ax1 (values t))%nat -> (o < ax2 (values t))%nat ->
  (forall e, (e < List.length us)%nat -> 0 <= weight_of w i c o e) -> (exists e, (e < List.length us)%nat /\ 0 < weight_of w i c o e) ->
  (forall e, (e < List.length us)%nat -> 0 < weight_of w i c o e -> lo <= member us e i c o <= hi) ->
  lo <= amount r i c o 0 <= hi.
Proof.
  intros R E Hi Hc Ho Hw (e0 & He0 & P0) Hm.
  assert (T : 0 < total_weight w (List.length us) i c o) by (apply (sumn_pos _ _ e0); auto).
  rewrite (vote_amount t w us r i c o R E Hi Hc Ho); [|intros Z; rewrite Z in T; discriminate T].
  split; [apply weighted_ge|apply weighted_le]; auto; intros e He P; apply (Hm e He P).
Qed.
Lemma vote_one t w us r i c o e0 : ready t w us -> vote t w (map Some us) = Ok r ->
  (i < ax0 (values t))%nat -> (c < ax1 (values t))%nat -> (o < ax2 (values t))%nat -> (e0 < List.length us)%nat ->
  weight_of w i c o e0 <> 0 -> (forall e, (e < List.length us)%nat -> e <> e0 -> weight_of w i c o e = 0) ->
  amount r i c o 0 = member us e0 i c o.
Proof.
  intros R E Hi Hc Ho He0 N0 Z.
  assert (T : total_weight w (List.length us) i c o = weight_of w i c o e0) by (apply sumn_single; auto).
  rewrite (vote_amount t w us r i c o R E Hi Hc Ho) by (rewrite T; auto). unfold voted. rewrite T.
  rewrite (sumn_single _ e0); auto; [field; auto|]. intros e He Ne. rewrite Z by auto. ring.
Qed.
Lemma vote_scale t w w' us r r' i c o k : ready t w us -> ready t w' us -> vote t w (map Some us) = Ok r -> vote t w' (map Some us) = Ok r' ->
  (i < ax0 (values t))%nat -> (c < ax1 (values t))%nat -> (o < ax2 (values t))%nat -> k <> 0 ->
  (forall e, (e < List.length us)%nat -> weight_of w' i c o e = k * weight_of w i c o e) ->
  total_weight w (List.length us) i c o <> 0 -> amount r' i c o 0 = amount r i c o 0.
Proof.
  intros R R' E E' Hi Hc Ho K S T.
  assert (T' : total_weight w' (List.length us) i c o = k * total_weight w (List.length us) i c o).
  { unfold total_weight. rewrite (sumn_ext _ (fun e => weight_of w' i c o e) (fun e => k * weight_of w i c o e) S). clear. induction (List.length us) as [|n IH]; cbn; [ring|]. rewrite IH. ring. }
  assert (KT : k * total_weight w (List.length us) i c o <> 0) by (intros Z; apply Qcmult_integral in Z; tauto).
  rewrite (vote_amount t w us r i c o R E Hi Hc Ho T), (vote_amount t w' us r' i c o R' E' Hi Hc Ho) by (rewrite T'; auto).
  unfold voted. rewrite T'.
  assert (X : sumn (List.length us) (fun e => weight_of w' i c o e * member us e i c o) = k * sumn (List.length us) (fun e => weight_of w i c o e * member us e i c o)).
  { rewrite (sumn_ext _ _ (fun e => k * (weight_of w i c o e * member us e i c o))) by (intros e He; rewrite S by auto; ring).
    clear. induction (List.length us) as [|n IH]; cbn; [ring|]. rewrite IH. ring. }
  rewrite X. field. auto.
Qed.
Lemma sumn_perm' n p f : Permutation p (seq 0 n) -> sumn n (fun i => f (nth i p 0%nat)) = sumn n f.
Proof.
  intros P. assert (E : forall l, sumn (List.length l) (fun i => f (nth i l 0%nat)) = fold_right Qcplus 0 (map f l)).
  { induction l as [|x l IH]; [reflexivity|]. cbn [List.length map fold_right]. rewrite sumn_S_l. cbn [nth]. rewrite IH. reflexivity. }
  assert (Q : forall a b, Permutation a b -> fold_right Qcplus 0 (map f a) = fold_right Qcplus 0 (map f b)).
  { intros a b Q. induction Q; cbn [map fold_right]; [reflexivity|congruence|ring|congruence]. }
  pose proof (Permutation_length P) as L. rewrite seq_length in L. rewrite <- L at 1. rewrite E, (Q _ _ P), <- E, seq_length.
  apply sumn_ext. intros i Hi. rewrite seq_nth by auto. reflexivity.
Qed.
Lemma vote_order t w w' us us' r r' p i c o d0 : ready t w us -> ready t w' us' -> vote t w (map Some us) = Ok r -> vote t w' (map Some us') = Ok r' ->
  Permutation p (seq 0 (List.length us)) -> us' = map (fun e => nth e us d0) p ->
  (i < ax0 (values t))%nat -> (c < ax1 (values t))%nat -> (o < ax2 (values t))%nat ->
  (forall e, (e < List.length us)%nat -> weight_of w' i c o e = weight_of w i c o (nth e p 0%nat)) ->
  total_weight w (List.length us) i c o <> 0 -> amount r' i c o 0 = amount r i c o 0.
Proof.
  intros R R' E E' P Eu Hi Hc Ho S T.
  pose proof (Permutation_length P) as Lp. rewrite seq_length in Lp.
  assert (L : List.length us' = List.length us) by (rewrite Eu, map_length; auto).
  assert (T' : total_weight w' (List.length us') i c o = total_weight w (List.length us) i c o).
  { unfold total_weight. rewrite L, (sumn_ext _ (fun e => weight_of w' i c o e) (fun e => weight_of w i c o (nth e p 0%nat)) S). apply (sumn_perm' _ p (fun e => weight_of w i c o e) P). }
  rewrite (vote_amount t w us r i c o R E Hi Hc Ho T), (vote_amount t w' us' r' i c o R' E' Hi Hc Ho) by (rewrite T'; auto).
  unfold voted. rewrite T'. f_equal. rewrite L.
  rewrite <- (sumn_perm' _ p (fun e => weight_of w i c o e * member us e i c o) P). apply sumn_ext. intros e He. rewrite S by auto. f_equal.
  unfold member. rewrite Eu, map_map.
  assert (He' : (nth e p 0 < List.length us)%nat).
  { assert (I : In (nth e p 0%nat) (seq 0 (List.length us))) by (eapply Permutation_in; [exact P|]; apply nth_In; lia). apply in_seq in I. lia. }
  rewrite (nth_indep _ 0 (amount (nth 0 us d0) i c o 0)) by (rewrite map_length; lia).
  rewrite (map_nth (fun x => amount (nth x us d0) i c o 0)).
  rewrite (nth_indep (map _ us) 0 (amount d0 i c o 0)) by (rewrite map_length; lia).
  rewrite (map_nth (fun u => amount u i c o 0)). reflexivity.
Qed.

(** Validation of weights. *)
Lemma fit_checks t n dflt s w : fit_weights t n dflt s = Ok w -> w_origins w = ax2 (values t) /\ w_estimators w = n /\ (1 <= n)%nat.
Proof.
  unfold fit_weights. destruct (Nat.eqb_spec n 0); [discriminate|]. destruct (coerce_weights _ _ _) as [v|]; [|discriminate]. cbn [rbind].
  destruct (Nat.eqb_spec (w_origins v) (ax2 (values t))); [|discriminate]. destruct (Nat.eqb_spec (w_estimators v) n); [|discriminate].
  intros [= <-]. repeat split; auto. lia.
Qed.
Lemma fit_array t n dflt w : (1 <= n)%nat ->
  fit_weights t n dflt (WArr w) = if ((w_origins w =? ax2 (values t)) && (w_estimators w =? n))%nat then Ok w else Err ValueError.
Proof.
  intros H. unfold fit_weights. destruct (Nat.eqb_spec n 0); [lia|]. cbn [coerce_weights rbind].
  destruct (_ =? _)%nat, (_ =? _)%nat; reflexivity.
Qed.
Lemma rows_ok rows n : rows <> [] -> (forall r, In r rows -> List.length r = n) -> 
  rows_arr rows = Ok (W2 (List.length rows) n (fun o e => nth e (nth o rows []) 0)).
Proof.
  intros N H. unfold rows_arr. assert (E : List.length (hd [] rows) = n) by (destruct rows; [congruence|apply H; left; auto]).
  rewrite E. assert (F : forallb (fun r => (List.length r =? n)%nat) rows = true) by (apply forallb_forall; intros r Hr; apply Nat.eqb_eq; auto).
  rewrite F. reflexivity.
Qed.
Lemma fit_rows t n dflt rows s : wf t -> (1 <= n)%nat -> (match dflt with Some d => List.length d = n | None => True end) ->
  coerce_weights t (match dflt with Some d => d | None => repeat 1 n end) s = rows_arr rows -> List.length rows = List.length (odims t) ->
  (forall r, In r rows -> List.length r = n) ->
  fit_weights t n dflt s = Ok (W2 (ax2 (values t)) n (fun o e => nth e (nth o rows []) 0)).
Proof.
  intros W Hn Hd E L H. unfold fit_weights. destruct (Nat.eqb_spec n 0); [lia|]. rewrite E.
  assert (N : rows <> []) by (intros ->; cbn in L; pose proof (wf_o1 _ W); pose proof (wf_o _ W); lia).
  rewrite (rows_ok rows n N H). cbn [rbind w_origins w_estimators]. rewrite L, <- (wf_o _ W), !Nat.eqb_refl. reflexivity.
Qed.
Lemma dict_mapped m o r : mapped m o r -> dict_get m o = Some r.
Proof.
  intros (m1 & m2 & -> & N). unfold dict_get. rewrite rev_app_distr. cbn [rev]. rewrite <- app_assoc. cbn [app].
  assert (G : forall (l : list (Z * list Qc)), ~ In o (map fst l) -> forall k, find (fun p => fst p =? o)%Z (l ++ k) = find (fun p => fst p =? o)%Z k).
  { induction l as [|[a b] l IH]; intros H k; auto. cbn. destruct (Z.eqb_spec a o); [exfalso; apply H; left; auto|]. apply IH. intros I. apply H. right. auto. }
  rewrite G; [cbn; rewrite Z.eqb_refl; reflexivity|]. rewrite map_rev. intros I. apply N. apply in_rev. auto.
Qed.
Lemma dict_missing m o : ~ In o (map fst m) -> dict_get m o = None.
Proof.
  intros N. unfold dict_get. destruct (find _ (rev m)) as [[a b]|] eqn:E; auto. apply find_some in E. destruct E as [I E].
  apply Z.eqb_eq in E. cbn in E. subst. exfalso. apply N. apply in_rev in I. apply (in_map fst) in I. exact I.
Qed.
Lemma mapped_or m o : (exists r, mapped m o r) \/ ~ In o (map fst m).
Proof.
  induction m as [|[a b] m IH] using rev_ind; [right; auto|]. destruct (Z.eq_dec a o) as [->|Na].
  - left. exists b, m, []. split; auto.
  - destruct IH as [(r & m1 & m2 & -> & N)|N].
    + left. exists r, m1, (m2 ++ [(a, b)]). rewrite <- app_assoc. split; auto. rewrite map_app, in_app_iff. cbn. tauto.
    + right. rewrite map_app, in_app_iff. cbn. tauto.
Qed.
Lemma fit_mapping t n dflt m : wf t -> (1 <= n)%nat -> List.length dflt = n ->
  (forall o r, In (o, r) m -> In o (odims t) /\ List.length r = n) ->
  exists w, fit_weights t n (Some dflt) (WMap m) = Ok w /\ weights_cover t w n /\
    forall i c o e, (o < ax2 (values t))%nat ->
      (forall r, mapped m (nth o (odims t) 0%Z) r -> weight_of w i c o e = nth e r 0) /\
      (~ In (nth o (odims t) 0%Z) (map fst m) -> weight_of w i c o e = nth e dflt 0).
Proof.
  intros W Hn Hd Hm.
  set (rows := map (fun o => match dict_get m o with Some r => r | None => dflt end) (odims t)).
  assert (E : coerce_weights t dflt (WMap m) = rows_arr rows).
  { cbn [coerce_weights]. assert (F : forallb (fun p => existsb (Z.eqb (fst p)) (odims t)) m = true).
    { apply forallb_forall. intros [o r] I. apply existsb_exists. exists o. split; [apply (Hm o r I)|apply Z.eqb_refl]. }
    rewrite F. reflexivity. }
  assert (L : List.length rows = List.length (odims t)) by (unfold rows; apply map_length).
  assert (R : forall r, In r rows -> List.length r = n).
  { intros r I. unfold rows in I. apply in_map_iff in I. destruct I as (o & <- & Io). destruct (mapped_or m o) as [(r & M)|N].
    - rewrite (dict_mapped _ _ _ M). destruct M as (m1 & m2 & -> & _). apply (Hm o r). apply in_app_iff. right. left. auto.
    - rewrite (dict_missing _ _ N). auto. }
  rewrite (fit_rows t n (Some dflt) rows (WMap m) W Hn Hd E L R).
  eexists. split; [reflexivity|]. split; [split; auto|]. intros i c o e Ho. cbn [weight_of].
  assert (X : nth o rows [] = match dict_get m (nth o (odims t) 0%Z) with Some r => r | None => dflt end).
  { unfold rows. rewrite (nth_indep _ [] (match dict_get m 0%Z with Some r => r | None => dflt end)) by (rewrite map_length, <- (wf_o _ W); auto).
    rewrite (map_nth (fun o => match dict_get m o with Some r => r | None => dflt end)). reflexivity. }
  rewrite X. split.
  - intros r M. rewrite (dict_mapped _ _ _ M). reflexivity.
  - intros N. rewrite (dict_missing _ _ N). reflexivity.
Qed.
Lemma fit_mapping_unknown t n dflt m o r : (1 <= n)%nat -> In (o, r) m -> ~ In o (odims t) -> fit_weights t n dflt (WMap m) = Err IndexError.
Proof.
  intros Hn I N. unfold fit_weights. destruct (Nat.eqb_spec n 0); [lia|]. cbn [coerce_weights].
  assert (F : forallb (fun p => existsb (Z.eqb (fst p)) (odims t)) m = false).
  { destruct (forallb _ m) eqn:E; auto. rewrite forallb_forall in E. specialize (E _ I). apply existsb_exists in E. destruct E as (x & Ix & Ex).
    apply Z.eqb_eq in Ex. cbn in Ex. subst. contradiction. }
  rewrite F. reflexivity.
Qed.
Lemma fit_function t n dflt f : wf t -> (1 <= n)%nat -> (forall o, In o (odims t) -> List.length (f o) = n) ->
  (match dflt with Some d => List.length d = n | None => True end) ->
  exists w, fit_weights t n dflt (WFun f) = Ok w /\ weights_cover t w n /\
    forall i c o e, (o < ax2 (values t))%nat -> weight_of w i c o e = nth e (f (nth o (odims t) 0%Z)) 0.
Proof.
  intros W Hn Hf Hd.
  rewrite (fit_rows t n dflt (map f (odims t)) (WFun f) W Hn Hd eq_refl (map_length _ _)).
  2:{ intros r I. apply in_map_iff in I. destruct I as (o & <- & Io). auto. }
  eexists. split; [reflexivity|]. split; [split; auto|]. intros i c o e Ho. cbn [weight_of].
  rewrite (nth_indep _ [] (f 0%Z)) by (rewrite map_length, <- (wf_o _ W); auto). rewrite map_nth. reflexivity.
Qed.
Lemma nth_repeat_lt (x : Qc) n e : (e < n)%nat -> nth e (repeat x n) 0 = x.
Proof. revert e; induction n as [|n IH]; intros [|e] H; cbn; auto; try lia. apply IH. lia. Qed.
Lemma fit_none t n dflt : (1 <= n)%nat -> (match dflt with Some d => List.length d = n | None => True end) ->
  (ax2 (values t) = ax3 (values t) -> exists w, fit_weights t n dflt WNone = Ok w /\ weights_cover t w n /\
     forall i c o e, weight_of w i c o e = match dflt with Some d => nth e d 0 | None => if (e <? n)%nat then 1 else 0 end) /\
  (ax2 (values t) <> ax3 (values t) -> fit_weights t n dflt WNone = Err ValueError).
Proof.
  intros Hn Hd. unfold fit_weights. destruct (Nat.eqb_spec n 0); [lia|]. cbn [coerce_weights rbind w_origins w_estimators].
  assert (L : List.length (match dflt with Some d => d | None => repeat 1 n end) = n) by (destruct dflt; auto; apply repeat_length).
  split; intros H.
  - rewrite H, L, !Nat.eqb_refl. cbn [negb]. eexists. split; [reflexivity|]. split; [split; auto|]. intros i c o e. cbn [weight_of].
    destruct dflt; auto. destruct (Nat.ltb_spec e n); [apply nth_repeat_lt; auto|apply nth_overflow; rewrite repeat_length; auto].
  - destruct (Nat.eqb_spec (ax3 (values t)) (ax2 (values t))); [congruence|reflexivity].
Qed.
