(** Outstanding amounts of all origins at all ages. *)
From Coq Require Import Lia.
From Verif Require Import P_Corr5.
From Verif Require Export P_Out1 P_View.
Local Open Scope nat_scope.

Section Out.
Variables (t : tri) (n h : nat) (o0 a0 : Z).
Hypotheses (W : wf t) (B : blank_future t) (Q : square t n o0 a0 h) (Hn : 3 <= n) (H0 : 1 <= ax0 (values t)).
Local Notation hyp L := (L t n h o0 a0 W B Q Hn H0).

Definition fits {A} (len : A -> nat) (a b : A) : Prop := b = a \/ len b = 1 \/ len a = 1.
Lemma blk_op op u w od dd od' dd' v v' f g : op = OMul \/ op = ODiv -> blk t od dd v u f -> blk t od' dd' v' w g ->
  1 <= List.length od -> 1 <= List.length od' -> 1 <= List.length (dlist dd) -> 1 <= List.length (dlist dd') ->
  fits (@List.length Z) od od' -> fits (fun d => List.length (dlist d)) dd dd' ->
  exists r, tri_op op u w = Ok r /\ is_cumulative r = is_cumulative u /\ is_pattern r = (is_pattern u && is_pattern w)%bool /\ vdims r = vdims u /\
    blk t (pk (List.length od) (List.length od') od od') (pk (List.length (dlist dd)) (List.length (dlist dd')) dd dd') (Z.max v v') r
      (fun i o d => cop op (f i (bidx (List.length od) o) (bidx (List.length (dlist dd)) d)) (g i (bidx (List.length od') o) (bidx (List.length (dlist dd')) d))).
Proof using All.
  intros Hop P P' Lo Lo' Ld Ld' Fo Fd. pose proof (wf_k _ W) as Wk.
  assert (S : shape_ok u). { unfold shape_ok. rewrite (b_0 _ _ _ _ _ _ P), (b_1 _ _ _ _ _ _ P), (b_2 _ _ _ _ _ _ P), (b_3 _ _ _ _ _ _ P), (b_k _ _ _ _ _ _ P), (b_v _ _ _ _ _ _ P), (b_o _ _ _ _ _ _ P), (b_d _ _ _ _ _ _ P). repeat split; auto. }
  assert (S' : shape_ok w). { unfold shape_ok. rewrite (b_0 _ _ _ _ _ _ P'), (b_1 _ _ _ _ _ _ P'), (b_2 _ _ _ _ _ _ P'), (b_3 _ _ _ _ _ _ P'), (b_k _ _ _ _ _ _ P'), (b_v _ _ _ _ _ _ P'), (b_o _ _ _ _ _ _ P'), (b_d _ _ _ _ _ _ P'). repeat split; auto. }
  assert (C : bcast u w).
  { constructor; auto.
    - rewrite (b_og _ _ _ _ _ _ P), (b_og _ _ _ _ _ _ P'). auto.
    - left. rewrite (b_dg _ _ _ _ _ _ P), (b_dg _ _ _ _ _ _ P'). auto.
    - rewrite (b_kl _ _ _ _ _ _ P), (b_kl _ _ _ _ _ _ P'). auto.
    - left. rewrite (b_k _ _ _ _ _ _ P), (b_k _ _ _ _ _ _ P'). auto.
    - right. left. apply P'.
    - unfold bc. rewrite (b_o _ _ _ _ _ _ P), (b_o _ _ _ _ _ _ P'). exact Fo.
    - unfold bc. rewrite (b_d _ _ _ _ _ _ P), (b_d _ _ _ _ _ _ P'). exact Fd. }
  destruct (tri_op_bcast op u w C) as (r & E & R). exists r. split; auto. split; [apply R|]. split; [apply R|].
  assert (Vr : vdims r = vdims u). { rewrite (br_v _ _ _ _ R). cbn. unfold pk. rewrite (b_v _ _ _ _ _ _ P), (b_v _ _ _ _ _ _ P'). reflexivity. }
  split; auto. constructor.
  - rewrite (br_k _ _ _ _ R). cbn. unfold pk. rewrite (b_k _ _ _ _ _ _ P), (b_k _ _ _ _ _ _ P'). try reflexivity; destruct (_ && _)%bool; reflexivity.
  - rewrite (br_kl _ _ _ _ R). apply P.
  - rewrite Vr. apply P.
  - rewrite (br_o _ _ _ _ R). cbn. rewrite (b_o _ _ _ _ _ _ P), (b_o _ _ _ _ _ _ P'). reflexivity.
  - rewrite (br_d _ _ _ _ R). cbn. rewrite (b_d _ _ _ _ _ _ P), (b_d _ _ _ _ _ _ P'). reflexivity.
  - rewrite (br_og _ _ _ _ R). apply P.
  - rewrite (br_dg _ _ _ _ R). cbn. unfold pk. rewrite (b_dg _ _ _ _ _ _ P), (b_dg _ _ _ _ _ _ P'). try reflexivity; destruct (_ && _)%bool; reflexivity.
  - rewrite (br_vd _ _ _ _ R), (b_vd _ _ _ _ _ _ P), (b_vd _ _ _ _ _ _ P'). reflexivity.
  - rewrite (br_0 _ _ _ _ R), (b_0 _ _ _ _ _ _ P), (b_0 _ _ _ _ _ _ P'). lia.
  - rewrite (br_1 _ _ _ _ R), (b_1 _ _ _ _ _ _ P), (b_1 _ _ _ _ _ _ P'). reflexivity.
  - rewrite (br_2 _ _ _ _ R), (b_2 _ _ _ _ _ _ P), (b_2 _ _ _ _ _ _ P'). symmetry. apply (pk_len (@List.length Z)); auto.
  - rewrite (br_3 _ _ _ _ R), (b_3 _ _ _ _ _ _ P), (b_3 _ _ _ _ _ _ P'). symmetry. apply (pk_len (fun d => List.length (dlist d))); auto.
  - intros i o d Hi Ho Hd. rewrite (br_cell _ _ _ _ R).
    rewrite (pk_len (@List.length Z)) in Ho by (auto; destruct Fo as [-> | [? | ?]]; auto).
    rewrite (pk_len (fun d => List.length (dlist d))) in Hd by (auto; destruct Fd as [-> | [? | ?]]; auto).
    assert (X : bav (values u) i 0 o d = f i (bidx (List.length od) o) (bidx (List.length (dlist dd)) d)).
    { unfold bav. rewrite (b_0 _ _ _ _ _ _ P), (b_1 _ _ _ _ _ _ P), (b_2 _ _ _ _ _ _ P), (b_3 _ _ _ _ _ _ P), bidx_1, (bidx_lt (ax0 (values t)) i) by auto.
      apply (b_cell _ _ _ _ _ _ P); auto; unfold bidx; [destruct (Nat.eqb_spec (List.length od) 1)|destruct (Nat.eqb_spec (List.length (dlist dd)) 1)]; try lia;
       [destruct Fo as [G|[?|?]]; [rewrite G in *|..]|destruct Fd as [G|[?|?]]; [rewrite G in *|..]]; lia. }
    assert (X' : bav (values w) i 0 o d = g i (bidx (List.length od') o) (bidx (List.length (dlist dd')) d)).
    { unfold bav. rewrite (b_0 _ _ _ _ _ _ P'), (b_1 _ _ _ _ _ _ P'), (b_2 _ _ _ _ _ _ P'), (b_3 _ _ _ _ _ _ P'), bidx_1, (bidx_lt (ax0 (values t)) i) by auto.
      apply (b_cell _ _ _ _ _ _ P'); auto; unfold bidx; [destruct (Nat.eqb_spec (List.length od') 1)|destruct (Nat.eqb_spec (List.length (dlist dd')) 1)]; try lia;
       [destruct Fo as [G|[?|?]]; [rewrite G in *|..]|destruct Fd as [G|[?|?]]; [rewrite G in *|..]]; lia. }
    rewrite X, X'. destruct Hop as [-> | ->]; reflexivity.
Qed.

Hypotheses (Gd : grain_months (dgrain t) = Z.of_nat h) (Go : grain_months (ograin t) = Z.of_nat h).
(** The month at which the newest origin reaches the last age. *)
Definition last_month : Z := (o0 + a0 - 1 + Z.of_nat h * Z.of_nat (2 * n - 2))%Z.
Hypotheses (Hu : (last_month < 12 * 2261)%Z) (Hs : (last_month < o0 + 9998)%Z).
Variables (cl0 c : tri) (v0 : Z) (F : nat -> nat -> cell) (K : nat -> nat -> nat -> cell).
Hypotheses (Pcl : blk t (orgs h o0 0 1) (Ages (agl h a0 1 (n - 1))) v0 cl0 (fun i _ d => F i d)) (Fcum : is_cumulative cl0 = Some false)
  (HF : forall i d, F i d <> Some 0%Qc) (Pc : part t n true true (vdate t) c K).
Definition Lt (i o : nat) : cell := n2n (K i o (n - 1 - o)).

Lemma n_odims : List.length (odims t) = n.
Proof using All. pose proof (wf_o _ W). pose proof Q as (_ & E2 & _). congruence. Qed.
Lemma n_ddims : List.length (dlist (ddims t)) = n.
Proof using All. pose proof (wf_d _ W). pose proof Q as (_ & _ & E3). congruence. Qed.

Lemma lat_ok : exists lat dl, latest_diagonal c = Ok lat /\ List.length (dlist dl) = 1 /\ blk t (odims t) dl (vdate t) lat (fun i o _ => Lt i o).
Proof using All.
  pose proof (wf_vd _ W) as V. pose proof (part_wf t n h o0 a0 W Q ltac:(lia) H0 _ _ _ Pc ltac:(lia)) as Wc.
  pose proof (part_square t n h o0 a0 Q _ _ Pc) as Qc.
  destruct (latest_diagonal_ok2 c Wc (regular_even_diag _ _ _ _ _ _ Wc (proj1 Qc))) as (l & El & K1 & K2 & K3 & K4 & K5 & A0 & A1 & A2 & A3 & Ce & Fl & L1).
  destruct Fl as (F1 & F2 & F3 & F4). pose proof n_odims as No.
  destruct Pc as [P1 Pa Pb P4 P5 P6 P7 P8 P9 P10 P11 P12 P13]. specialize (P7 eq_refl).
  exists l, (ddims l). split; auto. split; auto. constructor; auto; try congruence.
  intros i o d Hi Ho Hd. rewrite L1 in Hd. replace d with 0 by lia. rewrite No in Ho.
  assert (St : stores (cel l i 0 o 0) (amount c i 0 o (n - 1 - o))).
  { apply Ce; [unfold in_range; rewrite P9, P10, P11, P12; lia|]. rewrite (square_month _ _ _ _ _ _ _ Qc) by lia. rewrite P8, (square_vdate _ _ _ _ _ Q). do 3 f_equal. lia. }
  unfold Lt. rewrite <- (P13 i o (n - 1 - o)) by (auto; lia). unfold amount in St. destruct St as [S1 S2].
  destruct (cel c i 0 o (n - 1 - o)) as [q|] eqn:Eq; cbn [nz n2n] in *.
  - destruct (Qc_eqb_spec q 0%Qc) as [Z|Z]; [apply S1; auto|apply S2; auto].
  - apply S1. reflexivity.
Qed.

Definition Fg (i d : nat) : cell := match d with O => Some 1%Qc | S e => F i e end.
Definition Gr (i o d : nat) : cell := match d with O => Some 1%Qc | S e => match Lt i o with Some _ => F i e | None => None end end.
(** The factors of all origins at all ages. *)
Lemma cl_ages : exists lat dl m q v cl, latest_diagonal c = Ok lat /\ List.length (dlist dl) = 1 /\ blk t (odims t) dl (vdate t) lat (fun i o _ => Lt i o) /\
  tri_op OMul (set_vdate cl0 ULT_VAL) lat = Ok m /\ tri_op ODiv m lat = Ok q /\
  (let cl1 := set_pattern (set_odims q (odims c)) false in let a := values cl1 in
   cat_all 3 (Arr (ax0 a) (ax1 a) (ax2 a) 1 (fun _ _ _ _ => Some 1%Qc)) [a] = Ok v /\
   let cl2 := set_ddims (set_values cl1 v) (ddims c) in cl = set_vdate cl2 (zmaxl (valuations cl2) (valuation cl2 0 0))) /\
  blk t (odims t) (ddims t) last_month cl Gr /\ is_cumulative cl = Some false /\ is_pattern cl = false.
Proof using All.
  destruct lat_ok as (lat & dl & El & Ll & Pl). exists lat, dl.
  pose proof (wf_vd _ W) as V. pose proof n_odims as No. pose proof n_ddims as Nd.
  assert (Pcl' : blk t (orgs h o0 0 1) (Ages (agl h a0 1 (n - 1))) ULT_VAL (set_vdate cl0 ULT_VAL) (fun i _ d => F i d)) by (destruct Pcl; constructor; auto).
  destruct (blk_op OMul _ _ _ _ _ _ _ _ _ _ ltac:(auto) Pcl' Pl) as (m & Em & Cm & Pm & Vm & Bm); rewrite ?No, ?Ll; cbn [dlist]; rewrite ?orgs_len, ?agl_len; try lia.
  { right. right. apply orgs_len. } { right. left. auto. }
  rewrite No, Ll in Bm. cbn [dlist] in Bm. rewrite orgs_len, agl_len in Bm.
  assert (X1 : pk 1 n (orgs h o0 0 1) (odims t) = odims t). { unfold pk. destruct (Nat.ltb_spec 1 n); [reflexivity|lia]. }
  assert (X2 : pk (n - 1) 1 (Ages (agl h a0 1 (n - 1))) dl = Ages (agl h a0 1 (n - 1))). { unfold pk. change (1 <? 1) with false. rewrite andb_false_r. reflexivity. }
  rewrite X1, X2 in Bm. rewrite Z.max_l in Bm by lia.
  destruct (blk_op ODiv _ _ _ _ _ _ _ _ _ _ ltac:(auto) Bm Pl) as (q & Eq & Cq & Pq & Vq & Bq); rewrite ?No, ?Ll; cbn [dlist]; rewrite ?orgs_len, ?agl_len; try lia.
  { left. reflexivity. } { right. left. auto. }
  rewrite No, Ll in Bq. cbn [dlist] in Bq. rewrite agl_len in Bq. rewrite X2, Z.max_l in Bq by lia.
  assert (X3 : pk n n (odims t) (odims t) = odims t) by (unfold pk; destruct ((n =? 1) && (1 <? n)); reflexivity). rewrite X3 in Bq.
  exists m, q. cbv zeta.
  assert (A0 : ax0 (values q) = ax0 (values t)) by apply Bq. assert (A1 : ax1 (values q) = 1) by apply Bq.
  assert (A2 : ax2 (values q) = n) by (rewrite (b_2 _ _ _ _ _ _ Bq); auto). assert (A3 : ax3 (values q) = n - 1) by (rewrite (b_3 _ _ _ _ _ _ Bq); cbn; apply agl_len).
  eexists _, _. split; [exact El|]. split; [auto|]. split; [exact Pl|]. split; [exact Em|]. split; [exact Eq|].
  split. { split; [|reflexivity]. cbn [cat_all rbind]. change (values (set_pattern (set_odims q (odims c)) false)) with (values q). unfold cat_ok. cbn [ax0 ax1 ax2 ax3]. rewrite !Nat.eqb_refl, !orb_true_r. reflexivity. }
  set (cl2 := set_ddims _ _).
  assert (B2 : blk t (odims t) (ddims t) ULT_VAL cl2 Gr).
  { pose proof (pt_o _ _ _ _ _ _ _ Pc) as Po. pose proof (pt_d _ _ _ _ _ _ _ Pc) as Pd. cbn in Po, Pd. destruct Bq as [P1 Pa Pb P4 P5 P6 P7 P8 P9 P10 P11 P12 P13]. unfold cl2. constructor; auto.
    - change (1 + ax3 (values q) = List.length (dlist (ddims t))). rewrite A3, Nd. lia.
    - intros i o d Hi Ho Hd. rewrite No in Ho. rewrite Nd in Hd. change (cel (set_ddims _ _) i 0 o d) with (if d <? 1 then Some 1%Qc else av (values q) i 0 o (d - 1)).
      destruct d as [|e]; [reflexivity|]. cbn [Nat.ltb Nat.leb Nat.sub]. rewrite Nat.sub_0_r. change (av (values q) i 0 o e) with (cel q i 0 o e). rewrite P13; [|auto|rewrite No; auto|cbn; rewrite agl_len; lia].
      cbn [cop Gr]. rewrite !(bidx_lt n o) by auto. rewrite !(bidx_lt (n - 1) e) by lia. destruct (Lt i o) as [x|] eqn:Ex; [|destruct (F i e); reflexivity].
      assert (x <> 0%Qc). { intros ->. unfold Lt, n2n in Ex. destruct (K i o (n - 1 - o)) as [y|]; [|discriminate]. destruct (Qc_eqb_spec y 0%Qc); [discriminate|congruence]. }
      destruct (F i e); cbn [cmul]; [|reflexivity]. rewrite cdiv_Some by auto. f_equal. field. auto. }
  assert (Cl2 : is_cumulative cl2 = Some false). { change (is_cumulative q = Some false). rewrite Cq, Cm. exact Fcum. }
  assert (Pl2 : is_pattern cl2 = false) by reflexivity.
  clearbody cl2. assert (W2 : wf cl2). { pose proof B2 as B2'. rewrite (hyp t_orgs), (hyp t_ages) in B2'. eapply (hyp grid_wf); eauto; lia. }
  assert (M : zmaxl (valuations cl2) (valuation cl2 0 0) = last_month).
  { assert (G : forall o d, o < n -> d < n -> valuation cl2 o d = (o0 + a0 - 1 + Z.of_nat h * Z.of_nat (o + d))%Z).
    { intros o d Ho Hd. rewrite valuation_month; [|auto|rewrite (b_2 _ _ _ _ _ _ B2), No; auto|rewrite (b_3 _ _ _ _ _ _ B2), Nd; auto].
      pose proof B2 as B2'. rewrite (hyp t_orgs), (hyp t_ages) in B2'. rewrite (hyp P_Out1.grid_month _ _ _ _ _ _ _ _ _ B2') by lia. reflexivity. }
    assert (1 <= h) by apply Q. apply Z.le_antisymm.
    - destruct (zmaxl_in (valuations cl2) (valuation cl2 0 0)) as [E|E].
      + rewrite <- E, G by lia. unfold last_month. nia.
      + apply in_valuations in E. destruct E as (o & d & Ho & Hd & E). rewrite (b_o _ _ _ _ _ _ B2), No in Ho. rewrite (b_d _ _ _ _ _ _ B2), Nd in Hd. rewrite <- E, G by auto. unfold last_month. nia.
    - apply zmaxl_ge. right. apply in_valuations. exists (n - 1), (n - 1). rewrite (b_o _ _ _ _ _ _ B2), No, (b_d _ _ _ _ _ _ B2), Nd. split; [lia|]. split; [lia|]. rewrite G by lia. unfold last_month. do 3 f_equal. lia. }
  rewrite M. split; [|auto]. destruct B2. constructor; auto.
Qed.
End Out.
