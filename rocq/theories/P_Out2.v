(** Outstanding amounts of the known cells, their ratios and the weights of the ratios. *)
From Coq Require Import Lia.
From Verif Require Export P_Out1.
Local Open Scope nat_scope.

Section Out.
Variables (t : tri) (n h : nat) (o0 a0 : Z).
Hypotheses (W : wf t) (B : blank_future t) (Q : square t n o0 a0 h) (Hn : 3 <= n) (H0 : 1 <= ax0 (values t)).
Local Notation hyp L := (L t n h o0 a0 W B Q Hn H0).

(** The amounts of two columns. *)
Variables (p q : nat).
Definition kcase (i o d : nat) : cell := if o + d <? n then n2n (Some (amount t i q o d - amount t i p o d)%Qc) else None.
Definition kpaid (i o d : nat) : cell :=
  match d with O => cel t i p o 0 | S e => if o + d <? n then n2n (Some (amount t i p o d - amount t i p o e)%Qc) else None end.

Lemma nz_sub_amount x y : n2n (nz_sub x y) = n2n (Some (nz x - nz y)%Qc).
Proof. reflexivity. Qed.
Lemma vd_le : (vdate t <= ULT_VAL)%Z.
Proof using All. apply W. Qed.

Lemma case_ok paid inc : part t n true true (vdate t) paid (fun i o d => cel t i p o d) -> part t n true true (vdate t) inc (fun i o d => cel t i q o d) ->
  exists c, tri_op OSub inc paid = Ok c /\ part t n true true (vdate t) c kcase /\ vdims c = vdims inc.
Proof using All.
  intros P I. pose proof vd_le as V. assert (Z.max (vdate t) (vdate t) = vdate t) as M by apply Z.max_id.
  destruct (part_op t n h o0 a0 W Q ltac:(lia) H0 OSub true true _ _ _ _ _ _ I P ltac:(lia)) as (r & E & R & Vr). exists r. split; auto. split; auto. rewrite M in R.
  destruct R as [P1 Pa Pb P4 P5 P6 P7 P8 P9 P10 P11 P12 P13]. constructor; auto. intros i o d Hi Ho Hd. rewrite P13 by auto. rewrite (seen_now t n h o0 a0 Q ltac:(lia) H0) by auto.
  unfold kcase, joined. destruct (o + d <? n); reflexivity.
Qed.
Lemma incr_ok paid : part t n true true (vdate t) paid (fun i o d => cel t i p o d) -> is_pattern paid = false -> is_cumulative paid = Some true ->
  exists c, cum_to_incr paid = Ok c /\ part t n true true (vdate t) c kpaid /\ vdims c = vdims paid /\ is_pattern c = false /\ is_cumulative c = Some false.
Proof using All.
  intros P Fp Fc. pose proof vd_le as V. pose proof (part_wf t n h o0 a0 W Q ltac:(lia) H0 _ _ _ P ltac:(lia)) as Wp.
  pose proof (pt_2 _ _ _ _ _ _ _ P) as P2. pose proof (pt_3 _ _ _ _ _ _ _ P) as P3. cbn in P2, P3.
  destruct (cum_to_incr_cell paid Wp Fp ltac:(rewrite Fc; discriminate) ltac:(lia)) as (c & E & S & Cc & Cp & Cell). exists c. split; auto. split; [|split; [apply S|auto]].
  destruct P as [R1 Ra Rb R4 R5 R6 R7 R8 R9 R10 R11 R12 R13]. destruct S. specialize (R7 eq_refl). constructor; try (cbn in *; congruence).
  cbn beta iota in *. intros i o d Hi Ho Hd. rewrite Cell by (unfold in_range; lia). unfold kpaid. destruct d as [|e]; [apply R13; auto; lia|].
  unfold amount. rewrite !R13 by (auto; lia).
  unfold diff_kept. rewrite P2, P3. replace (Nat.min n (n - 1) =? 1) with false by (symmetry; apply Nat.eqb_neq; lia). cbn [orb].
  pose proof (seen_now t n h o0 a0 Q ltac:(lia) H0 o (S e) Ho Hd) as S. unfold seen in S. rewrite R8. unfold month_of at 1. rewrite R4, R5. unfold month_of in S. rewrite S. reflexivity.
Qed.

(** Ratios: the cells after the first age over the ones before the last age. *)
Lemma split_ages x v f : part t n true true v x f -> (vdate t <= v <= ULT_VAL)%Z ->
  (exists hi v', iloc_dev x (Some 1%Z) None = Ok hi /\ blk t (odims t) (Ages (agl h a0 1 (n - 1))) v' hi (fun i o d => f i o (S d))) /\
  (exists lo v', iloc_dev x None (Some (-1)%Z) = Ok lo /\ blk t (odims t) (Ages (agl h a0 0 (n - 1))) v' lo f).
Proof using All.
  intros P V. pose proof (part_wf t n h o0 a0 W Q ltac:(lia) H0 _ _ _ P V) as Wp. pose proof (pt_3 _ _ _ _ _ _ _ P) as P3. cbn in P3.
  pose proof (hyp part_blk _ _ _ P) as Pb. rewrite (hyp t_ages) in Pb. split.
  - destruct (iloc_dev_tail x Wp ltac:(lia)) as (u & E & C). rewrite P3 in C. exists u, (vdate u). split; auto.
    pose proof (hyp blk_slice x (odims t) (Ages (agl h a0 1 (n - 1))) v f (agl h a0 0 n) (seq 1 (n - 1)) u Pb) as K.
    eapply blk_ext; [apply K; auto|].
    + f_equal. unfold agl. rewrite sel_seq_map by lia. reflexivity.
    + apply incr_pos_seq. rewrite agl_len. lia.
    + intros i o d Hi Ho Hd. cbn [dlist] in Hd. rewrite agl_len in Hd. cbn beta. rewrite seq_nth by lia. reflexivity.
  - destruct (iloc_dev_init x Wp ltac:(lia)) as (u & E & C). rewrite P3 in C. exists u, (vdate u). split; auto.
    pose proof (hyp blk_slice x (odims t) (Ages (agl h a0 0 (n - 1))) v f (agl h a0 0 n) (seq 0 (n - 1)) u Pb) as K.
    eapply blk_ext; [apply K; auto|].
    + f_equal. unfold agl. rewrite sel_seq_map by lia. reflexivity.
    + apply incr_pos_seq. rewrite agl_len. lia.
    + intros i o d Hi Ho Hd. cbn [dlist] in Hd. rewrite agl_len in Hd. cbn beta. rewrite seq_nth by lia. reflexivity.
Qed.
Lemma ratio_ok x y v v' f g w : part t n true true v x f -> part t n true true v' y g -> (vdate t <= v <= ULT_VAL)%Z -> (vdate t <= v' <= ULT_VAL)%Z ->
  dims w 1 1 n (n - 1) ->
  exists hi lo m r u, iloc_dev x (Some 1%Z) None = Ok hi /\ iloc_dev y None (Some (-1)%Z) = Ok lo /\ mul_arr hi w = Ok m /\ div_arr m (values lo) = Ok r /\
    blk t (odims t) (Ages (agl h a0 1 (n - 1))) u r (fun i o d => cdiv (cmul (f i o (S d)) (av w 0 0 o d)) (g i o d)).
Proof using All.
  intros P P' V V' (D0 & D1 & D2 & D3). destruct (split_ages x v f P V) as ((hi & u & Eh & Bh) & _). destruct (split_ages y v' g P' V') as (_ & (lo & u' & El & Bl)).
  pose proof (wf_o _ W) as Wo. pose proof Q as (_ & E2 & _). assert (Lo : List.length (odims t) = n) by congruence.
  destruct (hyp blk_arr OMul w hi _ _ _ _ ltac:(auto) Bh) as (m & Em & Bm & _); cbn [dlist]; rewrite ?Lo, ?agl_len; try lia.
  destruct (hyp blk_arr ODiv (values lo) m _ _ _ _ ltac:(auto) Bm) as (r & Er & Br & _); cbn [dlist]; rewrite ?Lo, ?agl_len, ?(b_0 _ _ _ _ _ _ Bl), ?(b_1 _ _ _ _ _ _ Bl), ?(b_2 _ _ _ _ _ _ Bl), ?(b_3 _ _ _ _ _ _ Bl); cbn [dlist]; rewrite ?Lo, ?agl_len; try lia.
  exists hi, lo, m, r, u. split; [auto|]. split; [auto|]. split; [exact Em|]. split; [exact Er|].
  eapply blk_ext; [exact Br|]. intros i o d Hi Ho Hd. cbn [dlist] in Hd. rewrite agl_len in Hd. rewrite Lo in Ho. cbn [cop].
  rewrite (bav_in (values lo)) by (rewrite ?(b_0 _ _ _ _ _ _ Bl), ?(b_1 _ _ _ _ _ _ Bl), ?(b_2 _ _ _ _ _ _ Bl), ?(b_3 _ _ _ _ _ _ Bl); cbn [dlist]; rewrite ?Lo, ?agl_len; lia).
  change (av (values lo) i 0 o d) with (cel lo i 0 o d). rewrite (b_cell _ _ _ _ _ _ Bl) by (cbn [dlist]; rewrite ?Lo, ?agl_len; lia).
  unfold bav. rewrite D0, D1, D2, D3. rewrite !bidx_1. rewrite (bidx_lt n o) by auto. rewrite (bidx_lt (n - 1) d) by lia. reflexivity.
Qed.

Definition rcase (w : arr) (i o d : nat) : cell := cdiv (cmul (kcase i o (S d)) (av w 0 0 o d)) (kcase i o d).
Definition rpaid (w : arr) (i o d : nat) : cell := cdiv (cmul (kpaid i o (S d)) (av w 0 0 o d)) (kcase i o d).
Lemma case_ratio_ok w paid inc : part t n true true (vdate t) paid (fun i o d => cel t i p o d) -> part t n true true (vdate t) inc (fun i o d => cel t i q o d) -> dims w 1 1 n (n - 1) ->
  exists r u, os_case_ratio w paid inc = Ok r /\ blk t (odims t) (Ages (agl h a0 1 (n - 1))) u r (rcase w) /\ is_cumulative r = Some false /\ is_pattern r = true.
Proof using All.
  intros P I D. pose proof vd_le as V. destruct (case_ok _ _ P I) as (c & Ec & Pc & _).
  destruct (ratio_ok c c _ _ _ _ w Pc Pc ltac:(lia) ltac:(lia) D) as (hi & lo & m & r & u & E1 & E2 & E3 & E4 & Br).
  unfold os_case_ratio. rewrite Ec. cbn [rbind]. rewrite E1. cbn [rbind]. rewrite E2. cbn [rbind]. rewrite E3. cbn [rbind]. rewrite E4. cbn [rbind].
  eexists _, u. split; [reflexivity|]. split; [|split; reflexivity]. destruct Br. constructor; auto.
Qed.
Lemma paid_ratio_ok w paid inc : part t n true true (vdate t) paid (fun i o d => cel t i p o d) -> part t n true true (vdate t) inc (fun i o d => cel t i q o d) -> dims w 1 1 n (n - 1) ->
  is_pattern paid = false -> is_cumulative paid = Some true ->
  exists r u, os_paid_ratio w paid inc = Ok r /\ blk t (odims t) (Ages (agl h a0 1 (n - 1))) u r (rpaid w) /\ is_pattern r = true.
Proof using All.
  intros P I D Fp Fc. pose proof vd_le as V. destruct (case_ok _ _ P I) as (c & Ec & Pc & _). destruct (incr_ok _ P Fp Fc) as (k & Ek & Pk & _).
  destruct (ratio_ok k c _ _ _ _ w Pk Pc ltac:(lia) ltac:(lia) D) as (hi & lo & m & r & u & E1 & E2 & E3 & E4 & Br).
  unfold os_paid_ratio. rewrite Ec. cbn [rbind]. rewrite Ek. cbn [rbind]. rewrite E1. cbn [rbind]. rewrite E2. cbn [rbind]. rewrite E3. cbn [rbind]. rewrite E4. cbn [rbind].
  eexists _, u. split; [reflexivity|]. split; [|reflexivity]. destruct Br. constructor; auto.
Qed.
End Out.
