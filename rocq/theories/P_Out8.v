(** Incurred amounts of all origins at all ages. *)
From Coq Require Import Lia.
From Verif Require Import P_Corr5.
From Verif Require Export P_Out7.
Local Open Scope nat_scope.

Section Out.
Variables (t : tri) (n h : nat) (o0 a0 : Z).
Hypotheses (W : wf t) (B : blank_future t) (Q : square t n o0 a0 h) (Hn : 3 <= n) (H0 : 1 <= ax0 (values t)).
Local Notation hyp L := (L t n h o0 a0 W B Q Hn H0).
Hypotheses (Uk : NoDup (kdims t)).
Local Notation M := (last_month n h o0 a0).
Hypotheses (Hu : (M < 12 * 2261)%Z).

Lemma future_slice u v f : part t n true true v u f -> (M <= v <= ULT_VAL)%Z ->
  exists s, getitem_valuation u (fun o d => vdate t <? valuation u o d)%Z = Ok s /\ wf s /\ is_pattern s = is_pattern u /\ is_cumulative s = is_cumulative u /\ vdims s = vdims u /\
    blk t (orgs h o0 1 (n - 1)) (Ages (agl h a0 1 (n - 1))) M s (fun i o d => if S o + S d <? n then None else n2n (f i (S o) (S d))).
Proof using All.
  intros P V. assert (h1 : 1 <= h) by apply Q. assert (MV : (vdate t <= M)%Z) by (rewrite (square_vdate _ _ _ _ _ Q); unfold last_month; nia).
  assert (VB : (vdate t <= v <= ULT_VAL)%Z) by lia. pose proof (part_wf t n h o0 a0 W Q ltac:(lia) H0 _ _ _ P VB) as Wu.
  pose proof (pt_2 _ _ _ _ _ _ _ P) as P2. pose proof (pt_3 _ _ _ _ _ _ _ P) as P3. cbn in P2, P3.
  pose proof (pt_o _ _ _ _ _ _ _ P) as Po. pose proof (pt_d _ _ _ _ _ _ _ P) as Pd. cbn in Po, Pd.
  assert (HK : forall o d, o < n -> d < n -> ((vdate t <? valuation u o d)%Z = true <-> n <= o + d)).
  { intros o d Ho Hd. rewrite (part_valuation t n h o0 a0 W Q ltac:(lia) H0 _ _ _ o d P VB Ho Hd), (square_month _ _ _ _ _ _ _ Q Ho Hd), (square_vdate _ _ _ _ _ Q), Z.ltb_lt. split; intros; nia. }
  set (key := fun o d => (vdate t <? valuation u o d)%Z).
  destruct (getitem_valuation_ok u key Wu ltac:(lia)) as (s & E & SS).
  - exists (n - 1), (n - 1). split; [lia|]. split; [lia|]. apply HK; lia.
  - rewrite P2. apply (evenly_interval _ _ 1 n). intros x Hx. split; [intros (d & Hd & Hk); apply HK in Hk; lia|]. intros Hl. exists (n - 1). split; [lia|]. apply HK; lia.
  - rewrite P3. apply (evenly_interval _ _ 1 n). intros x Hx. split; [intros (d & Hd & Hk); apply HK in Hk; lia|]. intros Hl. exists (n - 1). split; [lia|]. apply HK; lia.
  - assert (Er : kept_rows u key = seq 1 (n - 1)).
    { apply sorted_lt_ext; [apply incr_pos_filter|apply (incr_pos_seq 1 _ n); lia|].
      intros x. rewrite in_kept_rows, in_seq. split; [intros (Hx & d & Hd & Hk); apply HK in Hk; lia|]. intros H. split; [lia|]. exists (n - 1). split; [lia|]. apply HK; lia. }
    assert (Ec : kept_cols u key = seq 1 (n - 1)).
    { apply sorted_lt_ext; [apply incr_pos_filter|apply (incr_pos_seq 1 _ n); lia|].
      intros x. rewrite in_kept_cols, in_seq. split; [intros (Hx & d & Hd & Hk); apply HK in Hk; lia|]. intros H. split; [lia|]. exists (n - 1). split; [lia|]. apply HK; lia. }
    assert (MM : forall o d, month_of u o d = month_of t o d) by (intros; unfold month_of; rewrite Po, Pd; reflexivity).
    assert (Vs : vdate s = M).
    { pose proof (sl_vge _ _ _ SS (n - 1) (n - 1) ltac:(lia) ltac:(lia) ltac:(apply HK; lia)) as L1. rewrite MM, (square_month _ _ _ _ _ _ _ Q) in L1 by lia. rewrite (pt_vd _ _ _ _ _ _ _ P) in L1.
      destruct (sl_vub _ _ _ SS) as (o & d & Ho & Hd & _ & L2). rewrite MM, (square_month _ _ _ _ _ _ _ Q) in L2 by lia. unfold last_month in *. nia. }
    exists s. split; auto. split; [apply SS|]. split; [apply SS|]. split; [apply SS|]. split; [apply SS|]. constructor; auto.
    + rewrite (sl_k _ _ _ SS). apply P.
    + rewrite (sl_kl _ _ _ SS). apply P.
    + rewrite (sl_v _ _ _ SS). apply P.
    + rewrite (sl_o _ _ _ SS), Er, Po, (hyp t_orgs). unfold orgs. apply sel_seq_map. lia.
    + rewrite (sl_d _ _ _ SS), Ec, Pd, (hyp t_ages). cbn [dmap]. f_equal. unfold agl. apply sel_seq_map. lia.
    + rewrite (sl_og _ _ _ SS). apply P.
    + rewrite (sl_dg _ _ _ SS). apply P. auto.
    + rewrite (sl_0 _ _ _ SS). apply P.
    + rewrite (sl_1 _ _ _ SS). apply P.
    + rewrite (sl_2 _ _ _ SS), Er, seq_length, orgs_len. auto.
    + rewrite (sl_3 _ _ _ SS), Ec, seq_length. cbn [dlist]. rewrite agl_len. auto.
    + intros i o d Hi Ho Hd. rewrite orgs_len in Ho. cbn [dlist] in Hd. rewrite agl_len in Hd. rewrite (sl_cell _ _ _ SS); rewrite ?Er, ?Ec, ?seq_length, ?(pt_0 _ _ _ _ _ _ _ P), ?(pt_1 _ _ _ _ _ _ _ P); auto.
      rewrite !seq_nth by auto. cbn [Nat.add]. rewrite (pt_cell _ _ _ _ _ _ _ P) by (cbn; lia). specialize (HK (S o) (S d) ltac:(lia) ltac:(lia)). unfold key.
      change (S (o + S d)) with (S o + S d).
      destruct (vdate t <? valuation u (S o) (S d))%Z.
      * destruct HK as [HK _]. specialize (HK eq_refl). destruct (Nat.ltb_spec (S o + S d) n); [lia|reflexivity].
      * destruct HK as [_ HK]. destruct (Nat.ltb_spec (S o + S d) n) as [L|L]; [reflexivity|]. discriminate (HK L).
Qed.

Variables (cs fp inc : tri) (C : nat -> nat -> nat -> cell) (P : nat -> nat -> nat -> Qc) (q : nat).
Hypotheses (Hq : q < ax1 (values t)) (Pcs : part t n true true M cs C) (Fcp : is_pattern cs = false)
  (Pfp : part t n true true ULT_VAL fp (fun i o d => n2n (Some (P i o d)))) (Ffp : is_pattern fp = false)
  (Pinc : part t n true true (vdate t) inc (fun i o d => cel t i q o d)) (Fip : is_pattern inc = false).

Definition full_inc (i o d : nat) : Qc := if o + d <? n then amount t i q o d else (nz (C i o d) + P i o d)%Qc.

Lemma blank_in_order u j k j' k' v f : blk t (orgs h o0 j k) (Ages (agl h a0 j' k')) v u f -> (M <= v)%Z -> j + k <= n -> j' + k' <= n -> blank_future u.
Proof using All.
  intros R V K K' i c o d (_ & _ & Ho & Hd) F. rewrite (b_2 _ _ _ _ _ _ R), orgs_len in Ho. rewrite (b_3 _ _ _ _ _ _ R) in Hd. cbn [dlist] in Hd. rewrite agl_len in Hd.
  assert (h1 : 1 <= h) by apply Q. unfold future in F. rewrite (hyp P_Out1.grid_month _ _ _ _ _ _ _ _ _ R) in F by lia. rewrite (b_vd _ _ _ _ _ _ R) in F. unfold last_month in V. nia.
Qed.

Lemma inblk_in j k j' k' f i o d : j <= o < j + k -> j' <= d < j' + k' -> inblk j k j' k' f i o d = nz (f i (o - j) (d - j')).
Proof using. clear. intros. unfold inblk. replace ((j <=? o) && (o <? j + k) && (j' <=? d) && (d <? j' + k')) with true; [reflexivity|]. symmetry. rewrite !andb_true_iff, !Nat.leb_le, !Nat.ltb_lt. lia. Qed.
Lemma inblk_out j k j' k' f i o d : o < j \/ d < j' -> inblk j k j' k' f i o d = 0%Qc.
Proof using. clear. intros. unfold inblk. destruct ((j <=? o) && (o <? j + k) && (j' <=? d) && (d <? j' + k')) eqn:E; [|reflexivity]. rewrite !andb_true_iff, !Nat.leb_le, !Nat.ltb_lt in E. lia. Qed.
Lemma incurred_all : exists r, os_incurred t inc cs fp = Ok r /\ part t n true true M r (fun i o d => n2n (Some (full_inc i o d))) /\ is_cumulative r = is_cumulative cs /\ is_pattern r = false.
Proof using All.
  assert (h1 : 1 <= h) by apply Q. assert (MV : (vdate t <= M)%Z) by (rewrite (square_vdate _ _ _ _ _ Q); unfold last_month; nia). assert (MU : (M <= ULT_VAL)%Z) by (unfold ULT_VAL; lia).
  destruct (future_slice cs M C Pcs ltac:(lia)) as (c & Ec & Wc & Fc & Fcc & _ & Bc). destruct (future_slice fp ULT_VAL _ Pfp ltac:(lia)) as (f & Ef & Wf & Ff & _ & _ & Bf).
  destruct (add_win t n h o0 a0 W B Q Hn H0 Uk 1 (n - 1) 1 (n - 1) c f _ _ _ _ _ _ _ _ _ _ _ _ Bc Bf) as (s & Es & Ws & Bbs & Bs & Sc & Sp & _ & _); try lia.
  { eapply blank_in_order; [exact Bc|lia|lia|lia]. } { eapply blank_in_order; [exact Bf|lia|lia|lia]. } { congruence. }
  rewrite Z.max_id in Bs. pose proof (hyp part_blk _ _ _ Pinc) as Bi. rewrite (hyp t_orgs), (hyp t_ages) in Bi.
  destruct (add_win t n h o0 a0 W B Q Hn H0 Uk 0 n 0 n s inc _ _ _ _ _ _ _ _ _ _ _ _ Bs Bi) as (r & Er & Wr & Bbr & Br & Rc & Rp & _ & _); try lia; auto.
  { intros i x o d (Hi & Hx & Ho & Hd) Fu. rewrite (b_0 _ _ _ _ _ _ Bi) in Hi. rewrite (b_1 _ _ _ _ _ _ Bi) in Hx. rewrite (b_2 _ _ _ _ _ _ Bi), orgs_len in Ho. rewrite (b_3 _ _ _ _ _ _ Bi) in Hd. cbn [dlist] in Hd. rewrite agl_len in Hd. replace x with 0 by lia.
    rewrite (b_cell _ _ _ _ _ _ Bi) by (cbn [dlist]; rewrite ?orgs_len, ?agl_len; auto). 
    apply B; [unfold in_range; destruct Q as (_ & -> & ->); auto|]. unfold future in *. rewrite (b_vd _ _ _ _ _ _ Bi) in Fu. replace (month_of t o d) with (month_of inc o d); auto. unfold month_of. rewrite (pt_o _ _ _ _ _ _ _ Pinc), (pt_d _ _ _ _ _ _ _ Pinc). reflexivity. }
  rewrite Z.max_l in Br by lia. exists r. split; [|split; [|split; [congruence|auto]]].
  - unfold os_incurred. rewrite Ec. cbn [rbind]. rewrite Ef. cbn [rbind]. rewrite Es. exact Er.
  - apply (hyp blk_part). rewrite (hyp t_orgs), (hyp t_ages). eapply blk_ext; [exact Br|]. intros i o d Hi Ho Hd. rewrite orgs_len in Ho. cbn [dlist] in Hd. rewrite agl_len in Hd. cbv beta. do 2 f_equal.
    rewrite !Nat.add_0_l. unfold full_inc. rewrite (inblk_in 0 n 0 n) by lia. rewrite !Nat.sub_0_r.
    pose proof (square_future _ _ _ _ _ o d Q Ho Hd) as Fu.
    destruct (Nat.ltb_spec (o + d) n) as [L|L].
    + replace (inblk 1 (n - 1) 1 (n - 1) _ i o d) with 0%Qc; [unfold amount; ring|]. destruct (Nat.eq_dec o 0); [rewrite inblk_out by lia; reflexivity|]. destruct (Nat.eq_dec d 0); [rewrite inblk_out by lia; reflexivity|].
      rewrite inblk_in by lia. replace (1 + (o - 1)) with o by lia. replace (1 + (d - 1)) with d by lia. rewrite nz_n2n. cbn [nz]. rewrite !inblk_in by lia. replace (S (o - 1)) with o by lia. replace (S (d - 1)) with d by lia.
      destruct (Nat.ltb_spec (o + d) n); [|lia]. cbn [nz]. ring.
    + rewrite (B i q o d); [|unfold in_range; destruct Q as (_ & -> & ->); auto|apply Fu; lia]. cbn [nz]. rewrite Qcplus_0_r.
      rewrite inblk_in by lia. replace (1 + (o - 1)) with o by lia. replace (1 + (d - 1)) with d by lia. rewrite nz_n2n. cbn [nz]. rewrite !inblk_in by lia. replace (S (o - 1)) with o by lia. replace (S (d - 1)) with d by lia.
      destruct (Nat.ltb_spec (o + d) n); [lia|]. rewrite !nz_n2n. reflexivity.
Qed.
End Out.
