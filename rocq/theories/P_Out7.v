(** Paid amounts of all origins at all ages: the payments after the valuation date. *)
From Coq Require Import Lia.
From Verif Require Import P_Corr5.
From Verif Require Export P_Out6.
Local Open Scope nat_scope.

Section Out.
Variables (t : tri) (n h : nat) (o0 a0 : Z).
Hypotheses (W : wf t) (B : blank_future t) (Q : square t n o0 a0 h) (Hn : 3 <= n) (H0 : 1 <= ax0 (values t)).
Local Notation hyp L := (L t n h o0 a0 W B Q Hn H0).
Hypotheses (Uk : NoDup (kdims t)).
Local Notation M := (last_month n h o0 a0).
Hypotheses (Hu : (M < 12 * 2261)%Z).
Variables (cs pl pd : tri) (v1 : Z) (C : nat -> nat -> nat -> cell) (G : nat -> nat -> cell) (p : nat).
Hypotheses (Pcs : part t n true true M cs C)
  (Ppl : blk t (orgs h o0 0 1) (Ages (agl h a0 1 (n - 1))) v1 pl (fun i _ d => G i d))
  (Ppd : part t n true true (vdate t) pd (fun i o d => cel t i p o d)) (Fpp : is_pattern pd = false) (Fpc : is_cumulative pd = Some true).

Definition Sl (i : nat) : Qc := sumn n (fun o => nz (C i o (n - 1 - o))).
Definition has_latest (i : nat) : cell := if Qc_eqb (Sl i) 0%Qc then None else Some 1%Qc.

Lemma M_bounds : (vdate t <= M <= ULT_VAL)%Z.
Proof using All. rewrite (square_vdate _ _ _ _ _ Q). unfold last_month, ULT_VAL in *. assert (1 <= h) by apply Q. nia. Qed.
Lemma len_od : List.length (odims t) = n.
Proof using All. rewrite <- (wf_o _ W). apply Q. Qed.
Lemma len_dd : List.length (dlist (ddims t)) = n.
Proof using All. rewrite <- (wf_d _ W). apply Q. Qed.

Lemma n2n_val x : n2n x = n2n (Some (nz x)).
Proof. destruct x; cbn; auto. Qed.
Lemma self_one q : cdiv (n2n (Some q)) (n2n (Some q)) = if Qc_eqb q 0%Qc then None else Some 1%Qc.
Proof. cbn. destruct (Qc_eqb_spec q 0%Qc); [reflexivity|]. rewrite cdiv_Some by auto. f_equal. field. auto. Qed.

Lemma latest_slice : exists s, getitem_valuation cs (fun o d => valuation cs o d =? vdate t)%Z = Ok s /\
  blk t (odims t) (ddims t) (vdate s) s (fun i o d => if o + d =? n - 1 then n2n (C i o d) else None).
Proof using All.
  pose proof M_bounds as MB. pose proof (part_wf t n h o0 a0 W Q ltac:(lia) H0 _ _ _ Pcs MB) as Wc. assert (h1 : 1 <= h) by apply Q.
  pose proof (pt_2 _ _ _ _ _ _ _ Pcs) as P2. pose proof (pt_3 _ _ _ _ _ _ _ Pcs) as P3. cbn in P2, P3.
  assert (HK : forall o d, o < n -> d < n -> ((valuation cs o d =? vdate t)%Z = true <-> o + d = n - 1)).
  { intros o d Ho Hd. rewrite (part_valuation t n h o0 a0 W Q ltac:(lia) H0 _ _ _ o d Pcs MB Ho Hd), (square_month _ _ _ _ _ _ _ Q Ho Hd), (square_vdate _ _ _ _ _ Q), Z.eqb_eq. split; intros; nia. }
  destruct (getitem_valuation_ok cs (fun o d => valuation cs o d =? vdate t)%Z Wc ltac:(lia)) as (s & E & S).
  - exists 0, (n - 1). split; [lia|]. split; [lia|]. apply HK; lia.
  - rewrite P2. apply (evenly_interval _ _ 0 n). intros x Hx. split; [lia|]. intros _. exists (n - 1 - x). split; [lia|]. apply HK; lia.
  - rewrite P3. apply (evenly_interval _ _ 0 n). intros x Hx. split; [lia|]. intros _. exists (n - 1 - x). split; [lia|]. apply HK; lia.
  - assert (Er : kept_rows cs (fun o d => valuation cs o d =? vdate t)%Z = seq 0 n).
    { apply sorted_lt_ext; [apply incr_pos_filter|apply (incr_pos_seq 0 _ n); lia|].
      intros x. rewrite in_kept_rows, in_seq. split; [intros [H _]; lia|]. intros H. split; [lia|]. exists (n - 1 - x). split; [lia|]. apply HK; lia. }
    assert (Ec : kept_cols cs (fun o d => valuation cs o d =? vdate t)%Z = seq 0 n).
    { apply sorted_lt_ext; [apply incr_pos_filter|apply (incr_pos_seq 0 _ n); lia|].
      intros x. rewrite in_kept_cols, in_seq. split; [intros (Hx & _); lia|]. intros H. split; [lia|]. exists (n - 1 - x). split; [lia|]. apply HK; lia. }
    exists s. split; auto. pose proof len_od as No. pose proof len_dd as Nd. pose proof (pt_o _ _ _ _ _ _ _ Pcs) as Po. pose proof (pt_d _ _ _ _ _ _ _ Pcs) as Pd. cbn in Po, Pd. constructor.
    + rewrite (sl_k _ _ _ S). apply Pcs.
    + rewrite (sl_kl _ _ _ S). apply Pcs.
    + rewrite (sl_v _ _ _ S). apply Pcs.
    + rewrite (sl_o _ _ _ S), Er, Po, <- No. apply sel_seq_all. auto.
    + rewrite (sl_d _ _ _ S), Ec, Pd, <- Nd. apply dmap_sel_all. auto.
    + rewrite (sl_og _ _ _ S). apply Pcs.
    + rewrite (sl_dg _ _ _ S). apply Pcs. auto.
    + reflexivity.
    + rewrite (sl_0 _ _ _ S). apply Pcs.
    + rewrite (sl_1 _ _ _ S). apply Pcs.
    + rewrite (sl_2 _ _ _ S), Er, seq_length. auto.
    + rewrite (sl_3 _ _ _ S), Ec, seq_length. auto.
    + intros i o d Hi Ho Hd. rewrite No in Ho. rewrite Nd in Hd. rewrite (sl_cell _ _ _ S); rewrite ?Er, ?Ec, ?seq_length, ?(pt_0 _ _ _ _ _ _ _ Pcs), ?(pt_1 _ _ _ _ _ _ _ Pcs); auto.
      rewrite !seq_nth by auto. cbn [Nat.add]. rewrite (pt_cell _ _ _ _ _ _ _ Pcs) by auto. specialize (HK o d Ho Hd).
      destruct (Z.eqb_spec (valuation cs o d) (vdate t)) as [Ev|Ev], (Nat.eqb_spec (o + d) (n - 1)) as [Eo|Eo]; auto; exfalso; [apply Eo, HK; auto|assert (false = true) by (apply HK; auto); discriminate].
Qed.

Lemma row_total s : blk t (odims t) (ddims t) (vdate s) s (fun i o d => if o + d =? n - 1 then n2n (C i o d) else None) ->
  exists l, aggregate ASum (Some AxDev) false s = Ok (AggTri (agg_axis ASum s AxDev)) /\ agg_again ASum AxOrigin (AggTri (agg_axis ASum s AxDev)) = Ok l /\
    match l with
    | AggNum x => ax0 (values t) = 1 /\ x = n2n (Some (Sl 0))
    | AggTri u => exists dd v, List.length (dlist dd) = 1 /\ blk t (orgs h o0 0 1) dd v u (fun i _ _ => n2n (Some (Sl i)))
    end.
Proof using All.
  intros Bs. pose proof len_od as No. pose proof len_dd as Nd. assert (RS : reducing ASum) by (split; discriminate).
  assert (S2 : ax2 (values s) = n) by (rewrite (b_2 _ _ _ _ _ _ Bs); auto). assert (S3 : ax3 (values s) = n) by (rewrite (b_3 _ _ _ _ _ _ Bs); auto).
  set (u := agg_axis ASum s AxDev). pose proof (agg_frame_ok ASum s AxDev) as Fu.
  assert (Bu : blk t (odims t) (Vals [vdate s]) (vdate s) u (fun i o _ => n2n (Some (nz (C i o (n - 1 - o)))))).
  { unfold u. constructor.
    - rewrite (af_k _ _ _ Fu). apply Bs.
    - rewrite (af_kl _ _ _ Fu). apply Bs.
    - rewrite (af_v _ _ _ Fu). apply Bs.
    - rewrite (af_o _ _ _ Fu). apply Bs.
    - rewrite (af_d _ _ _ Fu), (b_d _ _ _ _ _ _ Bs), Nd. destruct (Nat.ltb_spec 1 n); [reflexivity|lia].
    - rewrite (af_og _ _ _ Fu). apply Bs.
    - rewrite (af_dg _ _ _ Fu). apply Bs.
    - rewrite (af_vd _ _ _ Fu). reflexivity.
    - rewrite (af_0 _ _ _ Fu). apply Bs.
    - rewrite (af_1 _ _ _ Fu). apply Bs.
    - rewrite (af_2 _ _ _ Fu), No. auto.
    - rewrite (af_3 _ _ _ Fu). reflexivity.
    - intros i o d Hi Ho Hd. rewrite No in Ho. rewrite agg_cel. rewrite n2n_val. f_equal. f_equal. cbn [agg_line nz]. rewrite qsum_present.
      change (axis_length s AxDev) with (ax3 (values s)). rewrite S3. rewrite (sumn_single _ (n - 1 - o)); [|lia|].
      + cbn [along]. rewrite (b_cell _ _ _ _ _ _ Bs); rewrite ?No, ?Nd; auto; try lia. replace (o + (n - 1 - o) =? n - 1) with true by (symmetry; apply Nat.eqb_eq; lia). apply nz_n2n.
      + intros j Hj Hne. cbn [along]. rewrite (b_cell _ _ _ _ _ _ Bs); rewrite ?No, ?Nd; auto. destruct (Nat.eqb_spec (o + j) (n - 1)); [lia|reflexivity]. }
  assert (Ls : forall i, i < ax0 (values t) -> n2n (agg_line ASum (map (fun o => n2n (Some (nz (C i o (n - 1 - o))))) (seq 0 n))) = n2n (Some (Sl i))).
  { intros i Hi. rewrite n2n_val. do 2 f_equal. cbn [agg_line nz]. rewrite qsum_present. unfold Sl. apply sumn_ext. intros j Hj. rewrite nz_n2n. reflexivity. }
  destruct (Nat.eq_dec (ax0 (values t)) 1) as [A|A].
  - exists (AggNum (cel (agg_axis ASum u AxOrigin) 0 0 0 0)). split; [|split].
    + apply aggregate_no_number; auto. rewrite S2. lia.
    + cbn [agg_again]. apply (aggregate_number ASum AxOrigin u RS); [rewrite (b_0 _ _ _ _ _ _ Bu); auto|apply Bu|exact I|rewrite (b_3 _ _ _ _ _ _ Bu); reflexivity].
    + split; auto. rewrite agg_cel, <- Ls by lia. do 2 f_equal. change (axis_length u AxOrigin) with (ax2 (values u)). rewrite (b_2 _ _ _ _ _ _ Bu), No.
      apply map_ext_in. intros j Hj. apply in_seq in Hj. cbn [along]. rewrite (b_cell _ _ _ _ _ _ Bu); rewrite ?No; auto; try lia.
  - destruct (hyp blk_over_origins ASum _ u _ _ _ Bu ltac:(auto) ltac:(lia) ltac:(lia)) as (l & El & _ & _ & Bl). exists (AggTri l). split; [|split].
    + apply aggregate_no_number; auto. rewrite S2. lia.
    + exact El.
    + exists (Vals [vdate s]), (vdate s). split; [reflexivity|].
      assert (F1 : firstn 1 (odims t) = orgs h o0 0 1). { rewrite (hyp t_orgs). unfold orgs. destruct n as [|m]; [lia|]. reflexivity. }
      rewrite F1, No in Bl. eapply blk_ext; [exact Bl|]. intros i o d Hi _ _. apply Ls. auto.
Qed.

(** The factors on the outstanding amounts, missing for rows without latest outstanding amounts. *)
Lemma factors_ok l : match l with
    | AggNum x => ax0 (values t) = 1 /\ x = n2n (Some (Sl 0))
    | AggTri u => exists dd v, List.length (dlist dd) = 1 /\ blk t (orgs h o0 0 1) dd v u (fun i _ _ => n2n (Some (Sl i)))
    end ->
  exists l' g, match l with AggTri u => do q <- tri_op ODiv u u; Ok (AggTri q) | AggNum x => Ok (AggNum (cdiv x x)) end = Ok l' /\ times pl l' = Ok g /\
    exists v, blk t (orgs h o0 0 1) (Ages (agl h a0 1 (n - 1))) v g (fun i _ d => cmul (G i d) (has_latest i)).
Proof using All.
  destruct l as [u|x].
  - intros (dd & v & Ld & Bu).
    destruct (hyp blk_op ODiv u u _ _ _ _ _ _ _ _ ltac:(auto) Bu Bu) as (q & Eq & _ & _ & _ & Bq); rewrite ?orgs_len, ?Ld; try lia; try (left; reflexivity).
    rewrite orgs_len, Ld in Bq. change (pk 1 1 (orgs h o0 0 1) (orgs h o0 0 1)) with (orgs h o0 0 1) in Bq. change (pk 1 1 dd dd) with dd in Bq.
    destruct (hyp blk_op OMul pl q _ _ _ _ _ _ _ _ ltac:(auto) Ppl Bq) as (g & Eg & _ & _ & _ & Bg); cbn [dlist]; rewrite ?orgs_len, ?agl_len, ?Ld; try lia; try (left; reflexivity).
    { right. left. exact Ld. }
    exists (AggTri q), g. rewrite Eq. split; [reflexivity|]. split; [exact Eg|]. eexists.
    cbn [dlist] in Bg. rewrite orgs_len, agl_len, Ld in Bg. change (pk 1 1 (orgs h o0 0 1) (orgs h o0 0 1)) with (orgs h o0 0 1) in Bg.
    replace (pk (n - 1) 1 (Ages (agl h a0 1 (n - 1))) dd) with (Ages (agl h a0 1 (n - 1))) in Bg by (unfold pk; change (1 <? 1) with false; rewrite andb_false_r; reflexivity).
    eapply blk_ext; [exact Bg|]. intros i o d Hi Ho Hd. cbn [dlist] in Hd. rewrite orgs_len in Ho. rewrite agl_len in Hd. cbn [cop]. rewrite self_one. rewrite (bidx_lt (n - 1) d) by auto. reflexivity.
  - intros (A & ->). destruct (hyp blk_arr OMul (Arr 1 1 1 1 (fun _ _ _ _ => cdiv (n2n (Some (Sl 0))) (n2n (Some (Sl 0))))) pl _ _ _ _ ltac:(auto) Ppl) as (g & Eg & Bg & _); cbn [dlist ax0 ax1 ax2 ax3]; rewrite ?orgs_len, ?agl_len; auto; try lia.
    eexists. exists g. split; [reflexivity|]. split; [exact Eg|]. exists v1. eapply blk_ext; [exact Bg|]. intros i o d Hi Ho Hd. replace i with 0 by lia. cbn [cop]. unfold bav. cbn [ax0 ax1 ax2 ax3 av]. rewrite self_one. reflexivity.
Qed.

(** Payments of the period up to the age [S e] of an origin, in the future. *)
Definition pay (i o e : nat) : cell := cmul (C i o e) (cmul (Some (if o + S e <? n then 0%Qc else 1%Qc)) (cmul (G i e) (has_latest i))).
Definition steps (i o k : nat) : Qc := (nz (kpaid t n p i o k) + match k with O => 0 | S e => nz (pay i o e) end)%Qc.
Definition full_paid (i o d : nat) : Qc := sumn (S d) (steps i o).

Lemma paid_all : exists r, os_paid pl t pd cs = Ok r /\ part t n true true ULT_VAL r (fun i o d => n2n (Some (full_paid i o d))) /\ is_cumulative r = Some true /\ is_pattern r = false /\ vdims r = vdims pd.
Proof using All.
  pose proof M_bounds as MB. pose proof len_od as No. pose proof len_dd as Nd. assert (h1 : 1 <= h) by apply Q. pose proof Q as (_ & T2 & T3).
  destruct latest_slice as (s & Es & Bs). destruct (row_total s Bs) as (l & E1 & E2 & Hl). destruct (factors_ok l Hl) as (l' & g & E3 & E4 & vg & Bg).
  destruct (hyp split_ages p p cs M C Pcs MB) as (_ & (lo & vl & El & Bl)).
  set (na := tail3 (map_arr (fun x => Some (1 - nz x)%Qc) (nan_arr t))).
  assert (N0 : ax0 na = 1) by reflexivity. assert (N1 : ax1 na = 1) by reflexivity. assert (N2 : ax2 na = n) by exact T2. assert (N3 : ax3 na = n - 1) by (change (ax3 na) with (ax3 (values t) - 1); lia).
  assert (G0 : ax0 (values g) = ax0 (values t)) by apply Bg. assert (G1 : ax1 (values g) = 1) by apply Bg.
  assert (G2 : ax2 (values g) = 1) by (rewrite (b_2 _ _ _ _ _ _ Bg); apply orgs_len). assert (G3 : ax3 (values g) = n - 1) by (rewrite (b_3 _ _ _ _ _ _ Bg); apply agl_len).
  pose proof (bmap2_bc cmul na (values g) ltac:(unfold bok; lia)) as Eb. set (pat := Arr _ _ _ _ _) in Eb.
  assert (A0 : ax0 pat = ax0 (values t)) by (unfold pat; cbn [ax0]; lia). assert (A1 : ax1 pat = 1) by (unfold pat; cbn [ax1]; lia). assert (A2 : ax2 pat = n) by (unfold pat; cbn [ax2]; lia). assert (A3 : ax3 pat = n - 1) by (unfold pat; cbn [ax3]; lia).
  assert (Ac : forall i o e, i < ax0 (values t) -> o < n -> e < n - 1 -> av pat i 0 o e = cmul (Some (if o + S e <? n then 0%Qc else 1%Qc)) (cmul (G i e) (has_latest i))).
  { intros i o e Hi Ho He. unfold pat. cbn [av]. f_equal.
    - unfold bav. rewrite N0, N1, N2, N3, !bidx_1, (bidx_lt n o), (bidx_lt (n - 1) e) by lia. unfold na. cbn [tail3 map_arr nan_arr av]. rewrite nan_triangle_cases by (auto; lia). rewrite T2, T3.
      replace (Nat.min n n =? 1) with false by (symmetry; apply Nat.eqb_neq; lia). pose proof (square_future _ _ _ _ _ o (S e) Q Ho ltac:(lia)) as Fu. unfold future in Fu.
      destruct (Z.ltb_spec (vdate t) (month_of t o (S e))), (Nat.ltb_spec (o + S e) n); try lia; cbn [nz]; f_equal; ring.
    - unfold bav. rewrite G0, G1, G2, G3, !bidx_1, (bidx_lt (ax0 (values t)) i), (bidx_lt (n - 1) e) by lia. change (av (values g) i 0 0 e) with (cel g i 0 0 e).
      apply (b_cell _ _ _ _ _ _ Bg); cbn [dlist]; rewrite ?orgs_len, ?agl_len; auto. }
  destruct (hyp blk_arr OMul pat lo _ _ _ _ ltac:(auto) Bl) as (q & Eq & Bq & _ & Fq); cbn [dlist]; rewrite ?No, ?agl_len; try lia.
  set (qq := set_vdate (set_ddims q (dmap (@tl Z) (ddims cs))) ULT_VAL).
  assert (Tl : dmap (@tl Z) (ddims cs) = Ages (agl h a0 1 (n - 1))).
  { rewrite (pt_d _ _ _ _ _ _ _ Pcs), (hyp t_ages). cbn [dmap]. f_equal. unfold agl. destruct n as [|m]; [lia|]. cbn [seq map tl]. do 2 f_equal. lia. }
  assert (Bqq : blk t (orgs h o0 0 n) (Ages (agl h a0 1 (n - 1))) ULT_VAL qq pay).
  { rewrite <- (hyp t_orgs). destruct Bq as [P1 Pa Pb P4 P5 P6 P7 P8 P9 P10 P11 P12 P13]. unfold qq. constructor; auto.
    - cbn [dlist] in P12 |- *. rewrite agl_len in P12 |- *. exact P12.
    - intros i o d Hi Ho Hd. cbn [dlist] in Hd. rewrite agl_len in Hd. rewrite No in Ho. change (cel q i 0 o d = pay i o d). rewrite P13 by (cbn [dlist]; rewrite ?No, ?agl_len; auto). cbn [cop].
      rewrite (bav_in pat) by lia. rewrite Ac by auto. reflexivity. }
  destruct (hyp incr_ok p p pd Ppd Fpp Fpc) as (ic & Ei & Pi & Vi & Fip & Fic). pose proof (hyp part_blk _ _ _ Pi) as Bi. rewrite (hyp t_orgs), (hyp t_ages) in Bi.
  assert (UB : (vdate t <= ULT_VAL <= ULT_VAL)%Z) by lia.
  destruct (add_ok t n h o0 a0 W B Q Hn H0 Uk ic qq 0 n 0 n 0 n 1 (n - 1) _ _ _ _ Bi Bqq) as (r & Er & Wr & Br & Pr & Rc & Rp & Rv & Ra); auto; try lia.
  { intros i c o d (Hi & Hc & Ho & Hd) Fu. rewrite (b_0 _ _ _ _ _ _ Bi) in Hi. rewrite (b_1 _ _ _ _ _ _ Bi) in Hc. rewrite (b_2 _ _ _ _ _ _ Bi), orgs_len in Ho. rewrite (b_3 _ _ _ _ _ _ Bi) in Hd. cbn [dlist] in Hd. rewrite agl_len in Hd. replace c with 0 by lia.
    rewrite (b_cell _ _ _ _ _ _ Bi) by (cbn [dlist]; rewrite ?orgs_len, ?agl_len; auto). unfold future in Fu. rewrite (hyp P_Out1.grid_month _ _ _ _ _ _ _ _ _ Bi) in Fu by lia. rewrite (b_vd _ _ _ _ _ _ Bi), (square_vdate _ _ _ _ _ Q) in Fu.
    unfold kpaid. destruct d as [|e]; [nia|]. destruct (Nat.ltb_spec (o + S e) n); [nia|reflexivity]. }
  { intros i c o d (Hi & Hc & Ho & Hd) Fu. rewrite (b_2 _ _ _ _ _ _ Bqq), orgs_len in Ho. rewrite (b_3 _ _ _ _ _ _ Bqq) in Hd. cbn [dlist] in Hd. rewrite agl_len in Hd.
    unfold future in Fu. rewrite (hyp P_Out1.grid_month _ _ _ _ _ _ _ _ _ Bqq) in Fu by lia. rewrite (b_vd _ _ _ _ _ _ Bqq) in Fu. unfold last_month, ULT_VAL in *. nia. }
  rewrite Z.max_r in Pr by lia.
  assert (Rn : is_cumulative r <> Some true) by (rewrite Rc, Fic; discriminate).
  destruct (incr_to_cum_frame r Rp Rn) as (Sf & Sc & Sp).
  exists (incr_to_cum r). split; [|split; [|split; [auto|split; [auto|]]]].
  - unfold os_paid. rewrite Es. cbn [rbind]. rewrite E1. cbn [rbind]. rewrite E2. cbn [rbind]. rewrite E3. cbn [rbind]. rewrite E4. cbn [rbind]. fold na. rewrite Eb. cbn [rbind]. rewrite El. cbn [rbind].
    change mul_arr with (op_arr OMul). rewrite Eq. cbn [rbind]. rewrite Ei. cbn [rbind]. fold qq. rewrite Er. reflexivity.
  - apply (hyp blk_part). destruct Pr as [P1 Pa Pb P4 P5 P6 P7 P8 P9 P10 P11 P12 P13]. destruct Sf. constructor; try congruence.
    intros i o d Hi Ho Hd. rewrite incr_to_cum_cell by (auto; congruence). rewrite P11, P12, No, Nd. replace (Nat.min n n =? 1) with false by (symmetry; apply Nat.eqb_neq; lia). cbn [orb].
    assert (Mr : month_of r o d = month_of t o d) by (unfold month_of; rewrite P4, P5; reflexivity).
    rewrite No in Ho. rewrite Nd in Hd. rewrite Mr, (square_month _ _ _ _ _ _ _ Q Ho Hd), P8. replace (ULT_VAL <? o0 + a0 - 1 + Z.of_nat h * Z.of_nat (o + d))%Z with false.
    2:{ symmetry. apply Z.ltb_ge. unfold last_month, ULT_VAL in *. nia. }
    cbn [negb]. do 2 f_equal. unfold full_paid. apply sumn_ext. intros k Hk. rewrite Ra by lia. unfold inblk, steps. cbn [Nat.leb andb Nat.add].
    rewrite !Nat.sub_0_r. replace (o <? n) with true by (symmetry; apply Nat.ltb_lt; auto). replace (k <? n) with true by (symmetry; apply Nat.ltb_lt; lia). cbn [andb]. f_equal.
    destruct k as [|e]; [reflexivity|]. cbn [Nat.leb Nat.sub]. rewrite ?Nat.sub_0_r. replace (S e <? S (n - 1)) with true by (symmetry; apply Nat.ltb_lt; lia). reflexivity.
  - destruct Sf. congruence.
Qed.

Lemma full_known i o d : o + d < n -> full_paid i o d = amount t i p o d.
Proof using.
  clear. induction d as [|d IH]; intros H; unfold full_paid in *; cbn [sumn] in *.
  - unfold steps. cbn [kpaid]. unfold amount. ring.
  - rewrite IH by lia. unfold steps. cbn [kpaid]. destruct (Nat.ltb_spec (o + S d) n) as [L|L]; [|lia]. rewrite nz_n2n. unfold pay.
    destruct (Nat.ltb_spec (o + S d) n); [|lia]. destruct (C i o d), (cmul (G i d) (has_latest i)); cbn [cmul nz]; ring.
Qed.
Lemma full_step i o d : n <= o + S d -> full_paid i o (S d) = (full_paid i o d + nz (cmul (C i o d) (cmul (G i d) (has_latest i))))%Qc.
Proof using.
  clear. intros H. unfold full_paid. cbn [sumn]. f_equal. unfold steps. cbn [kpaid]. destruct (Nat.ltb_spec (o + S d) n); [lia|]. unfold pay. destruct (Nat.ltb_spec (o + S d) n); [lia|].
  cbn [nz]. rewrite Qcplus_0_l. f_equal. f_equal. destruct (cmul (G i d) (has_latest i)); cbn [cmul]; [f_equal; ring|reflexivity].
Qed.
End Out.
