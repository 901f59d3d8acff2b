(** Paid amounts of all origins at all ages. *)
From Coq Require Import Lia.
From Verif Require Import P_Corr5.
From Verif Require Export P_Out2 P_Out5 P_Select3.
Local Open Scope nat_scope.

(** Flags of a sum of two triangles with the same rows and one column. *)
Lemma aligned_flags op x y u nm : tri_op op x y = Ok u -> vdims x = [nm] -> vdims y = [nm] -> ax1 (values x) = 1 -> ax1 (values y) = 1 ->
  kdims y = kdims x -> key_labels y = key_labels x -> List.length (odims x) <> 1 -> List.length (odims y) <> 1 ->
  List.length (dlist (ddims x)) <> 1 -> List.length (dlist (ddims y)) <> 1 ->
  is_cumulative u = is_cumulative x /\ (is_pattern x = false -> is_pattern u = false) /\ ograin u = ograin x /\ dgrain u = dgrain x /\ (op = OAdd -> forall i c o d, n2n (cel u i c o d) = cel u i c o d).
Proof.
  intros E Vx Vy A1 B1 Ek Ekl Lx Ly Dx Dy. unfold tri_op, validate in E. destruct (negb (compatible x y)); [discriminate|]. cbn [rbind] in E.
  set (x1 := set_vdate (if Bool.eqb (is_pattern x) (is_pattern y) then x else set_pattern x false) (Z.max (vdate x) (vdate y))) in E.
  set (y1 := if Bool.eqb (is_pattern x) (is_pattern y) then y else set_pattern y false) in E.
  assert (Fx : vdims x1 = [nm] /\ values x1 = values x /\ kdims x1 = kdims x /\ key_labels x1 = key_labels x /\ odims x1 = odims x /\ ddims x1 = ddims x /\ is_cumulative x1 = is_cumulative x /\ (is_pattern x = false -> is_pattern x1 = false) /\ ograin x1 = ograin x /\ dgrain x1 = dgrain x).
  { unfold x1. destruct (Bool.eqb _ _); repeat split; auto. }
  assert (Fy : vdims y1 = [nm] /\ values y1 = values y /\ kdims y1 = kdims y /\ key_labels y1 = key_labels y /\ odims y1 = odims y /\ ddims y1 = ddims y).
  { unfold y1. destruct (Bool.eqb _ _); repeat split; auto. }
  clearbody x1 y1. destruct Fx as (X1 & X2 & X3 & X4 & X5 & X6 & X7 & X8 & X9 & X10). destruct Fy as (Y1 & Y2 & Y3 & Y4 & Y5 & Y6).
  assert (Pc : prep_columns x1 y1 = Ok (x1, y1)).
  { unfold prep_columns. rewrite X1, Y1, X2, Y2, A1, B1. cbn [List.length Nat.eqb Nat.ltb Nat.leb andb]. rewrite strs_eqb_refl. reflexivity. }
  rewrite Pc in E. cbn [rbind fst snd] in E.
  assert (Po : forall q, prep_origin_dev (ax0 (values x)) (ax1 (values x)) x1 y1 = Ok q -> kdims (fst q) = kdims x1 /\ key_labels (fst q) = key_labels x1 /\ kdims (snd q) = kdims y1 /\ key_labels (snd q) = key_labels y1 /\
     is_cumulative (fst q) = is_cumulative x1 /\ is_pattern (fst q) = is_pattern x1 /\ ograin (fst q) = ograin x1 /\ dgrain (fst q) = dgrain x1).
  { intros q. unfold prep_origin_dev. cbv zeta. rewrite X5, Y5, X6, Y6.
    apply Nat.eqb_neq in Lx, Ly, Dx, Dy. rewrite Lx, Ly. cbn [andb]. rewrite ?X6, ?Y6, Dx, Dy. cbn [andb].
    match goal with |- (if ?b then _ else _) = _ -> _ => destruct b end.
    - intros [= <-]. repeat split; auto.
    - intros Eq. do 3 (match type of Eq with (do vy <- ?e; _) = _ => destruct e end; cbn [rbind] in Eq; [|discriminate]). injection Eq as <-. repeat split; auto. }
  destruct (prep_origin_dev _ _ x1 y1) as [[x2 y2]|] eqn:E2; cbn [rbind] in E; [|discriminate]. specialize (Po _ eq_refl). cbn [fst snd] in E, Po. destruct Po as (Q1 & Q2 & Q3 & Q4 & Q5 & Q6 & Q7 & Q8).
  assert (Pi : prep_index x2 y2 = Ok (Plain x2 (values y2))).
  { unfold prep_index. assert (K1 : kdims y2 = kdims x2) by congruence. assert (K2 : key_labels y2 = key_labels x2) by congruence. rewrite K1, K2.
    destruct (Nat.eqb_spec (List.length (kdims x2)) 1) as [->|]; cbn [Nat.ltb Nat.leb andb].
    - rewrite ?strs_eqb_refl, ?mem_str_all, ?keys_eqb_refl. cbn [negb andb orb Nat.eqb Nat.ltb Nat.leb]. reflexivity.
    - rewrite ?strs_eqb_refl, ?mem_str_all, ?keys_eqb_refl, ?Nat.eqb_refl. cbn [negb andb orb]. rewrite ?andb_false_r. reflexivity. }
  rewrite Pi in E. cbn [rbind] in E. destruct op; cbn [op_arr] in E; unfold add_arr, sub_arr, mul_arr, div_arr in E; destruct (bmap2 _ _ _); try discriminate; injection E as <-;
    (split; [|split; [|split; [|split]]]); try (intros Ho; try discriminate Ho; intros; apply n2n_idem); try (intros Hp; specialize (X8 Hp)); cbv [cleanup set_values is_cumulative is_pattern ograin dgrain] in *; congruence.
Qed.

Section Out.
Variables (t : tri) (n h : nat) (o0 a0 : Z).
Hypotheses (W : wf t) (B : blank_future t) (Q : square t n o0 a0 h) (Hn : 3 <= n) (H0 : 1 <= ax0 (values t)).
Local Notation hyp L := (L t n h o0 a0 W B Q Hn H0).
Hypothesis Uk : NoDup (kdims t).

(** The amount of a block of origins [j..j+k-1] and ages [j'..j'+k'-1] at a position of the whole grid. *)
Definition inblk (j k j' k' : nat) (f : nat -> nat -> nat -> cell) (i o d : nat) : Qc :=
  if (j <=? o) && (o <? j + k) && (j' <=? d) && (d <? j' + k') then nz (f i (o - j) (d - j')) else 0%Qc.

Lemma at_blk u nm j k j' k' v f i o d : blk t (orgs h o0 j k) (Ages (agl h a0 j' k')) v u f -> wf u -> vdims u = [nm] ->
  i < ax0 (values t) -> o < n -> d < n ->
  amount_at u (nth i (kdims t) []) nm (nth o (odims t) 0%Z) (nth d (dlist (ddims t)) 0%Z) = inblk j k j' k' f i o d.
Proof using All.
  intros P Wu Vu Hi Ho Hd. rewrite (hyp t_orgs), (hyp t_ages). cbn [dlist]. unfold orgs, agl. rewrite !nth_seq_map by auto. cbn [Nat.add]. pose proof (hyp h_pos) as h1.
  unfold inblk. destruct ((j <=? o) && (o <? j + k) && (j' <=? d) && (d <? j' + k')) eqn:E.
  - rewrite !andb_true_iff, !Nat.leb_le, !Nat.ltb_lt in E. destruct E as (((E1 & E2) & E3) & E4).
    assert (P2 : ax2 (values u) = k) by (rewrite (b_2 _ _ _ _ _ _ P); apply orgs_len). assert (P3 : ax3 (values u) = k') by (rewrite (b_3 _ _ _ _ _ _ P); apply agl_len).
    pose proof (amount_at_pos u i 0 (o - j) (d - j') Wu) as K. rewrite Vu, (b_k _ _ _ _ _ _ P), (b_o _ _ _ _ _ _ P), (b_d _ _ _ _ _ _ P) in K. cbn [dlist nth] in K. unfold orgs, agl in K. rewrite !nth_seq_map in K by lia.
    replace (j + (o - j)) with o in K by lia. replace (j' + (d - j')) with d in K by lia. rewrite K.
    + unfold amount. rewrite (b_cell _ _ _ _ _ _ P); auto; cbn [dlist]; rewrite ?orgs_len, ?agl_len; lia.
    + split; [rewrite (b_k _ _ _ _ _ _ P); auto|]. rewrite Vu. repeat constructor. intros [].
    + unfold in_range. rewrite P2, P3, (b_0 _ _ _ _ _ _ P), (b_1 _ _ _ _ _ _ P). lia.
  - apply not_has_labels. unfold has_labels. rewrite (b_o _ _ _ _ _ _ P), (b_d _ _ _ _ _ _ P). cbn [dlist]. intros (_ & _ & A & A').
    apply in_map_iff in A, A'. destruct A as (q & Eq & Hq). destruct A' as (q' & Eq' & Hq'). apply in_seq in Hq, Hq'.
    assert (q = o) by nia. assert (q' = d) by nia. subst.
    rewrite !andb_false_iff, !Nat.leb_gt, !Nat.ltb_ge in E. lia.
Qed.

Lemma ap_gap_free (s0 : Z) (g : nat -> Z) j k : (forall q, g q = (s0 + Z.of_nat (h * q))%Z) -> gap_free (Z.of_nat h) (map g (seq j k)).
Proof using.
  clear. intros E. exists (g j). rewrite map_length, seq_length. revert j. induction k as [|k IH]; intros j; [reflexivity|]. cbn [seq map]. f_equal; [lia|].
  rewrite IH. rewrite <- (seq_shift k 0), map_map. apply map_ext. intros q. rewrite !E. nia.
Qed.
Lemma add_win J K L M x y j1 k1 l1 m1 j2 k2 l2 m2 vx vy f g : blk t (orgs h o0 j1 k1) (Ages (agl h a0 l1 m1)) vx x f -> blk t (orgs h o0 j2 k2) (Ages (agl h a0 l2 m2)) vy y g ->
  2 <= k1 -> 2 <= m1 -> 2 <= k2 -> 2 <= m2 -> j1 + k1 <= n -> l1 + m1 <= n -> j2 + k2 <= n -> l2 + m2 <= n ->
  J + K <= n -> L + M <= n -> J <= j1 -> j1 + k1 <= J + K -> L <= l1 -> l1 + m1 <= L + M -> J <= j2 -> j2 + k2 <= J + K -> L <= l2 -> l2 + m2 <= L + M ->
  (k1 = K /\ m1 = M) \/ (k2 = K /\ m2 = M) ->
  (vdate t <= vx <= ULT_VAL)%Z -> (vdate t <= vy <= ULT_VAL)%Z -> blank_future x -> blank_future y -> is_pattern x = false ->
  exists s, tri_op OAdd x y = Ok s /\ wf s /\ blank_future s /\ blk t (orgs h o0 J K) (Ages (agl h a0 L M)) (Z.max vx vy) s (fun i o d => n2n (Some (inblk j1 k1 l1 m1 f i (J + o) (L + d) + inblk j2 k2 l2 m2 g i (J + o) (L + d))%Qc)) /\
    is_cumulative s = is_cumulative x /\ is_pattern s = false /\ vdims s = vdims x /\
    forall i o d, i < ax0 (values t) -> o < K -> d < M -> amount s i 0 o d = (inblk j1 k1 l1 m1 f i (J + o) (L + d) + inblk j2 k2 l2 m2 g i (J + o) (L + d))%Qc.
Proof using All.
  intros P R K1 K2 K3 K4 L1 L2 L3 L4 Z1 Z2 Z3 Z4 Z5 Z6 Z7 Z8 Z9 Z10 Full Vx Vy Bx By Fx. pose proof (hyp h_pos) as h1. pose proof (wf_dev _ W) as Wdv. rewrite (hyp t_ages), (hyp t_orgs) in Wdv. destruct Wdv as (D1 & D2 & D3).
  assert (Wx : wf x) by (eapply (hyp grid_wf); eauto; lia). assert (Wy : wf y) by (eapply (hyp grid_wf); eauto; lia).
  assert (exists nm, vdims x = [nm]) as (nm & Nx). { pose proof (b_v _ _ _ _ _ _ P) as V. destruct (vdims x) as [|a [|]]; try discriminate. eauto. }
  rewrite (op_one_column OAdd x y nm Nx (b_v _ _ _ _ _ _ R) (b_1 _ _ _ _ _ _ P) (b_1 _ _ _ _ _ _ R)). rewrite Nx.
  set (y' := set_vdims y [nm]).
  assert (R' : blk t (orgs h o0 j2 k2) (Ages (agl h a0 l2 m2)) vy y' g) by (destruct R; constructor; auto).
  assert (Wy' : wf y') by (eapply (hyp grid_wf); eauto; lia).
  assert (IO : forall j k z, j + k <= n -> In z (orgs h o0 j k) -> In z (orgs h o0 0 n)). { intros j k z Lz Hz. apply in_map_iff in Hz. destruct Hz as (q & <- & Hq). apply in_seq in Hq. apply in_map_iff. exists q. split; auto. apply in_seq. lia. }
  assert (IA : forall j k z, j + k <= n -> In z (agl h a0 j k) -> In z (agl h a0 0 n)). { intros j k z Lz Hz. apply in_map_iff in Hz. destruct Hz as (q & <- & Hq). apply in_seq in Hq. apply in_map_iff. exists q. split; auto. apply in_seq. lia. }
  destruct (addsub_align OAdd (Z.of_nat h) (Z.of_nat h) x y') as (s & Es & Ws & Bs & Sk & Skl & Sv & So & Ssk & Sd & Svd & Sa); auto.
  - left; auto.
  - lia.
  - lia.
  - split; [rewrite (b_k _ _ _ _ _ _ P); auto|]. rewrite Nx. repeat constructor. intros [].
  - rewrite (b_k _ _ _ _ _ _ P), (b_k _ _ _ _ _ _ R'). auto.
  - rewrite (b_kl _ _ _ _ _ _ P), (b_kl _ _ _ _ _ _ R'). auto.
  - rewrite (b_og _ _ _ _ _ _ P), (b_og _ _ _ _ _ _ R'). auto.
  - rewrite (b_dg _ _ _ _ _ _ P), (b_dg _ _ _ _ _ _ R'). auto.
  - rewrite (b_d _ _ _ _ _ _ P), (b_d _ _ _ _ _ _ R'). exact I.
  - rewrite (b_o _ _ _ _ _ _ P), (b_o _ _ _ _ _ _ R'). right. unfold orgs. rewrite !map_length, !seq_length. split; [|split; [|split; [|lia]]].
    + apply (ap_gap_free o0). intros. do 3 f_equal. lia.
    + apply (ap_gap_free o0). intros. do 3 f_equal. lia.
    + intros a b Ha Hb. apply in_map_iff in Ha, Hb. destruct Ha as (q & <- & _). destruct Hb as (q' & <- & _). exists (Z.of_nat q - Z.of_nat q')%Z. nia.
  - rewrite (b_d _ _ _ _ _ _ P), (b_d _ _ _ _ _ _ R'). cbn [dlist]. right. unfold agl. rewrite !map_length, !seq_length. split; [|split; [|split; [|lia]]].
    + apply (ap_gap_free a0). reflexivity.
    + apply (ap_gap_free a0). reflexivity.
    + intros a b Ha Hb. apply in_map_iff in Ha, Hb. destruct Ha as (q & <- & _). destruct Hb as (q' & <- & _). exists (Z.of_nat q - Z.of_nat q')%Z. nia.
  - unfold frame_fits. rewrite (b_d _ _ _ _ _ _ P), (b_d _ _ _ _ _ _ R'), (b_o _ _ _ _ _ _ P), (b_o _ _ _ _ _ _ R'). intros o a Ho Ha Hne. apply D3; auto; [destruct Ho as [Ho|Ho]|destruct Ha as [Ha|Ha]]; eauto.
  - assert (IOw : forall j k z, J <= j -> j + k <= J + K -> In z (orgs h o0 j k) -> In z (orgs h o0 J K)). { intros j k z L' L'' Hz. apply in_map_iff in Hz. destruct Hz as (q & <- & Hq). apply in_seq in Hq. apply in_map_iff. exists q. split; auto. apply in_seq. lia. }
    assert (IAw : forall j k z, L <= j -> j + k <= L + M -> In z (agl h a0 j k) -> In z (agl h a0 L M)). { intros j k z L' L'' Hz. apply in_map_iff in Hz. destruct Hz as (q & <- & Hq). apply in_seq in Hq. apply in_map_iff. exists q. split; auto. apply in_seq. lia. }
    assert (Eo : odims s = orgs h o0 J K).
    { apply sorted_Z_ext; [apply Ws|unfold orgs; apply sorted_seq; intros; nia|]. intros z. rewrite So, (b_o _ _ _ _ _ _ P), (b_o _ _ _ _ _ _ R'). split; [intros [Z|Z]; eauto|]. intros Z.
      destruct Full as [(-> & _) | (-> & _)]; [left; replace j1 with J by lia|right; replace j2 with J by lia]; auto. }
    assert (El : dlist (ddims s) = agl h a0 L M).
    { apply sorted_Z_ext; [apply Ws|unfold agl; apply sorted_seq; intros; nia|]. intros z. rewrite Sd, (b_d _ _ _ _ _ _ P), (b_d _ _ _ _ _ _ R'). cbn [dlist]. split; [intros [Z|Z]; eauto|]. intros Z.
      destruct Full as [(_ & ->) | (_ & ->)]; [left; replace l1 with L by lia|right; replace l2 with L by lia]; auto. }
    assert (Ed : ddims s = Ages (agl h a0 L M)). { rewrite (b_d _ _ _ _ _ _ P) in Ssk. destruct (ddims s); cbn in *; [congruence|contradiction]. }
    destruct (aligned_flags OAdd x y' s nm Es Nx eq_refl (b_1 _ _ _ _ _ _ P) (b_1 _ _ _ _ _ _ R')) as (Fc & Fp & Fo & Fd & Fz).
    { rewrite (b_k _ _ _ _ _ _ P), (b_k _ _ _ _ _ _ R'). auto. } { rewrite (b_kl _ _ _ _ _ _ P), (b_kl _ _ _ _ _ _ R'). auto. }
    { rewrite (b_o _ _ _ _ _ _ P), orgs_len. lia. } { rewrite (b_o _ _ _ _ _ _ R'), orgs_len. lia. }
    { rewrite (b_d _ _ _ _ _ _ P). cbn [dlist]. rewrite agl_len. lia. } { rewrite (b_d _ _ _ _ _ _ R'). cbn [dlist]. rewrite agl_len. lia. }
    assert (S0 : ax0 (values s) = ax0 (values t)) by (rewrite (wf_k _ Ws), Sk, (b_k _ _ _ _ _ _ P); symmetry; apply W).
    assert (S1 : ax1 (values s) = 1) by (rewrite (wf_v _ Ws), Sv, Nx; auto).
    assert (S2 : ax2 (values s) = K). { rewrite (wf_o _ Ws), Eo. apply orgs_len. }
    assert (S3 : ax3 (values s) = M). { rewrite (wf_d _ Ws), El. apply agl_len. }
    assert (Am : forall i o d, i < ax0 (values t) -> o < K -> d < M -> amount s i 0 o d = (inblk j1 k1 l1 m1 f i (J + o) (L + d) + inblk j2 k2 l2 m2 g i (J + o) (L + d))%Qc).
    { intros i o d Hi Ho Hd. rewrite <- amount_at_pos; auto; [|split; [rewrite Sk, (b_k _ _ _ _ _ _ P); auto|rewrite Sv, Nx; repeat constructor; intros []]|unfold in_range; lia].
      rewrite Sa, Sk, Sv, Nx, (b_k _ _ _ _ _ _ P), Eo, El. cbn [nth qop].
      assert (To : nth o (orgs h o0 J K) 0%Z = nth (J + o) (odims t) 0%Z) by (rewrite (hyp t_orgs); unfold orgs; rewrite !nth_seq_map by lia; reflexivity).
      assert (Td : nth d (agl h a0 L M) 0%Z = nth (L + d) (dlist (ddims t)) 0%Z) by (rewrite (hyp t_ages); cbn [dlist]; unfold agl; rewrite !nth_seq_map by lia; reflexivity).
      rewrite To, Td, (at_blk x nm j1 k1 l1 m1 vx f i (J + o) (L + d)), (at_blk y' nm j2 k2 l2 m2 vy g i (J + o) (L + d)) by (auto; lia). reflexivity. }
    exists s. split; [exact Es|]. split; auto. split; auto. split; [|split; [auto|split; [auto|split; [congruence|exact Am]]]].
    + constructor; auto.
      * rewrite Sk. apply P.
      * rewrite Skl. apply P.
      * rewrite Sv, Nx. reflexivity.
      * rewrite Fo. apply P.
      * rewrite Fd. apply P.
      * rewrite Svd, (b_vd _ _ _ _ _ _ P), (b_vd _ _ _ _ _ _ R'). reflexivity.
      * rewrite S2, orgs_len. reflexivity.
      * rewrite S3. cbn [dlist]. rewrite agl_len. reflexivity.
      * intros i o d Hi Ho Hd. rewrite orgs_len in Ho. cbn [dlist] in Hd. rewrite agl_len in Hd. rewrite <- Fz by auto. rewrite <- Am by auto. unfold amount. destruct (cel s i 0 o d); reflexivity.
Qed.
Lemma add_ok x y j1 k1 l1 m1 j2 k2 l2 m2 vx vy f g : blk t (orgs h o0 j1 k1) (Ages (agl h a0 l1 m1)) vx x f -> blk t (orgs h o0 j2 k2) (Ages (agl h a0 l2 m2)) vy y g ->
  2 <= k1 -> 2 <= m1 -> 2 <= k2 -> 2 <= m2 -> j1 + k1 <= n -> l1 + m1 <= n -> j2 + k2 <= n -> l2 + m2 <= n ->
  (k1 = n /\ m1 = n) \/ (k2 = n /\ m2 = n) ->
  (vdate t <= vx <= ULT_VAL)%Z -> (vdate t <= vy <= ULT_VAL)%Z -> blank_future x -> blank_future y -> is_pattern x = false ->
  exists s, tri_op OAdd x y = Ok s /\ wf s /\ blank_future s /\ blk t (odims t) (ddims t) (Z.max vx vy) s (fun i o d => n2n (Some (inblk j1 k1 l1 m1 f i o d + inblk j2 k2 l2 m2 g i o d)%Qc)) /\
    is_cumulative s = is_cumulative x /\ is_pattern s = false /\ vdims s = vdims x /\
    forall i o d, i < ax0 (values t) -> o < n -> d < n -> amount s i 0 o d = (inblk j1 k1 l1 m1 f i o d + inblk j2 k2 l2 m2 g i o d)%Qc.
Proof using All.
  intros P R K1 K2 K3 K4 L1 L2 L3 L4 Full Vx Vy Bx By Fx.
  destruct (add_win 0 n 0 n x y j1 k1 l1 m1 j2 k2 l2 m2 vx vy f g P R) as (s & A1 & A2 & A3 & A4 & A5 & A6 & A7 & A8); auto; try lia. exists s. rewrite (hyp t_orgs), (hyp t_ages). do 7 (split; [auto|]). exact A8.
Qed.
End Out.
