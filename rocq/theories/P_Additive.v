(** Proofs about the incremental additive method: the loss rates. *)
From Coq Require Import Lia.
From Verif Require Import Spec TriFacts ArrFacts ConvFacts SliceFacts BcastFacts DevFacts P_Core P_Filter P_Arith P_Corr5 P_Benk P_Olf NumFacts SpecAdditive.
Local Open Scope nat_scope.

Definition fits1 (k n : nat) : Prop := k = n \/ k = 1.
Definition into (a : arr) (n0 n1 n2 n3 : nat) : Prop := fits1 (ax0 a) n0 /\ fits1 (ax1 a) n1 /\ fits1 (ax2 a) n2 /\ fits1 (ax3 a) n3.
Lemma bdim_into m k n : fits1 m n -> fits1 k n -> m = n \/ k = n -> 1 <= n -> bdim m k = Ok n.
Proof.
  intros M K H N. unfold bdim, fits1 in *. destruct (Nat.eqb_spec m k); [f_equal; lia|]. destruct (Nat.eqb_spec m 1); [f_equal; lia|].
  destruct (Nat.eqb_spec k 1); [f_equal; lia|]. lia.
Qed.
Lemma bm f a b n0 n1 n2 n3 : into a n0 n1 n2 n3 -> into b n0 n1 n2 n3 ->
  ax0 a = n0 \/ ax0 b = n0 -> ax1 a = n1 \/ ax1 b = n1 -> ax2 a = n2 \/ ax2 b = n2 -> ax3 a = n3 \/ ax3 b = n3 ->
  1 <= n0 -> 1 <= n1 -> 1 <= n2 -> 1 <= n3 ->
  exists r, bmap2 f a b = Ok r /\ dims r n0 n1 n2 n3 /\ forall i c o d, av r i c o d = f (bav a i c o d) (bav b i c o d).
Proof.
  intros (A0 & A1 & A2 & A3) (B0 & B1 & B2 & B3) H0 H1 H2 H3 P0 P1 P2 P3. unfold bmap2.
  rewrite (bdim_into _ _ n0), (bdim_into _ _ n1), (bdim_into _ _ n2), (bdim_into _ _ n3) by auto. cbn [rbind].
  eexists. split; [reflexivity|]. split; [unfold dims; auto|]. reflexivity.
Qed.
Lemma bav_full a n0 n1 n2 n3 i c o d : dims a n0 n1 n2 n3 -> i < n0 -> c < n1 -> o < n2 -> d < n3 -> bav a i c o d = av a i c o d.
Proof. unfold bav. intros (-> & -> & -> & ->) Hi Hc Ho Hd. rewrite !bidx_lt by auto. reflexivity. Qed.
Lemma bav_col a n0 n1 n2 i c o d : dims a n0 n1 n2 1 -> i < n0 -> c < n1 -> o < n2 -> bav a i c o d = av a i c o 0.
Proof. unfold bav. intros (-> & -> & -> & ->) Hi Hc Ho. rewrite bidx_1, !bidx_lt by auto. reflexivity. Qed.
Lemma bav_row a n0 n1 n3 i c o d : dims a n0 n1 1 n3 -> i < n0 -> c < n1 -> d < n3 -> bav a i c o d = av a i c 0 d.
Proof. unfold bav. intros (-> & -> & -> & ->) Hi Hc Hd. rewrite bidx_1, !bidx_lt by auto. reflexivity. Qed.
Lemma bav_11 a n2 n3 i c o d : dims a 1 1 n2 n3 -> o < n2 -> d < n3 -> bav a i c o d = av a 0 0 o d.
Proof. unfold bav. intros (-> & -> & -> & ->) Ho Hd. rewrite !bidx_1, !bidx_lt by auto. reflexivity. Qed.
Lemma bav_list a n3 i c o d : dims a 1 1 1 n3 -> d < n3 -> bav a i c o d = av a 0 0 0 d.
Proof. unfold bav. intros (-> & -> & -> & ->) Hd. rewrite !bidx_1, !bidx_lt by auto. reflexivity. Qed.
Lemma dims_map f a n0 n1 n2 n3 : dims a n0 n1 n2 n3 -> dims (map_arr f a) n0 n1 n2 n3.
Proof. intros H; exact H. Qed.
Ltac fit := unfold into, fits1, dims in *; cbn [map_arr nansum_axis ax0 ax1 ax2 ax3] in *; intuition (first [lia | congruence]).

(** ** The regression on one column *)
Lemma thru_orig_col x y w n0 n1 n2 n3 : dims x n0 n1 n2 1 -> dims y n0 n1 n2 n3 -> dims w n0 n1 n2 n3 ->
  1 <= n0 -> 1 <= n1 -> 1 <= n2 -> 1 <= n3 ->
  exists r, thru_orig x y w = Ok r /\ dims (wls_slope r) n0 n1 1 n3 /\
   forall i c d, i < n0 -> c < n1 -> d < n3 ->
     av (wls_slope r) i c 0 d =
     cdiv (n2n (Some (sumn n2 (fun o => nz (cmul (cmul (av w i c o d) (av x i c o 0)) (av y i c o d))))))
          (n2n (Some (sumn n2 (fun o => nz (cmul (cmul (cmul (av w i c o d) (av x i c o 0)) (av x i c o 0)) (known (av y i c o d))))))).
Proof.
  intros X Y W P0 P1 P2 P3. unfold thru_orig. pose proof X as Dx. pose proof Y as Dy. pose proof W as Dw.
  destruct (bm cmul w x n0 n1 n2 n3) as (wx & -> & A & Av); [fit..|]. cbn [rbind].
  destruct (bm cmul wx x n0 n1 n2 n3) as (wxx & -> & B & Bv); [fit..|]. cbn [rbind].
  destruct (bm cmul wxx (map_arr known y) n0 n1 n2 n3) as (wk & -> & C & Cv); [fit..|]. cbn [rbind].
  destruct (bm cmul wx y n0 n1 n2 n3) as (wy & -> & D & Dv); [fit..|]. cbn [rbind].
  destruct (bm cdiv (map_arr n2n (nansum_axis 2 wy)) (map_arr n2n (nansum_axis 2 wk)) n0 n1 1 n3) as (cf & -> & F & Fv); [fit..|]. cbn [rbind].
  destruct (bm cmul cf x n0 n1 n2 n3) as (fx & -> & G & _); [fit..|]. cbn [rbind].
  destruct (bm cmul fx (map_arr known y) n0 n1 n2 n3) as (ft & -> & H & _); [fit..|]. cbn [rbind].
  destruct (bm csub y ft n0 n1 n2 n3) as (r & -> & I & _); [fit..|]. cbn [rbind].
  destruct (bm sq_resid w r n0 n1 n2 n3) as (r2 & -> & J & _); [fit..|]. cbn [rbind].
  destruct (bm cmul (map_arr known y) (map_arr nonzero_flag w) n0 n1 n2 n3) as (cn & -> & K & _); [fit..|]. cbn [rbind].
  destruct (bm cdiv (nansum_axis 2 r2) (map_arr (fun c : cell => n2n (csub c (Some 1%Qc))) (nansum_axis 2 cn)) n0 n1 1 n3) as (ms & -> & L & _); [fit..|]. cbn [rbind].
  eexists. split; [reflexivity|]. cbn [wls_slope]. split; [exact F|]. intros i c d Hi Hc Hd. rewrite Fv.
  rewrite (bav_row _ n0 n1 n3) by (auto; fit). rewrite (bav_row _ n0 n1 n3) by (auto; fit).
  assert (E2 : ax2 wy = n2) by apply D. assert (E2' : ax2 wk = n2) by apply C.
  cbn [map_arr nansum_axis av]. unfold nansum. rewrite E2, E2'. f_equal; f_equal; f_equal.
  - apply sumn_ext. intros o Ho. rewrite Dv, (bav_full wx n0 n1 n2 n3), Av, (bav_full w n0 n1 n2 n3), (bav_full y n0 n1 n2 n3), (bav_col x n0 n1 n2) by auto. reflexivity.
  - apply sumn_ext. intros o Ho. rewrite Cv, (bav_full wxx n0 n1 n2 n3), Bv, (bav_full wx n0 n1 n2 n3), Av, (bav_full w n0 n1 n2 n3), (bav_full (map_arr known y) n0 n1 n2 n3), !(bav_col x n0 n1 n2) by auto. reflexivity.
Qed.

Lemma known_some q : known (Some q) = Some 1%Qc.
Proof. rewrite known_cases. reflexivity. Qed.
Lemma Qcinv_nz q : q <> 0%Qc -> (/ q)%Qc <> 0%Qc.
Proof. intros H E. apply H. replace q with (q * (/ q * q))%Qc by (field; auto). rewrite E. ring. Qed.
Lemma qpos_nz q : (0 < q)%Qc -> q <> 0%Qc.
Proof. intros H ->. apply Qclt_not_eq in H. congruence. Qed.

Lemma sumn_pos1 n f : 1 <= n -> (forall o, o < n -> (0 < f o)%Qc) -> (0 < sumn n f)%Qc.
Proof. intros N H. apply (sumn_pos n f 0); [lia|apply H; lia|]. intros o Ho. apply Qclt_le_weak, H; auto. Qed.
Lemma qmul_pos a b : (0 < a)%Qc -> (0 < b)%Qc -> (0 < a * b)%Qc.
Proof. intros A B. qnra. Qed.
Lemma sumn_ones n : sumn n (fun _ => 1%Qc) = qc (Z.of_nat n).
Proof. induction n as [|n IH]; [reflexivity|]. cbn [sumn]. rewrite IH. symmetry. apply qc_S. Qed.

(** The weighted slope is the documented average. *)
Lemma base_fit_ok avg x y w n0 n1 n2 n3 X k Y : dims x n0 n1 n2 1 -> dims y n0 n1 n2 n3 -> dims w n0 n1 n2 n3 ->
  1 <= n0 -> 1 <= n1 -> 1 <= n2 -> 1 <= n3 -> List.length avg = n3 ->
  (forall i c o, i < n0 -> c < n1 -> o < n2 -> av x i c o 0 = Some (X i c o) /\ (0 < X i c o)%Qc) ->
  (forall d, d < n3 -> 1 <= k d <= n2) ->
  (forall i c o d, i < n0 -> c < n1 -> o < n2 -> d < n3 -> av y i c o d = if o <? k d then Some (Y i c o d) else None) ->
  (forall i c o d, i < n0 -> c < n1 -> o < n2 -> d < n3 -> av w i c o d = if o <? k d then Some 1%Qc else None) ->
  exists r, base_fit avg x y w = Ok r /\ dims (wls_slope r) n0 n1 1 n3 /\
    forall i c d, i < n0 -> c < n1 -> d < n3 ->
      stores (av (wls_slope r) i c 0 d) (average_rate (nth d avg Regression) (k d) (fun o => X i c o) (fun o => Y i c o d)).
Proof.
  intros Dx Dy Dw P0 P1 P2 P3 La Hx Hk Hy Hw. unfold base_fit.
  destruct (bm cmul (Arr 1 1 1 (List.length avg) (fun _ _ _ d => Some (qc (Z.of_nat (exponent (nth d avg Regression)))))) (map_arr known y) n0 n1 n2 n3)
    as (ex & -> & A & Av); [fit..|]. cbn [rbind].
  destruct (bm (fun a e => cpow a (if Qc_eqb (nz e) 0%Qc then 0 else if Qc_eqb (nz e) 1%Qc then 1 else 2)) x ex n0 n1 n2 n3) as (xe & -> & B & Bv); [fit..|]. cbn [rbind].
  destruct (bm cdiv w xe n0 n1 n2 n3) as (wx & -> & C & Cv); [fit..|]. cbn [rbind].
  destruct (thru_orig_col x y (map_arr n2n wx) n0 n1 n2 n3) as (r & -> & D & Dv); auto.
  exists r. split; [reflexivity|]. split; [exact D|]. intros i c d Hi Hc Hd. rewrite Dv by auto. clear Dv.
  set (a := nth d avg Regression). set (E := fun o => X i c o). set (y' := fun o => Y i c o d).
  assert (Pos : forall o, o < n2 -> (0 < E o)%Qc) by (intros o Ho; apply Hx; auto).
  assert (Wc : forall o, o < n2 -> av (map_arr n2n wx) i c o d = if o <? k d then Some (1 / Qcpow (E o) (exponent a))%Qc else None).
  { intros o Ho. cbn [map_arr av]. rewrite Cv, (bav_full w n0 n1 n2 n3), (bav_full xe n0 n1 n2 n3) by auto. rewrite Hw by auto.
    destruct (Nat.ltb_spec o (k d)) as [L|L]; [|reflexivity].
    rewrite Bv, (bav_col x n0 n1 n2), (bav_full ex n0 n1 n2 n3) by auto. rewrite Av, (bav_list _ n3), (bav_full (map_arr known y) n0 n1 n2 n3) by (auto; fit).
    cbn [map_arr av]. rewrite Hy by auto. destruct (Nat.ltb_spec o (k d)); [|lia]. rewrite known_some. cbn [cmul nz]. rewrite Qcmult_1_r.
    destruct (Hx i c o Hi Hc Ho) as (Ex & Px). rewrite Ex. fold a. pose proof (qpos_nz _ Px) as Nz.
    assert (Ec : cpow (Some (X i c o)) (if Qc_eqb (qc (Z.of_nat (exponent a))) 0%Qc then 0 else if Qc_eqb (qc (Z.of_nat (exponent a))) 1%Qc then 1 else 2) = Some (Qcpow (E o) (exponent a))).
    { destruct a; reflexivity. }
    rewrite Ec. assert (Np : Qcpow (E o) (exponent a) <> 0%Qc).
    { destruct a; cbn [exponent Qcpow]; unfold E; rewrite ?Qcmult_1_r; auto; [discriminate|]. intros Z. apply Qcmult_integral in Z. tauto. }
    cbn [cdiv]. destruct (Qc_eqb_spec (Qcpow (E o) (exponent a)) 0%Qc); [contradiction|]. apply n2n_Some. unfold Qcdiv. rewrite Qcmult_1_l. apply Qcinv_nz; auto. }
  specialize (Hk d Hd).
  assert (N : sumn n2 (fun o => nz (cmul (cmul (av (map_arr n2n wx) i c o d) (av x i c o 0)) (av y i c o d))) = sumn (k d) (fun o => 1 / Qcpow (E o) (exponent a) * E o * y' o)%Qc).
  { replace n2 with (k d + (n2 - k d)) by lia. rewrite sumn_app. rewrite (sumn_zero (n2 - k d)).
    - rewrite Qcplus_0_r. apply sumn_ext. intros o Ho. rewrite Wc, Hy by (auto; lia). destruct (Nat.ltb_spec o (k d)); [|lia].
      destruct (Hx i c o Hi Hc ltac:(lia)) as (-> & _). reflexivity.
    - intros o Ho. rewrite Wc by lia. destruct (Nat.ltb_spec (k d + o) (k d)); [lia|]. reflexivity. }
  assert (M : sumn n2 (fun o => nz (cmul (cmul (cmul (av (map_arr n2n wx) i c o d) (av x i c o 0)) (av x i c o 0)) (known (av y i c o d)))) = sumn (k d) (fun o => 1 / Qcpow (E o) (exponent a) * E o * E o)%Qc).
  { replace n2 with (k d + (n2 - k d)) by lia. rewrite sumn_app. rewrite (sumn_zero (n2 - k d)).
    - rewrite Qcplus_0_r. apply sumn_ext. intros o Ho. rewrite Wc, Hy by (auto; lia). destruct (Nat.ltb_spec o (k d)); [|lia].
      destruct (Hx i c o Hi Hc ltac:(lia)) as (-> & _). rewrite known_some. cbn [cmul nz]. rewrite Qcmult_1_r. reflexivity.
    - intros o Ho. rewrite Wc by lia. destruct (Nat.ltb_spec (k d + o) (k d)); [lia|]. reflexivity. }
  rewrite N, M. clear N M.
  assert (Q : average_rate a (k d) E y' = (sumn (k d) (fun o => 1 / Qcpow (E o) (exponent a) * E o * y' o) / sumn (k d) (fun o => 1 / Qcpow (E o) (exponent a) * E o * E o))%Qc
            /\ (0 < sumn (k d) (fun o => 1 / Qcpow (E o) (exponent a) * E o * E o))%Qc).
  { assert (Ne : forall o, o < k d -> E o <> 0%Qc) by (intros o Ho; apply qpos_nz, Pos; lia).
    destruct a; cbn [average_rate exponent Qcpow].
    - rewrite (sumn_ext (k d) (fun o => 1 / 1 * E o * y' o)%Qc (fun o => E o * y' o)%Qc) by (intros; field; discriminate).
      rewrite (sumn_ext (k d) (fun o => 1 / 1 * E o * E o)%Qc (fun o => E o * E o)%Qc) by (intros; field; discriminate).
      split; [reflexivity|]. apply sumn_pos1; [lia|]. intros o Ho. apply qmul_pos; apply Pos; lia.
    - rewrite (sumn_ext (k d) (fun o => 1 / (E o * 1) * E o * y' o)%Qc y') by (intros o Ho; field; repeat split; try discriminate; auto).
      rewrite (sumn_ext (k d) (fun o => 1 / (E o * 1) * E o * E o)%Qc E) by (intros o Ho; field; repeat split; try discriminate; auto).
      split; [reflexivity|]. apply sumn_pos1; [lia|]. intros o Ho. apply Pos; lia.
    - rewrite (sumn_ext (k d) (fun o => 1 / (E o * (E o * 1)) * E o * y' o)%Qc (fun o => y' o / E o)%Qc) by (intros o Ho; field; repeat split; try discriminate; auto).
      rewrite (sumn_ext (k d) (fun o => 1 / (E o * (E o * 1)) * E o * E o)%Qc (fun _ => 1%Qc)) by (intros o Ho; field; repeat split; try discriminate; auto).
      rewrite sumn_ones. split; [reflexivity|]. apply qc_pos. lia. }
  destruct Q as (-> & Pd). pose proof (qpos_nz _ Pd) as Nd.
  set (N := sumn (k d) (fun o => 1 / Qcpow (E o) (exponent a) * E o * y' o)%Qc) in *. set (D' := sumn (k d) (fun o => 1 / Qcpow (E o) (exponent a) * E o * E o)%Qc) in *.
  rewrite (n2n_Some D') by auto. unfold n2n. destruct (Qc_eqb_spec N 0%Qc) as [Z|Z].
  - cbn [cdiv]. rewrite Z. split; intros; [reflexivity|]. exfalso. apply H. unfold Qcdiv. ring.
  - cbn [cdiv]. destruct (Qc_eqb_spec D' 0%Qc); [contradiction|]. split; intros H; [|reflexivity].
    exfalso. apply Z. replace N with (N / D' * D')%Qc by (field; auto). rewrite H. ring.
Qed.
