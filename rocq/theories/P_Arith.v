(** Arithmetic between triangles with the same axes. *)
From Coq Require Import Lia Sorted.
From Verif Require Export Arith SpecLabel P_Core.
Local Open Scope Z_scope.

Lemma all_differ_refl l : (1 <= List.length l)%nat -> all_differ l l = false.
Proof. destruct l; simpl; [lia|]. intros _. rewrite Z.eqb_refl. reflexivity. Qed.
Lemma ddim_all_differ_refl d : (1 <= List.length (dlist d))%nat -> ddim_all_differ d d = false.
Proof. destruct d; simpl; apply all_differ_refl. Qed.
Lemma bcast_refl n : bcast_ok n n = true.
Proof. unfold bcast_ok. rewrite Nat.eqb_refl. reflexivity. Qed.
Lemma grain_eqb_refl g : grain_eqb g g = true.
Proof. destruct g; reflexivity. Qed.
Lemma one_lt_eqb n : ((n =? 1) && (1 <? n))%nat = false.
Proof. destruct (Nat.eqb_spec n 1); subst; auto. Qed.
Lemma one_lt_eqb' n : ((1 <? n) && (n =? 1))%nat = false.
Proof. rewrite andb_comm. apply one_lt_eqb. Qed.

(** The left operand as it is used: later valuation date, pattern flag dropped
    unless both operands are patterns. *)
Definition lhs (x y : tri) : tri :=
  set_vdate (if Bool.eqb (is_pattern x) (is_pattern y) then x else set_pattern x false) (Z.max (vdate x) (vdate y)).
Definition rhs (x y : tri) : tri :=
  if Bool.eqb (is_pattern x) (is_pattern y) then y else set_pattern y false.

Lemma lhs_fields x y : kdims (lhs x y) = kdims x /\ key_labels (lhs x y) = key_labels x /\ vdims (lhs x y) = vdims x /\
  odims (lhs x y) = odims x /\ ddims (lhs x y) = ddims x /\ values (lhs x y) = values x /\
  vdate (lhs x y) = Z.max (vdate x) (vdate y) /\ is_cumulative (lhs x y) = is_cumulative x /\
  ograin (lhs x y) = ograin x /\ dgrain (lhs x y) = dgrain x.
Proof. unfold lhs. destruct (Bool.eqb _ _); cbn; repeat split. Qed.
Lemma rhs_fields x y : kdims (rhs x y) = kdims y /\ key_labels (rhs x y) = key_labels y /\ vdims (rhs x y) = vdims y /\
  odims (rhs x y) = odims y /\ ddims (rhs x y) = ddims y /\ values (rhs x y) = values y /\ vdate (rhs x y) = vdate y /\
  ograin (rhs x y) = ograin y /\ dgrain (rhs x y) = dgrain y.
Proof. unfold rhs. destruct (Bool.eqb _ _); cbn; repeat split. Qed.

Lemma wf_vdate_up t v : wf t -> vdate t <= v <= ULT_VAL -> wf (set_vdate t v).
Proof.
  intros W Hv. pose proof (wf_dev _ W) as Hd. destruct W. constructor; cbn [kdims vdims odims ddims values vdate set_vdate]; auto; [lia|].
  destruct (ddims t); auto. destruct Hd as (A & B & C). repeat split; auto; try apply A; auto.
  intros o Ho. specialize (B o Ho). lia.
Qed.
Lemma wf_lhs x y : wf x -> wf y -> wf (lhs x y).
Proof.
  intros Wx Wy. pose proof (wf_vd _ Wx). pose proof (wf_vd _ Wy). unfold lhs.
  apply wf_vdate_up; [|destruct (Bool.eqb _ _); cbn [vdate set_pattern]; lia].
  destruct (Bool.eqb _ _); auto. destruct Wx. constructor; cbn; auto.
Qed.
Lemma wf_rhs x y : wf y -> wf (rhs x y).
Proof. intros W. unfold rhs. destruct (Bool.eqb _ _); auto. destruct W. constructor; cbn; auto. Qed.

Lemma validate_unfold x y : compatible x y = true ->
  validate x y = (do xy <- prep_columns (lhs x y) (rhs x y);
                  do xy <- prep_origin_dev (ax0 (values x)) (ax1 (values x)) (fst xy) (snd xy);
                  prep_index (fst xy) (snd xy)).
Proof. intros H. unfold validate. rewrite H. cbn [negb]. reflexivity. Qed.

Lemma prep_columns_same x y : vdims y = vdims x -> ax1 (values y) = ax1 (values x) -> prep_columns x y = Ok (x, y).
Proof.
  intros Hv H1. unfold prep_columns. rewrite Hv, H1, one_lt_eqb.
  rewrite strs_eqb_refl, Nat.eqb_refl. cbn [negb andb]. rewrite andb_false_r. reflexivity.
Qed.
Lemma prep_od_same s0 s1 x y : odims y = odims x -> ddims y = ddims x ->
  ax2 (values y) = ax2 (values x) -> ax3 (values y) = ax3 (values x) ->
  (1 <= List.length (odims x))%nat -> (1 <= List.length (dlist (ddims x)))%nat ->
  prep_origin_dev s0 s1 x y = Ok (x, y).
Proof.
  intros Ho Hd H2 H3 L1 L2. unfold prep_origin_dev.
  rewrite Ho, Hd, H2, H3, !bcast_refl, !Nat.eqb_refl, all_differ_refl, ddim_all_differ_refl by auto.
  rewrite !one_lt_eqb. cbn [andb negb]. rewrite Hd, !one_lt_eqb. reflexivity.
Qed.
Lemma mem_str_all l : subset_str l l = true.
Proof. apply forallb_forall. intros s Hs. apply mem_str_In; auto. Qed.
Lemma prep_index_same x y : kdims y = kdims x -> key_labels y = key_labels x -> prep_index x y = Ok (Plain x (values y)).
Proof.
  intros Hk Hl. unfold prep_index. rewrite Hk, Hl, one_lt_eqb, one_lt_eqb', strs_eqb_refl, mem_str_all, keys_eqb_refl, Nat.eqb_refl.
  cbn [negb andb orb]. rewrite !andb_false_r. reflexivity.
Qed.

Lemma compatible_same x y : ograin y = ograin x -> dgrain y = dgrain x -> compatible x y = true.
Proof. intros H1 H2. unfold compatible. rewrite H1, H2, !grain_eqb_refl. reflexivity. Qed.

Lemma same_axes_shape x y : wf x -> wf y -> same_axes x y ->
  ax0 (values y) = ax0 (values x) /\ ax1 (values y) = ax1 (values x) /\ ax2 (values y) = ax2 (values x) /\ ax3 (values y) = ax3 (values x).
Proof.
  intros Wx Wy S. rewrite (wf_k _ Wx), (wf_k _ Wy), (wf_v _ Wx), (wf_v _ Wy), (wf_o _ Wx), (wf_o _ Wy), (wf_d _ Wx), (wf_d _ Wy).
  destruct S as [-> _ -> -> -> _ _]. auto.
Qed.

Lemma validate_same x y : wf x -> wf y -> same_axes x y -> validate x y = Ok (Plain (lhs x y) (values y)).
Proof.
  intros Wx Wy S. destruct (same_axes_shape x y Wx Wy S) as (E0 & E1 & E2 & E3).
  destruct (lhs_fields x y) as (Lk & Ll & Lv & Lo & Ld & La & Lvd & _ & Log & Ldg).
  destruct (rhs_fields x y) as (Rk & Rl & Rv & Ro & Rd & Ra & Rvd & Rog & Rdg).
  destruct S as [Sk Sl Sv So Sd Sog Sdg].
  rewrite validate_unfold by (apply compatible_same; auto).
  rewrite prep_columns_same by (rewrite ?Rv, ?Lv, ?Ra, ?La; auto). cbn [rbind fst snd].
  rewrite prep_od_same.
  2,3,4,5: rewrite ?Ro, ?Lo, ?Rd, ?Ld, ?Ra, ?La; auto.
  2: rewrite Lo, <- (wf_o _ Wx); apply (wf_o1 _ Wx).
  2: rewrite Ld, <- (wf_d _ Wx); apply (wf_d1 _ Wx).
  cbn [rbind fst snd]. rewrite prep_index_same by (rewrite ?Rk, ?Lk, ?Rl, ?Ll; auto). rewrite Ra. reflexivity.
Qed.

(** [+] and [-] with an array of the same shape. *)
Lemma addsub_arr op x b : is_addsub op -> wf x ->
  ax0 b = ax0 (values x) -> ax1 b = ax1 (values x) -> ax2 b = ax2 (values x) -> ax3 b = ax3 (values x) ->
  exists u, op_arr op x b = Ok u /\ same_frame x u /\ is_cumulative u = is_cumulative x /\ is_pattern u = is_pattern x /\
    forall i c o d, in_range x i c o d ->
      cel u i c o d = if (Nat.min (ax2 (values x)) (ax3 (values x)) =? 1)%nat || negb (vdate x <? month_of x o d)
                      then n2n (Some (qop op (amount x i c o d) (nz (av b i c o d)))) else None.
Proof.
  intros Hop W H0 H1 H2 H3.
  assert (HH : exists f, op_arr op = (fun t b => do v <- bmap2 f (values t) b; Ok (cleanup (set_values t v))) /\
                forall p q, f p q = Some (qop op (nz p) (nz q))).
  { destruct Hop as [-> | ->]; [exists nz_add|exists nz_sub]; split; reflexivity. }
  destruct HH as (f & Ef & Hf). rewrite Ef.
  destruct (bmap2_same f (values x) b H0 H1 H2 H3) as (r & Er & R0 & R1 & R2 & R3 & Rc).
  rewrite Er. cbn [rbind]. eexists; split; [reflexivity|]. unfold cleanup.
  split; [constructor; cbn; auto|]. split; [reflexivity|]. split; [reflexivity|].
  intros i c o d (Hi & Hc & Ho & Hd). unfold cel at 1. cbn [values set_values av].
  assert (W' : wf (set_values x r)) by (apply wf_set_values; auto).
  rewrite nan_triangle_cases by (cbn [values set_values]; rewrite ?R2, ?R3; auto).
  cbn [values set_values vdate]. change (month_of (set_values x r) o d) with (month_of x o d).
  rewrite R2, R3, Rc by auto. rewrite Hf. unfold amount, cel.
  destruct (Nat.min (ax2 (values x)) (ax3 (values x)) =? 1)%nat; cbn [orb].
  - cbn [nz cmul]. rewrite Qcmult_1_r. reflexivity.
  - destruct (vdate x <? month_of x o d); cbn [negb nz cmul].
    + rewrite Qcmult_0_r. apply n2n_0.
    + rewrite Qcmult_1_r. reflexivity.
Qed.

Definition joint (x y u : tri) : Prop :=
  kdims u = kdims x /\ key_labels u = key_labels x /\ vdims u = vdims x /\ odims u = odims x /\ ddims u = ddims x /\
  vdate u = Z.max (vdate x) (vdate y) /\ ograin u = ograin x /\ dgrain u = dgrain x /\
  is_cumulative u = is_cumulative x /\ is_pattern u = (is_pattern x && is_pattern y)%bool.

Lemma pattern_lhs x y : is_pattern (lhs x y) = (is_pattern x && is_pattern y)%bool.
Proof. unfold lhs. destruct (is_pattern x) eqn:E1, (is_pattern y) eqn:E2; cbn; auto. Qed.

Lemma addsub_same op x y : is_addsub op -> wf x -> wf y -> same_axes x y -> blank_future x -> blank_future y ->
  exists u, tri_op op x y = Ok u /\ wf u /\ joint x y u /\ same_axes x u /\ blank_future u /\
    forall i c o d, in_range x i c o d -> stores (cel u i c o d) (qop op (amount x i c o d) (amount y i c o d)).
Proof.
  intros Hop Wx Wy S Bx By. unfold tri_op. rewrite validate_same by auto. cbn [rbind].
  destruct (same_axes_shape x y Wx Wy S) as (E0 & E1 & E2 & E3).
  destruct (lhs_fields x y) as (Lk & Ll & Lv & Lo & Ld & La & Lvd & Lc & Log & Ldg).
  pose proof (wf_lhs x y Wx Wy) as Wl.
  destruct (addsub_arr op (lhs x y) (values y) Hop Wl) as (u & Eu & F & Hc & Hp & Hcell); [rewrite La; auto..|].
  exists u. split; [exact Eu|].
  assert (Wu : wf u) by (eapply wf_same_frame; eauto). split; [exact Wu|].
  assert (J : joint x y u).
  { unfold joint. destruct F. rewrite pattern_lhs in Hp. repeat split; congruence. }
  split; [exact J|]. unfold joint in J. destruct J as (J1 & J2 & J3 & J4 & J5 & J6 & J7 & J8 & J9 & J10).
  split; [constructor; auto|].
  assert (Hm : forall o d, month_of (lhs x y) o d = month_of x o d) by (intros; unfold month_of; rewrite Lo, Ld; auto).
  assert (Hmy : forall o d, month_of y o d = month_of x o d) by (intros; unfold month_of; rewrite (sa_o _ _ S), (sa_d _ _ S); auto).
  assert (HS : forall i c o d, in_range x i c o d -> stores (cel u i c o d) (qop op (amount x i c o d) (amount y i c o d))).
  { intros i c o d R. rewrite Hcell by (unfold in_range; rewrite La; exact R). rewrite La, Lvd, Hm.
    assert (Ea : amount (lhs x y) i c o d = amount x i c o d) by (unfold amount, cel; rewrite La; auto).
    rewrite Ea. fold (cel y i c o d) (amount y i c o d).
    destruct (Nat.min (ax2 (values x)) (ax3 (values x)) =? 1)%nat; cbn [orb]; [apply stores_n2n|].
    destruct (Z.ltb_spec (Z.max (vdate x) (vdate y)) (month_of x o d)) as [Hf|Hf]; cbn [negb]; [|apply stores_n2n].
    assert (Ex : amount x i c o d = 0%Qc) by (unfold amount; rewrite Bx; auto; unfold future; lia).
    assert (Ey : amount y i c o d = 0%Qc).
    { unfold amount; rewrite By; auto; [unfold in_range in *; rewrite E0, E1, E2, E3; auto|unfold future; rewrite Hmy; lia]. }
    rewrite Ex, Ey. destruct Hop as [-> | ->]; apply stores_None. }
  split; [|exact HS].
  intros i c o d R Hf. assert (Rx : in_range x i c o d).
  { unfold in_range in *. destruct F as [_ _ _ _ _ _ _ _ F0 F1 F2 F3]. rewrite F0, F1, F2, F3, La in R. exact R. }
  unfold future in Hf. unfold month_of in Hf. rewrite J4, J5, J6 in Hf. fold (month_of x o d) in Hf.
  pose proof (HS i c o d Rx) as Hst.
  assert (Ex : amount x i c o d = 0%Qc) by (unfold amount; rewrite Bx; auto; unfold future; lia).
  assert (Ey : amount y i c o d = 0%Qc).
  { unfold amount; rewrite By; auto; [unfold in_range in *; rewrite E0, E1, E2, E3; auto|unfold future; rewrite Hmy; lia]. }
  rewrite Ex, Ey in Hst. apply Hst. destruct Hop as [-> | ->]; reflexivity.
Qed.

Lemma same_axes_sym x y : same_axes x y -> same_axes y x.
Proof. intros [? ? ? ? ? ? ?]; constructor; auto. Qed.
Lemma same_axes_trans x y z : same_axes x y -> same_axes y z -> same_axes x z.
Proof. intros [? ? ? ? ? ? ?] [? ? ? ? ? ? ?]; constructor; congruence. Qed.
Lemma range_same_axes x y i c o d : wf x -> wf y -> same_axes x y -> in_range x i c o d -> in_range y i c o d.
Proof. intros Wx Wy S. destruct (same_axes_shape _ _ Wx Wy S) as (A & B & C & D). unfold in_range. rewrite A, B, C, D. auto. Qed.
Lemma stores_unique a b q : stores a q -> stores b q -> a = b.
Proof.
  intros [A1 A2] [B1 B2]. destruct (Qc_eqb_spec q 0%Qc) as [E|E].
  - rewrite A1, B1; auto.
  - rewrite A2, B2; auto.
Qed.
Lemma stores_eq a q q' : stores a q -> q = q' -> stores a q'.
Proof. intros H <-. exact H. Qed.

(** ** The laws *)
Lemma add_comm x y : wf x -> wf y -> same_axes x y -> blank_future x -> blank_future y ->
  exists u v, tri_op OAdd x y = Ok u /\ tri_op OAdd y x = Ok v /\ same_content u v.
Proof.
  intros Wx Wy S Bx By. pose proof (same_axes_sym _ _ S) as S'.
  destruct (addsub_same OAdd x y (or_introl eq_refl) Wx Wy S Bx By) as (u & Eu & Wu & Ju & Su & _ & Hu).
  destruct (addsub_same OAdd y x (or_introl eq_refl) Wy Wx S' By Bx) as (v & Ev & Wv & Jv & Sv & _ & Hv).
  exists u, v. split; [auto|]. split; [auto|].
  destruct Ju as (J1 & J2 & J3 & J4 & J5 & J6 & _). destruct Jv as (K1 & K2 & K3 & K4 & K5 & K6 & _).
  destruct S' as [? ? ? ? ? ? ?]. constructor; try congruence; [rewrite J6, K6; apply Z.max_comm|].
  intros i c o d R. apply (range_same_axes u x) in R; auto using same_axes_sym.
  eapply stores_unique; [apply Hv; eapply range_same_axes; [| |exact S|]; auto|].
  eapply stores_eq; [apply Hu; auto|]. cbn. apply Qcplus_comm.
Qed.

Lemma add_assoc x y z : wf x -> wf y -> wf z -> same_axes x y -> same_axes x z ->
  blank_future x -> blank_future y -> blank_future z ->
  exists xy l yz r, tri_op OAdd x y = Ok xy /\ tri_op OAdd xy z = Ok l /\
                    tri_op OAdd y z = Ok yz /\ tri_op OAdd x yz = Ok r /\ same_content l r.
Proof.
  intros Wx Wy Wz S T Bx By Bz.
  destruct (addsub_same OAdd x y (or_introl eq_refl) Wx Wy S Bx By) as (u & Eu & Wu & Ju & Su & Bu & Hu).
  assert (Suz : same_axes u z) by exact (same_axes_trans _ _ _ (same_axes_sym _ _ Su) T).
  destruct (addsub_same OAdd u z (or_introl eq_refl) Wu Wz Suz Bu Bz) as (l & El & Wl & Jl & Sl & Bl & Hl).
  assert (Syz : same_axes y z) by exact (same_axes_trans _ _ _ (same_axes_sym _ _ S) T).
  destruct (addsub_same OAdd y z (or_introl eq_refl) Wy Wz Syz By Bz) as (v & Ev & Wv & Jv & Sv & Bv & Hv).
  assert (Sxv : same_axes x v) by exact (same_axes_trans _ _ _ S Sv).
  destruct (addsub_same OAdd x v (or_introl eq_refl) Wx Wv Sxv Bx Bv) as (r & Er & Wr & Jr & Sr & Br & Hr).
  exists u, l, v, r. do 4 (split; [auto|]).
  destruct Ju as (J1 & J2 & J3 & J4 & J5 & J6 & _). destruct Jl as (K1 & K2 & K3 & K4 & K5 & K6 & _).
  destruct Jv as (M1 & M2 & M3 & M4 & M5 & M6 & _). destruct Jr as (N1 & N2 & N3 & N4 & N5 & N6 & _).
  constructor; try congruence; [rewrite K6, N6, J6, M6; lia|].
  intros i c o d R.
  assert (Rx : in_range x i c o d).
  { eapply range_same_axes; [exact Wl|exact Wx| |exact R]. exact (same_axes_sym _ _ (same_axes_trans _ _ _ Su Sl)). }
  eapply stores_unique; [apply Hr; auto|].
  eapply stores_eq; [apply Hl; eapply range_same_axes; [exact Wx|exact Wu| |]; auto|]. cbn [qop].
  assert (E1 : amount u i c o d = (amount x i c o d + amount y i c o d)%Qc).
  { unfold amount at 1. apply stores_nz. apply (Hu i c o d Rx). }
  assert (E2 : amount v i c o d = (amount y i c o d + amount z i c o d)%Qc).
  { unfold amount at 1. apply stores_nz. apply (Hv i c o d). eapply range_same_axes; [exact Wx|exact Wy| |]; auto. }
  rewrite E1, E2. symmetry. apply Qcplus_assoc.
Qed.

Lemma add_sub_cancel x y : wf x -> wf y -> same_axes x y -> blank_future x -> blank_future y ->
  exists u v, tri_op OAdd x y = Ok u /\ tri_op OSub u y = Ok v /\ same_axes x v /\ vdate v = Z.max (vdate x) (vdate y) /\
    forall i c o d, in_range x i c o d -> stores (cel v i c o d) (amount x i c o d).
Proof.
  intros Wx Wy S Bx By.
  destruct (addsub_same OAdd x y (or_introl eq_refl) Wx Wy S Bx By) as (u & Eu & Wu & Ju & Su & Bu & Hu).
  assert (Suy : same_axes u y) by exact (same_axes_trans _ _ _ (same_axes_sym _ _ Su) S).
  destruct (addsub_same OSub u y (or_intror eq_refl) Wu Wy Suy Bu By) as (v & Ev & Wv & Jv & Sv & Bv & Hv).
  exists u, v. do 2 (split; [auto|]). split; [exact (same_axes_trans _ _ _ Su Sv)|].
  destruct Ju as (J1 & J2 & J3 & J4 & J5 & J6 & _). destruct Jv as (K1 & K2 & K3 & K4 & K5 & K6 & _).
  split; [rewrite K6, J6; lia|]. intros i c o d R.
  eapply stores_eq; [apply Hv; eapply range_same_axes; [exact Wx|exact Wu| |]; auto|]. cbn [qop].
  assert (E1 : amount u i c o d = (amount x i c o d + amount y i c o d)%Qc).
  { unfold amount at 1. apply stores_nz. apply (Hu i c o d R). }
  rewrite E1. ring.
Qed.

Lemma sub_self x : wf x -> blank_future x ->
  exists u, tri_op OSub x x = Ok u /\ same_axes x u /\ forall i c o d, in_range x i c o d -> cel u i c o d = None.
Proof.
  intros W B. assert (S : same_axes x x) by (constructor; auto).
  destruct (addsub_same OSub x x (or_intror eq_refl) W W S B B) as (u & Eu & Wu & Ju & Su & Bu & Hu).
  exists u. split; [auto|]. split; [auto|]. intros i c o d R. destruct (Hu i c o d R) as [H _]. apply H. cbn. ring.
Qed.

Lemma qsum_cons a l : qsum (a :: l) = (a + qsum l)%Qc.
Proof. reflexivity. Qed.
(** Python's sum of a list of triangles. *)
Lemma py_sum_ok t l : wf t -> blank_future t -> Forall (fun u => wf u /\ blank_future u /\ same_axes t u) l ->
  exists s, py_sum (t :: l) = Ok s /\ same_axes t s /\ wf s /\ blank_future s /\
    vdate s = zmaxl (map vdate l) (vdate t) /\
    forall i c o d, in_range t i c o d ->
      amount s i c o d = qsum (map (fun u => amount u i c o d) (t :: l)).
Proof.
  intros W B H. unfold py_sum, radd_scalar. rewrite Qc_eqb_refl.
  assert (G : forall l s q, wf s -> blank_future s -> same_axes t s -> Forall (fun u => wf u /\ blank_future u /\ same_axes t u) l ->
    (forall i c o d, in_range t i c o d -> amount s i c o d = q i c o d) ->
    exists r, fold_left (fun acc u => do a <- acc; tri_op OAdd a u) l (Ok s) = Ok r /\ same_axes t r /\ wf r /\ blank_future r /\
      vdate r = fold_left Z.max (map vdate l) (vdate s) /\
      forall i c o d, in_range t i c o d -> amount r i c o d = (q i c o d + qsum (map (fun u => amount u i c o d) l))%Qc).
  { clear l H. induction l as [|u l IH]; intros s q Ws Bs Ss Hl Hq.
    - exists s. cbn [fold_left map]. split; [auto|]. split; [auto|]. split; [auto|]. split; [auto|]. split; [auto|]. intros. rewrite Hq by auto. change (qsum []) with 0%Qc. ring.
    - inversion Hl as [|? ? (Wu & Bu & Su) Hl']; subst.
      assert (Ssu : same_axes s u) by exact (same_axes_trans _ _ _ (same_axes_sym _ _ Ss) Su).
      destruct (addsub_same OAdd s u (or_introl eq_refl) Ws Wu Ssu Bs Bu) as (v & Ev & Wv & Jv & Sv & Bv & Hv).
      cbn [fold_left rbind]. rewrite Ev.
      destruct (IH v (fun i c o d => (q i c o d + amount u i c o d)%Qc) Wv Bv (same_axes_trans _ _ _ Ss Sv) Hl') as (r & Er & Sr & Wr & Br & Vr & Hr).
      { intros i c o d R. unfold amount at 1. rewrite (stores_nz _ _ (Hv i c o d (range_same_axes _ _ _ _ _ _ W Ws Ss R))). cbn. rewrite Hq; auto. }
      exists r. split; [auto|]. split; [auto|]. split; [auto|]. split; [auto|]. split.
      + rewrite Vr. cbn. destruct Jv as (_ & _ & _ & _ & _ & -> & _). reflexivity.
      + intros i c o d R. rewrite Hr by auto. cbn [map]. rewrite qsum_cons. ring. }
  assert (St : same_axes t t) by (constructor; auto).
  destruct (G l t (amount t) W B St H (fun _ _ _ _ _ => eq_refl)) as (r & Er & Sr & Wr & Br & Vr & Hr).
  exists r. split; [auto|]. split; [auto|]. split; [auto|]. split; [auto|]. split.
  - rewrite Vr. clear. generalize (vdate t). induction (map vdate l) as [|a m IH]; intros v; simpl; auto.
    rewrite IH. clear IH. revert a v. induction m as [|b m IH]; intros a v; simpl; [lia|]. rewrite IH. lia.
  - intros i c o d R. rewrite Hr by auto. reflexivity.
Qed.
