(** Proofs about Berquist-Sherman: one-column triangles on the labels of a square triangle. *)
From Coq Require Import Lia.
From Verif Require Import Spec TriFacts ArrFacts ConvFacts SliceFacts P_Core P_Filter P_Arith P_Agg P_Corr5 P_Additive2 P_Select2 BcastFacts NumFacts SpecLoc SpecCorr Berq.
Local Open Scope nat_scope.

(** [u] has one column, the index rows of [t], its origins ([fo]) or one, its ages ([fd]) or one, and the cells [f]. *)
Record part (t : tri) (n : nat) (fo fd : bool) (v : Z) (u : tri) (f : nat -> nat -> nat -> cell) : Prop := {
  pt_k : kdims u = kdims t; pt_kl : key_labels u = key_labels t; pt_v : List.length (vdims u) = 1;
  pt_o : if fo then odims u = odims t else List.length (odims u) = 1;
  pt_d : if fd then ddims u = ddims t else List.length (dlist (ddims u)) = 1;
  pt_og : ograin u = ograin t; pt_dg : fd = true -> dgrain u = dgrain t; pt_vd : vdate u = v;
  pt_0 : ax0 (values u) = ax0 (values t); pt_1 : ax1 (values u) = 1;
  pt_2 : ax2 (values u) = if fo then n else 1; pt_3 : ax3 (values u) = if fd then n else 1;
  pt_cell : forall i o d, i < ax0 (values t) -> o < (if fo then n else 1) -> d < (if fd then n else 1) -> cel u i 0 o d = f i o d }.

Section Part.
Variables (t : tri) (n h : nat) (o0 a0 : Z).
Hypotheses (W : wf t) (Q : square t n o0 a0 h) (Hn : 2 <= n) (H0 : 1 <= ax0 (values t)).

Lemma part_shape fo fd v u f : part t n fo fd v u f -> shape_ok u.
Proof using W Q Hn H0.
  intros P. pose proof Q as (_ & E2 & E3). pose proof (wf_k _ W). pose proof (wf_o _ W) as Wo. pose proof (wf_d _ W) as Wd.
  pose proof (pt_o _ _ _ _ _ _ _ P) as Po. pose proof (pt_d _ _ _ _ _ _ _ P) as Pd.
  unfold shape_ok. rewrite (pt_0 _ _ _ _ _ _ _ P), (pt_1 _ _ _ _ _ _ _ P), (pt_2 _ _ _ _ _ _ _ P), (pt_3 _ _ _ _ _ _ _ P), (pt_k _ _ _ _ _ _ _ P), (pt_v _ _ _ _ _ _ _ P).
  assert (T1 : (if fo then n else 1) = List.length (odims u)) by (destruct fo; [rewrite Po|]; congruence).
  assert (T2 : (if fd then n else 1) = List.length (dlist (ddims u))) by (destruct fd; [rewrite Pd|]; congruence).
  repeat split; auto; try lia; destruct fo, fd; lia.
Qed.
Lemma part_wf v u f : part t n true true v u f -> (vdate t <= v <= ULT_VAL)%Z -> wf u.
Proof using W Q Hn H0.
  intros P V. destruct (part_shape _ _ _ _ _ P) as (A & B & C & D & E & F & G & I). pose proof (wf_dev _ W) as Dv.
  constructor; auto.
  - rewrite (pt_o _ _ _ _ _ _ _ P). apply W.
  - rewrite (pt_d _ _ _ _ _ _ _ P). apply W.
  - rewrite (pt_vd _ _ _ _ _ _ _ P). lia.
  - rewrite (pt_d _ _ _ _ _ _ _ P), (pt_o _ _ _ _ _ _ _ P), (pt_vd _ _ _ _ _ _ _ P). destruct (ddims t); auto. destruct Dv as (X & Y & Z). repeat split; try apply X; auto. intros o Ho. specialize (Y o Ho). lia.
Qed.
Lemma part_month v u f o d : part t n true true v u f -> month_of u o d = month_of t o d.
Proof. intros P. unfold month_of. rewrite (pt_o _ _ _ _ _ _ _ P), (pt_d _ _ _ _ _ _ _ P). reflexivity. Qed.
Lemma part_valuation v u f o d : part t n true true v u f -> (vdate t <= v <= ULT_VAL)%Z -> o < n -> d < n -> valuation u o d = month_of t o d.
Proof using W Q Hn H0.
  intros P V Ho Hd. rewrite <- (part_month v u f) by auto. apply valuation_month; [eapply part_wf; eauto|..]; rewrite ?(pt_2 _ _ _ _ _ _ _ P), ?(pt_3 _ _ _ _ _ _ _ P); auto.
Qed.
(** The cell can be known at date [v]. *)
Definition seen (v : Z) (o d : nat) : bool := negb (v <? month_of t o d)%Z.
Lemma part_nan v u f o d : part t n true true v u f -> (vdate t <= v <= ULT_VAL)%Z -> o < n -> d < n -> nan_triangle u o d = if seen v o d then Some 1%Qc else None.
Proof using W Q Hn H0.
  intros P V Ho Hd. unfold nan_triangle. rewrite (pt_2 _ _ _ _ _ _ _ P), (pt_3 _ _ _ _ _ _ _ P), (pt_vd _ _ _ _ _ _ _ P), (part_valuation v u f) by auto.
  destruct (Nat.eqb_spec (Nat.min n n) 1); [lia|]. unfold seen. destruct (v <? month_of t o d)%Z; reflexivity.
Qed.
Lemma seen_now o d : o < n -> d < n -> seen (vdate t) o d = (o + d <? n).
Proof using Q Hn H0. intros Ho Hd. unfold seen. pose proof (square_future _ _ _ _ _ o d Q Ho Hd) as F. unfold future in F. destruct (Z.ltb_spec (vdate t) (month_of t o d)), (Nat.ltb_spec (o + d) n); cbn; auto; lia. Qed.
Lemma seen_ult o d : o < n -> d < n -> seen ULT_VAL o d = true.
Proof using W Q Hn H0.
  intros Ho Hd. unfold seen. pose proof Q as (R & E2 & E3). destruct (Z.ltb_spec ULT_VAL (month_of t o d)) as [L|]; auto. exfalso.
  pose proof (wf_dev _ W) as D. destruct R as (H1 & _ & Ro & Rd & R9 & _). rewrite Rd in D. destruct D as (_ & _ & D).
  rewrite (square_month _ _ _ _ _ _ _ Q Ho Hd) in L. specialize (D (o0 + Z.of_nat (h * 1 * o))%Z (a0 + Z.of_nat (h * d))%Z).
  rewrite Ro in D. specialize (D ltac:(apply in_map_iff; exists o; split; auto; apply in_seq; lia) ltac:(apply in_map_iff; exists d; split; auto; apply in_seq; lia) ltac:(apply R9; lia)). nia.
Qed.

Definition pick (b : bool) (k : nat) : nat := if b then k else 0.
Definition joined (op : aop) (m : bool) (x y : cell) : cell :=
  match op with OAdd | OSub => if m then n2n (cop op x y) else None | _ => cop op x y end.
Lemma part_op op fo fd v v' u w f g : part t n true true v u f -> part t n fo fd v' w g -> (vdate t <= Z.max v v' <= ULT_VAL)%Z ->
  exists r, tri_op op u w = Ok r /\ part t n true true (Z.max v v') r (fun i o d => joined op (seen (Z.max v v') o d) (f i o d) (g i (pick fo o) (pick fd d))) /\ vdims r = vdims u.
Proof using W Q Hn H0.
  intros P P' V. pose proof (part_shape _ _ _ _ _ P) as S. pose proof (part_shape _ _ _ _ _ P') as S'.
  pose proof (pt_o _ _ _ _ _ _ _ P) as Po. pose proof (pt_d _ _ _ _ _ _ _ P) as Pd. pose proof (pt_o _ _ _ _ _ _ _ P') as Po'. pose proof (pt_d _ _ _ _ _ _ _ P') as Pd'.
  pose proof Q as (_ & E2 & E3). pose proof (wf_o _ W) as Wo. pose proof (wf_d _ W) as Wd.
  assert (B : bcast u w).
  { constructor; auto.
    - rewrite (pt_og _ _ _ _ _ _ _ P), (pt_og _ _ _ _ _ _ _ P'). reflexivity.
    - destruct fd; [left; rewrite (pt_dg _ _ _ _ _ _ _ P), (pt_dg _ _ _ _ _ _ _ P'); auto|right; right; apply (pt_3 _ _ _ _ _ _ _ P')].
    - rewrite (pt_kl _ _ _ _ _ _ _ P), (pt_kl _ _ _ _ _ _ _ P'). reflexivity.
    - left. rewrite (pt_k _ _ _ _ _ _ _ P), (pt_k _ _ _ _ _ _ _ P'). reflexivity.
    - right. left. apply (pt_v _ _ _ _ _ _ _ P').
    - destruct fo; [left; congruence|right; left; auto].
    - destruct fd; [left; congruence|right; left; auto]. }
  destruct (tri_op_bcast op u w B) as (r & E & R). exists r. split; [exact E|].
  assert (F : kdims r = kdims t /\ vdims r = vdims u /\ odims r = odims t /\ ddims r = ddims t /\ dgrain r = dgrain t).
  { rewrite (br_k _ _ _ _ R), (br_v _ _ _ _ R), (br_o _ _ _ _ R), (br_d _ _ _ _ R), (br_dg _ _ _ _ R). unfold bframe, pk. cbn [kdims vdims odims ddims dgrain].
    rewrite (pt_k _ _ _ _ _ _ _ P), (pt_k _ _ _ _ _ _ _ P'), (pt_v _ _ _ _ _ _ _ P), (pt_v _ _ _ _ _ _ _ P'), Po, Pd, (pt_dg _ _ _ _ _ _ _ P eq_refl).
    rewrite <- Wo, E2, <- Wd, E3. destruct (Nat.eqb_spec n 1); [lia|]. cbn [andb Nat.eqb Nat.ltb Nat.leb].
    split; [destruct (_ && _)%bool; reflexivity|auto]. }
  destruct F as (F1 & F2 & F3 & F4 & F5). split; [|exact F2].
  assert (R0 : part t n true true (Z.max v v') r (fun i o d => cel r i 0 o d)).
  { constructor; auto.
    - rewrite (br_kl _ _ _ _ R). apply P.
    - rewrite F2. apply P.
    - rewrite (br_og _ _ _ _ R). apply P.
    - rewrite (br_vd _ _ _ _ R), (pt_vd _ _ _ _ _ _ _ P), (pt_vd _ _ _ _ _ _ _ P'). reflexivity.
    - rewrite (br_0 _ _ _ _ R), (pt_0 _ _ _ _ _ _ _ P), (pt_0 _ _ _ _ _ _ _ P'). lia.
    - rewrite (br_1 _ _ _ _ R), (pt_1 _ _ _ _ _ _ _ P), (pt_1 _ _ _ _ _ _ _ P'). reflexivity.
    - rewrite (br_2 _ _ _ _ R), (pt_2 _ _ _ _ _ _ _ P), (pt_2 _ _ _ _ _ _ _ P'). destruct fo; lia.
    - rewrite (br_3 _ _ _ _ R), (pt_3 _ _ _ _ _ _ _ P), (pt_3 _ _ _ _ _ _ _ P'). destruct fd; lia. }
  destruct R0 as [G1 G2 G3 G4 G5 G6 G7 G8 G9 G10 G11 G12 G13]. pose proof (Build_part t n true true _ r _ G1 G2 G3 G4 G5 G6 G7 G8 G9 G10 G11 G12 G13) as R0. constructor; auto.
  intros i o d Hi Ho Hd. rewrite (br_cell _ _ _ _ R).
  assert (Bu : bav (values u) i 0 o d = f i o d).
  { unfold bav. rewrite (pt_0 _ _ _ _ _ _ _ P), (pt_1 _ _ _ _ _ _ _ P), (pt_2 _ _ _ _ _ _ _ P), (pt_3 _ _ _ _ _ _ _ P), !bidx_lt by auto. apply (pt_cell _ _ _ _ _ _ _ P); auto. }
  assert (Bw : bav (values w) i 0 o d = g i (pick fo o) (pick fd d)).
  { unfold bav. rewrite (pt_0 _ _ _ _ _ _ _ P'), (pt_1 _ _ _ _ _ _ _ P'), (pt_2 _ _ _ _ _ _ _ P'), (pt_3 _ _ _ _ _ _ _ P'), (bidx_lt _ i) by auto. change (bidx 1 0) with 0.
    rewrite <- (pt_cell _ _ _ _ _ _ _ P'); auto; [|destruct fo; cbn; lia|destruct fd; cbn; lia]. unfold cel. f_equal; destruct fo, fd; cbn [pick]; rewrite ?bidx_1, ?bidx_lt by auto; reflexivity. }
  rewrite Bu, Bw, (part_nan _ _ _ o d R0 V Ho Hd). unfold joined. destruct op; auto; destruct (seen (Z.max v v') o d); cbn [nz cop nz_add nz_sub cmul]; try (rewrite Qcmult_1_r; reflexivity);
    unfold cop, nz_add, nz_sub, cmul; rewrite Qcmult_0_r; unfold n2n; destruct (Qc_eqb_spec 0%Qc 0%Qc); congruence.
Qed.
End Part.
