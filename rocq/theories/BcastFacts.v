(** Arithmetic between triangles when an operand has a single index row, column,
    origin or development period. *)
From Coq Require Import Lia Sorted.
From Verif Require Export P_Align.
Local Open Scope Z_scope.

Definition shape_ok (t : tri) : Prop :=
  ax0 (values t) = List.length (kdims t) /\ ax1 (values t) = List.length (vdims t) /\
  ax2 (values t) = List.length (odims t) /\ ax3 (values t) = List.length (dlist (ddims t)) /\
  (1 <= ax0 (values t))%nat /\ (1 <= ax1 (values t))%nat /\ (1 <= ax2 (values t))%nat /\ (1 <= ax3 (values t))%nat.

(** The labels used for a pair of operands: the longer of the two lists. *)
Definition pk {A} (n m : nat) (a b : A) : A := if ((n =? 1) && (1 <? m))%nat then b else a.

Definition bframe (x y : tri) : tri :=
  let n0 := List.length (kdims x) in let m0 := List.length (kdims y) in
  Tri (pk n0 m0 (kdims x) (kdims y)) (key_labels x)
      (pk (List.length (vdims x)) (List.length (vdims y)) (vdims x) (vdims y))
      (pk (List.length (odims x)) (List.length (odims y)) (odims x) (odims y))
      (pk (List.length (dlist (ddims x))) (List.length (dlist (ddims y))) (ddims x) (ddims y))
      (values x) (Z.max (vdate x) (vdate y)) (is_cumulative x) (is_pattern x && is_pattern y)%bool
      (ograin x)
      (pk (List.length (dlist (ddims x))) (List.length (dlist (ddims y))) (dgrain x) (dgrain y)).

Definition bc {A} (len : A -> nat) (a b : A) : Prop := b = a \/ len b = 1%nat \/ len a = 1%nat.
Record bcast (x y : tri) : Prop := {
  bc_x : shape_ok x; bc_y : shape_ok y;
  bc_og : ograin y = ograin x;
  bc_dg : dgrain y = dgrain x \/ ax3 (values x) = 1%nat \/ ax3 (values y) = 1%nat;
  bc_kl : key_labels y = key_labels x;
  bc_k : bc (@List.length _) (kdims x) (kdims y);
  bc_v : bc (@List.length _) (vdims x) (vdims y);
  bc_o : bc (@List.length _) (odims x) (odims y);
  bc_d : bc (fun d => List.length (dlist d)) (ddims x) (ddims y) }.

Lemma grain_eqb_eq a b : grain_eqb a b = true -> a = b.
Proof. destruct a, b; simpl; congruence. Qed.

Lemma pk_refl {A} n (a : A) b : pk n n a b = a.
Proof. unfold pk. rewrite one_lt_eqb. reflexivity. Qed.

Lemma prep_columns_bc x y : (1 <= List.length (vdims x))%nat -> (1 <= List.length (vdims y))%nat ->
  ax1 (values x) = List.length (vdims x) -> ax1 (values y) = List.length (vdims y) -> bc (@List.length _) (vdims x) (vdims y) ->
  exists y', prep_columns x y = Ok (set_vdims x (pk (List.length (vdims x)) (List.length (vdims y)) (vdims x) (vdims y)), y') /\
    (y' = y \/ y' = set_vdims y (vdims x)).
Proof.
  intros Lx Ly Ax Ay B. unfold prep_columns, pk.
  assert (Ex : set_vdims x (vdims x) = x) by (destruct x; reflexivity).
  destruct (Nat.eqb_spec (List.length (vdims x)) 1) as [E|E]; cbn [andb].
  - destruct (Nat.ltb_spec 1 (List.length (vdims y))) as [F|F].
    + exists y. auto.
    + destruct (Nat.eqb_spec (List.length (vdims y)) 1) as [G|G]; [|lia]. cbn [andb].
      rewrite E. cbn [Nat.ltb Nat.leb]. rewrite Ex. destruct (negb (strs_eqb (vdims x) (vdims y))) eqn:S.
      * eexists; split; [reflexivity|auto].
      * rewrite Ax, Ay, E, G. cbn [Nat.eqb andb]. apply negb_false_iff in S. rewrite S. eexists; split; [reflexivity|auto].
  - rewrite Ex. destruct (Nat.eqb_spec (List.length (vdims y)) 1) as [G|G].
    + destruct (Nat.ltb_spec 1 (List.length (vdims x))); [|lia]. cbn [andb]. eexists; split; [reflexivity|auto].
    + cbn [andb]. destruct B as [B|[B|B]]; try lia. rewrite Ax, Ay, B, Nat.eqb_refl, strs_eqb_refl. cbn [andb].
      eexists; split; [reflexivity|auto].
Qed.

Lemma set_odims_id t : set_odims t (odims t) = t.
Proof. destruct t; reflexivity. Qed.
Lemma set_ddims_id t : set_ddims t (ddims t) = t.
Proof. destruct t; reflexivity. Qed.
Lemma set_grains_id t : set_grains t (ograin t) (dgrain t) = t.
Proof. destruct t; reflexivity. Qed.

Lemma prep_od_bc s0 s1 x y : (1 <= List.length (odims x))%nat -> (1 <= List.length (odims y))%nat ->
  (1 <= List.length (dlist (ddims x)))%nat -> (1 <= List.length (dlist (ddims y)))%nat ->
  ax2 (values x) = List.length (odims x) -> ax2 (values y) = List.length (odims y) ->
  ax3 (values x) = List.length (dlist (ddims x)) -> ax3 (values y) = List.length (dlist (ddims y)) ->
  bc (@List.length _) (odims x) (odims y) -> bc (fun d => List.length (dlist d)) (ddims x) (ddims y) -> ograin y = ograin x ->
  exists y', prep_origin_dev s0 s1 x y =
    Ok (set_grains (set_ddims (set_odims x (pk (List.length (odims x)) (List.length (odims y)) (odims x) (odims y)))
         (pk (List.length (dlist (ddims x))) (List.length (dlist (ddims y))) (ddims x) (ddims y)))
         (ograin x) (pk (List.length (dlist (ddims x))) (List.length (dlist (ddims y))) (dgrain x) (dgrain y)), y') /\
    values y' = values y /\ kdims y' = kdims y /\ key_labels y' = key_labels y.
Proof.
  intros Lox Loy Ldx Ldy A2x A2y A3x A3y Bo Bd Og. unfold prep_origin_dev. cbv zeta. rewrite A2x, A2y, A3x, A3y.
  match goal with |- context [if (if ((List.length (odims x) =? _)%nat && _)%bool then ?p else ?q) then _ else _] =>
    set (b := if ((List.length (odims x) =? List.length (odims y)) && (List.length (dlist (ddims x)) =? List.length (dlist (ddims y))))%nat then p else q) end.
  assert (Hb : b = true).
  { unfold b. clear b.
    assert (C1 : bcast_ok (List.length (odims x)) (List.length (odims y)) = true).
    { unfold bcast_ok. destruct Bo as [-> | [-> | ->]]; rewrite ?Nat.eqb_refl, ?orb_true_r; auto. }
    assert (C2 : bcast_ok (List.length (dlist (ddims x))) (List.length (dlist (ddims y))) = true).
    { unfold bcast_ok. destruct Bd as [-> | [-> | ->]]; rewrite ?Nat.eqb_refl, ?orb_true_r; auto. }
    rewrite C1, C2. destruct (Nat.eqb_spec (List.length (odims x)) (List.length (odims y))) as [E1|E1]; cbn [andb]; auto.
    destruct (Nat.eqb_spec (List.length (dlist (ddims x))) (List.length (dlist (ddims y)))) as [E2|E2]; auto.
    assert (D1 : (all_differ (odims x) (odims y) && (1 <? List.length (odims x))%nat)%bool = false).
    { destruct Bo as [E|[E|E]]; [rewrite E, all_differ_refl by auto; reflexivity| |];
        destruct (Nat.ltb_spec 1 (List.length (odims x))); try lia; apply andb_false_r. }
    assert (D2 : (ddim_all_differ (ddims x) (ddims y) && (1 <? List.length (dlist (ddims x)))%nat)%bool = false).
    { destruct Bd as [E|[E|E]]; [rewrite E, ddim_all_differ_refl by auto; reflexivity| |];
        destruct (Nat.ltb_spec 1 (List.length (dlist (ddims x)))); try lia; apply andb_false_r. }
    rewrite D1, D2. reflexivity. }
  rewrite Hb. unfold pk.
  destruct (Nat.eqb_spec (List.length (odims y)) 1) as [E1|E1], (Nat.eqb_spec (List.length (odims x)) 1) as [E2|E2];
  destruct (Nat.ltb_spec 1 (List.length (odims y))) as [F1|F1], (Nat.ltb_spec 1 (List.length (odims x))) as [F2|F2]; try lia; cbn [andb];
  destruct (Nat.eqb_spec (List.length (dlist (ddims y))) 1) as [E3|E3], (Nat.eqb_spec (List.length (dlist (ddims x))) 1) as [E4|E4];
  destruct (Nat.ltb_spec 1 (List.length (dlist (ddims y)))) as [F3|F3], (Nat.ltb_spec 1 (List.length (dlist (ddims x)))) as [F4|F4]; try lia; cbn [andb];
  cbn [ddims set_grains set_odims set_ddims set_dims];
  repeat (rewrite ?(proj2 (Nat.eqb_eq _ _) E3), ?(proj2 (Nat.eqb_eq _ _) E4), ?(proj2 (Nat.eqb_neq _ _) E3), ?(proj2 (Nat.eqb_neq _ _) E4),
    ?(proj2 (Nat.ltb_lt _ _) F3), ?(proj2 (Nat.ltb_lt _ _) F4), ?(proj2 (Nat.ltb_ge _ _) F3), ?(proj2 (Nat.ltb_ge _ _) F4)); cbn [andb];
  clear b Hb; destruct x; cbn in *; rewrite ?Og; (eexists; split; [reflexivity|destruct y; cbn; auto]).
Qed.

Lemma prep_index_bc x y : (1 <= List.length (kdims x))%nat -> (1 <= List.length (kdims y))%nat -> key_labels y = key_labels x ->
  bc (@List.length _) (kdims x) (kdims y) ->
  prep_index x y = Ok (Plain (set_kdims x (pk (List.length (kdims x)) (List.length (kdims y)) (kdims x) (kdims y))) (values y)).
Proof.
  intros Lx Ly Hl B. unfold prep_index, pk. rewrite Hl, mem_str_all, strs_eqb_refl. cbn [negb andb orb].
  assert (Id : set_kdims x (kdims x) = x) by (destruct x; reflexivity).
  destruct (Nat.eqb_spec (List.length (kdims x)) 1) as [E|E]; cbn [andb].
  - destruct (Nat.ltb_spec 1 (List.length (kdims y))) as [F|F].
    + destruct x; cbn in *. reflexivity.
    + destruct (Nat.ltb_spec 1 (List.length (kdims x))); [lia|]. cbn [andb]. rewrite Id.
      rewrite !andb_false_r. assert (List.length (kdims y) = List.length (kdims x)) as -> by lia. rewrite Nat.eqb_refl. reflexivity.
  - rewrite Id. destruct (Nat.ltb_spec 1 (List.length (kdims x))) as [F|F]; [|lia]. cbn [andb].
    destruct (Nat.eqb_spec (List.length (kdims y)) 1) as [G|G]; auto.
    destruct B as [B|[B|B]]; try lia. rewrite B, Nat.eqb_refl, keys_eqb_refl. reflexivity.
Qed.

Lemma tri_op_bc op x y : bcast x y -> tri_op op x y = op_arr op (bframe x y) (values y).
Proof.
  intros [(X0 & X1 & X2 & X3 & X4 & X5 & X6 & X7) (Y0 & Y1 & Y2 & Y3 & Y4 & Y5 & Y6 & Y7) Og Dg Kl Bk Bv Bo Bd].
  destruct (lhs_fields x y) as (Lk & Ll & Lv & Lo & Ld & La & Lvd & Lc & Log & Ldg).
  destruct (rhs_fields x y) as (Rk & Rl & Rv & Ro & Rd & Ra & Rvd & Rog & Rdg).
  unfold tri_op. rewrite validate_unfold.
  2:{ unfold compatible. rewrite Og, grain_eqb_refl. cbn [andb]. destruct Dg as [-> | [E|E]]; [rewrite grain_eqb_refl; reflexivity| |];
      (destruct (Nat.ltb_spec 1 (Nat.min (ax3 (values x)) (ax3 (values y)))); [lia|apply orb_true_r]). }
  destruct (prep_columns_bc (lhs x y) (rhs x y)) as (y1 & E1 & Hy1); try (rewrite ?Lv, ?Rv, ?La, ?Ra; lia || (rewrite ?Lv, ?Rv; auto)).
  rewrite E1. cbn [rbind fst snd].
  assert (Y1f : values y1 = values y /\ kdims y1 = kdims y /\ key_labels y1 = key_labels y /\ odims y1 = odims y /\ ddims y1 = ddims y /\ ograin y1 = ograin y /\ dgrain y1 = dgrain y).
  { destruct Hy1 as [-> | ->]; cbn; repeat split; auto. }
  destruct Y1f as (V1 & K1 & KL1 & O1 & D1 & OG1 & DG1).
  set (x1 := set_vdims (lhs x y) _).
  destruct (prep_od_bc (ax0 (values x)) (ax1 (values x)) x1 y1) as (y2 & E2 & V2 & K2 & KL2);
    [solve [unfold x1; cbn [values odims ddims set_vdims set_dims ograin]; rewrite ?V1, ?O1, ?D1, ?OG1, ?La, ?Lo, ?Ld, ?Log; lia || auto]..|].
  rewrite E2. cbn [rbind fst snd]. rewrite prep_index_bc.
  2,3,4,5: unfold x1; cbn [kdims key_labels set_grains set_ddims set_odims set_vdims set_dims]; rewrite ?K2, ?KL2, ?K1, ?KL1, ?Lk, ?Ll; lia || auto.
  cbn [rbind]. rewrite V2, V1. f_equal. unfold bframe, x1.
  cbn [kdims key_labels vdims odims ddims values vdate is_cumulative is_pattern ograin dgrain set_kdims set_grains set_ddims set_odims set_vdims set_dims].
  rewrite ?K2, ?K1, ?Lk, ?Ll, ?Lv, ?Rv, ?Lo, ?O1, ?Ld, ?D1, ?La, ?Lvd, ?Lc, ?pattern_lhs, ?Log, ?Ldg, ?DG1. unfold set_kdims, set_grains, set_ddims, set_odims, set_vdims, set_dims. cbn [kdims key_labels vdims odims ddims values vdate is_cumulative is_pattern ograin dgrain]. rewrite Ll, La, Lvd, Lc, pattern_lhs. reflexivity.
Qed.

(** ** Broadcast arrays *)
Lemma bdim_bc m n : (1 <= m)%nat -> (1 <= n)%nat -> (n = m \/ n = 1 \/ m = 1)%nat -> bdim m n = Ok (Nat.max m n).
Proof.
  intros. unfold bdim. destruct (Nat.eqb_spec m n); [f_equal; lia|]. destruct (Nat.eqb_spec m 1); [f_equal; lia|].
  destruct (Nat.eqb_spec n 1); [f_equal; lia|]. lia.
Qed.
Definition bok (a b : arr) : Prop :=
  ((1 <= ax0 a /\ 1 <= ax0 b /\ (ax0 b = ax0 a \/ ax0 b = 1 \/ ax0 a = 1)) /\
   (1 <= ax1 a /\ 1 <= ax1 b /\ (ax1 b = ax1 a \/ ax1 b = 1 \/ ax1 a = 1)) /\
   (1 <= ax2 a /\ 1 <= ax2 b /\ (ax2 b = ax2 a \/ ax2 b = 1 \/ ax2 a = 1)) /\
   (1 <= ax3 a /\ 1 <= ax3 b /\ (ax3 b = ax3 a \/ ax3 b = 1 \/ ax3 a = 1)))%nat.
Definition bav (a : arr) (i c o d : nat) : cell :=
  av a (bidx (ax0 a) i) (bidx (ax1 a) c) (bidx (ax2 a) o) (bidx (ax3 a) d).
Lemma bmap2_bc f a b : bok a b -> bmap2 f a b = Ok (Arr (Nat.max (ax0 a) (ax0 b)) (Nat.max (ax1 a) (ax1 b))
   (Nat.max (ax2 a) (ax2 b)) (Nat.max (ax3 a) (ax3 b)) (fun i c o d => f (bav a i c o d) (bav b i c o d))).
Proof.
  intros ((A1 & A2 & A3) & (B1 & B2 & B3) & (C1 & C2 & C3) & (D1 & D2 & D3)). unfold bmap2.
  rewrite !bdim_bc by auto. cbn [rbind]. reflexivity.
Qed.
Lemma bcast_bok x y : bcast x y -> bok (values x) (values y).
Proof.
  intros [(X0 & X1 & X2 & X3 & X4 & X5 & X6 & X7) (Y0 & Y1 & Y2 & Y3 & Y4 & Y5 & Y6 & Y7) Og Dg Kl Bk Bv Bo Bd].
  unfold bok. repeat split; auto; rewrite ?X0, ?X1, ?X2, ?X3, ?Y0, ?Y1, ?Y2, ?Y3.
  - destruct Bk as [-> | [-> | ->]]; auto.
  - destruct Bv as [-> | [-> | ->]]; auto.
  - destruct Bo as [-> | [-> | ->]]; auto.
  - destruct Bd as [-> | [-> | ->]]; auto.
Qed.

Definition cop (op : aop) (a b : cell) : cell :=
  match op with OAdd => nz_add a b | OSub => nz_sub a b | OMul => cmul a b | ODiv => cdiv a b end.

(** The result of a broadcast operation, cell by cell. *)
Record bres (op : aop) (x y r : tri) : Prop := {
  br_k : kdims r = kdims (bframe x y); br_kl : key_labels r = key_labels x;
  br_v : vdims r = vdims (bframe x y); br_o : odims r = odims (bframe x y); br_d : ddims r = ddims (bframe x y);
  br_vd : vdate r = Z.max (vdate x) (vdate y);
  br_cum : is_cumulative r = is_cumulative x; br_pat : is_pattern r = (is_pattern x && is_pattern y)%bool;
  br_og : ograin r = ograin x; br_dg : dgrain r = dgrain (bframe x y);
  br_0 : ax0 (values r) = Nat.max (ax0 (values x)) (ax0 (values y));
  br_1 : ax1 (values r) = Nat.max (ax1 (values x)) (ax1 (values y));
  br_2 : ax2 (values r) = Nat.max (ax2 (values x)) (ax2 (values y));
  br_3 : ax3 (values r) = Nat.max (ax3 (values x)) (ax3 (values y));
  br_cell : forall i c o d, cel r i c o d =
     match op with
     | OAdd | OSub => n2n (cmul (cop op (bav (values x) i c o d) (bav (values y) i c o d)) (Some (nz (nan_triangle r o d))))
     | _ => cop op (bav (values x) i c o d) (bav (values y) i c o d)
     end }.

Lemma tri_op_bcast op x y : bcast x y -> exists r, tri_op op x y = Ok r /\ bres op x y r.
Proof.
  intros B. rewrite tri_op_bc by auto. pose proof (bcast_bok x y B) as Hb.
  assert (HH : exists f, op_arr op = (fun t b => do v <- bmap2 f (values t) b; Ok (match op with OAdd | OSub => cleanup (set_values t v) | _ => set_values t v end)) /\
                f = cop op).
  { destruct op; eexists; split; reflexivity. }
  destruct HH as (f & Ef & Hf). rewrite Ef. change (values (bframe x y)) with (values x).
  rewrite (bmap2_bc f _ _ Hb). cbn [rbind]. eexists; split; [reflexivity|]. subst f.
  destruct op; (constructor; [reflexivity..|intros; reflexivity]).
Qed.

(** Lengths of the chosen labels. *)
Lemma pk_len {A} (f : A -> nat) a b : (1 <= f a)%nat -> (1 <= f b)%nat -> (b = a \/ f b = 1 \/ f a = 1)%nat ->
  f (pk (f a) (f b) a b) = Nat.max (f a) (f b).
Proof.
  intros. unfold pk. destruct (Nat.eqb_spec (f a) 1), (Nat.ltb_spec 1 (f b)); cbn [andb]; try lia.
  destruct H1 as [-> | [? | ?]]; lia.
Qed.
Lemma bres_shape op x y r : bcast x y -> bres op x y r -> shape_ok r.
Proof.
  intros B R. pose proof (bcast_bok x y B) as ((A1 & A2 & A3) & (B1 & B2 & B3) & (C1 & C2 & C3) & (D1 & D2 & D3)).
  destruct B as [(X0 & X1 & X2 & X3 & X4 & X5 & X6 & X7) (Y0 & Y1 & Y2 & Y3 & Y4 & Y5 & Y6 & Y7) Og Dg Kl Bk Bv Bo Bd].
  assert (K0 : List.length (kdims r) = Nat.max (ax0 (values x)) (ax0 (values y))).
  { rewrite (br_k _ _ _ _ R). unfold bframe. cbn [kdims]. rewrite (pk_len (@List.length _)); auto; lia. }
  assert (K1 : List.length (vdims r) = Nat.max (ax1 (values x)) (ax1 (values y))).
  { rewrite (br_v _ _ _ _ R). unfold bframe. cbn [vdims]. rewrite (pk_len (@List.length _)); auto; lia. }
  assert (K2 : List.length (odims r) = Nat.max (ax2 (values x)) (ax2 (values y))).
  { rewrite (br_o _ _ _ _ R). unfold bframe. cbn [odims]. rewrite (pk_len (@List.length _)); auto; lia. }
  assert (K3 : List.length (dlist (ddims r)) = Nat.max (ax3 (values x)) (ax3 (values y))).
  { rewrite (br_d _ _ _ _ R). unfold bframe. cbn [ddims]. rewrite (pk_len (fun d => List.length (dlist d))); auto; lia. }
  pose proof (br_0 _ _ _ _ R). pose proof (br_1 _ _ _ _ R). pose proof (br_2 _ _ _ _ R). pose proof (br_3 _ _ _ _ R).
  unfold shape_ok. repeat split; lia.
Qed.

Lemma bidx_lt n i : (i < n)%nat -> bidx n i = i.
Proof. intros H. unfold bidx. destruct (Nat.eqb_spec n 1); lia. Qed.
Lemma bidx_1 i : bidx 1 i = 0%nat.
Proof. reflexivity. Qed.

Lemma wf_shape t : wf t -> (1 <= ax0 (values t))%nat -> (1 <= ax1 (values t))%nat -> shape_ok t.
Proof. intros W H0 H1. destruct W. repeat split; auto. Qed.
