(** Positional indexing. *)
From Verif Require Import Num NumFacts Arr Tri ArrFacts Spec TriFacts SpecLoc.
From Coq Require Import Lia ZArith List Arith Psatz Sorted.
Import ListNotations.
Local Open Scope Z_scope.

Lemma posify_ok n z p : stands_for n z p -> posify n z = Ok (Z.of_nat p).
Proof.
  intros (Hp & H). unfold posify. destruct (Z.ltb_spec z (- Z.of_nat n)), (Z.leb_spec (Z.of_nat n) z); cbn [orb]; try lia.
  destruct (Z.ltb_spec z 0); f_equal; lia.
Qed.
Lemma posify_all_ok n l ps : Forall2 (stands_for n) l ps -> posify_all n l = Ok (map Z.of_nat ps).
Proof.
  induction 1 as [|z p l ps H F IH]; auto. cbn [posify_all map]. rewrite (posify_ok _ _ _ H). cbn [rbind]. rewrite IH. reflexivity.
Qed.
Lemma stands_in n l ps x : Forall2 (stands_for n) l ps -> In x ps -> (x < n)%nat.
Proof. induction 1 as [|z p l ps H F IH]; intros []; [subst; apply H|auto]. Qed.

Lemma contig_ok (l : list nat) : l <> [] -> exists s, contig_slice (map Z.of_nat l) = Ok s.
Proof.
  intros H. destruct l as [|a [|b l]]; [congruence|eexists; reflexivity|]. unfold contig_slice. cbn [map zdiffs].
  match goal with |- context [if ?b then _ else _] => destruct b end; [|eauto].
  match goal with |- context [if ?b then _ else _] => destruct b end; eauto.
Qed.

(** Distinct positions, or a list used as it is. *)
Lemma contig_cases (l : list nat) s : contig_slice (map Z.of_nat l) = Ok s ->
  (List.length l = 1%nat \/ exists i, (i < List.length l)%nat /\ nth i l 0%nat <> nth 0 l 0%nat) ->
  NoDup l \/ s = Fancy (map Z.of_nat l).
Proof.
  intros H Hc. destruct l as [|a [|b l]]; [discriminate|left; constructor; [intros []|constructor]|].
  destruct Hc as [Hc|(i & Hi & Hne)]; [cbn in Hc; lia|].
  unfold contig_slice in H. cbn [map] in H. set (L := Z.of_nat a :: Z.of_nat b :: map Z.of_nat l) in *.
  remember (zdiffs L) as D eqn:ED. destruct D as [|d ds]; [unfold L in ED; simpl in ED; discriminate|].
  destruct (Z.eqb_spec (zmaxl ds d) (zminl ds d)) as [Heq|_].
  2:{ right. injection H as <-. reflexivity. }
  left. set (st := zmaxl ds d) in *.
  assert (Hconst : forall x, In x (zdiffs L) -> x = st).
  { intros x Hx. rewrite <- ED in Hx. pose proof (zmaxl_ge ds d x Hx). pose proof (zminl_le ds d x Hx). unfold st in *. lia. }
  pose proof (zdiffs_const (Z.of_nat b :: map Z.of_nat l) st (Z.of_nat a) Hconst) as EL.
  change (Z.of_nat a :: Z.of_nat b :: map Z.of_nat l) with (map Z.of_nat (a :: b :: l)) in EL.
  set (m := S (List.length (Z.of_nat b :: map Z.of_nat l))) in *.
  assert (Lm : List.length (a :: b :: l) = m) by (unfold m; cbn; rewrite map_length; auto).
  assert (N : forall k, (k < m)%nat -> Z.of_nat (nth k (a :: b :: l) 0%nat) = Z.of_nat a + st * Z.of_nat k).
  { intros k Hk. change 0%nat with (Z.to_nat 0) at 1.
    transitivity (nth k (map Z.of_nat (a :: b :: l)) 0).
    - change 0 with (Z.of_nat 0) at 2. rewrite map_nth. reflexivity.
    - rewrite EL, nth_map_seq by auto. reflexivity. }
  assert (Hst : st <> 0).
  { intros E. rewrite Lm in Hi. apply Hne. apply Nat2Z.inj. rewrite !N by lia. rewrite E. lia. }
  apply NoDup_nth with (d := 0%nat). intros x z Hx Hz E. rewrite Lm in *. apply (f_equal Z.of_nat) in E. rewrite !N in E by auto. nia.
Qed.

Lemma fancy_positions (l : list nat) n : (forall x, In x l -> (x < n)%nat) -> positions (Fancy (map Z.of_nat l)) n = Ok l.
Proof.
  intros H. unfold positions.
  replace (forallb (fun z => (0 <=? z) && (z <? Z.of_nat n)) (map Z.of_nat l)) with true.
  - f_equal. rewrite map_map. rewrite <- (map_id l) at 2. apply map_ext. apply Nat2Z.id.
  - symmetry. apply forallb_forall. intros x Hx. apply in_map_iff in Hx. destruct Hx as (z & <- & Hz). apply H in Hz.
    apply andb_true_iff; split; [apply Z.leb_le|apply Z.ltb_lt]; lia.
Qed.

Lemma py_range_nil a b s : s <> 0 -> (0 < s -> b <= a) -> (s < 0 -> a <= b) -> py_range a b s = [].
Proof.
  intros H H1 H2. unfold py_range. destruct (Z.ltb_spec 0 s) as [Hs|Hs].
  - replace (Z.to_nat ((b - a + s - 1) / s)) with 0%nat; auto. specialize (H1 Hs).
    destruct (Z.eq_dec b a) as [->|Hn]; [rewrite Z.div_small by lia; reflexivity|].
    assert ((b - a + s - 1) / s <= 0); [|lia].
    apply Z.lt_succ_r. apply Z.div_lt_upper_bound; lia.
  - replace (Z.to_nat ((a - b - s - 1) / - s)) with 0%nat; auto.
    assert ((a - b - s - 1) / - s <= 0); [|lia].
    apply Z.lt_succ_r. apply Z.div_lt_upper_bound; lia.
Qed.

(** A normalised slice selects what the slice does. *)
Lemma norm_slice a b s n ps : slice_positions a b s n = Ok ps -> plain_key (KSlice a b s) n ps ->
  exists sl, normalize_slice a b s n = Ok sl /\ is_slice sl = true /\ positions sl n = Ok ps.
Proof.
  intros H (Hne & Hk). unfold slice_positions in H. destruct (slice_triple a b s n) as [[[lo hi] st]|e] eqn:E; [|discriminate].
  cbn [rbind] in H. injection H as H.
  assert (Est : st = match s with Some x => x | None => 1 end).
  { unfold slice_triple in E. destruct (_ =? 0); [discriminate|]. destruct (0 <? _); injection E; auto. }
  rewrite <- Est in Hk.
  assert (S0 : st <> 0).
  { unfold slice_triple in E. rewrite <- Est in E. destruct (Z.eqb_spec st 0); [discriminate|auto]. }
  assert (B : (0 < st -> 0 <= lo <= Z.of_nat n /\ 0 <= hi <= Z.of_nat n) /\
              (st < 0 -> -1 <= lo <= Z.of_nat n - 1 /\ -1 <= hi <= Z.of_nat n - 1)).
  { unfold slice_triple, slice_bound in E. rewrite <- Est in E. destruct (Z.eqb_spec st 0); [discriminate|].
    split; intros Hs; destruct (Z.ltb_spec 0 st); try lia; injection E as <- <-;
      (split; [destruct a as [x|]|destruct b as [x|]]; try lia; destruct (Z.ltb_spec x 0); lia). }
  destruct B as (Bp & Bn).
  unfold normalize_slice. rewrite E. cbn [rbind]. eexists. split; [reflexivity|]. split; [reflexivity|].
  unfold positions, slice_positions.
  assert (G : slice_triple (if 0 <? lo then Some lo else None) (if -1 <? hi then if hi =? Z.of_nat n then None else Some hi else None)
     (match (if 0 <? lo then Some lo else None), (if -1 <? hi then if hi =? Z.of_nat n then None else Some hi else None) with
      | None, None => None | _, _ => Some st end) n = Ok (lo, hi, st)).
  2:{ rewrite G. cbn [rbind]. f_equal. auto. }
  destruct (Z.lt_trichotomy st 0) as [Hs|[Hs|Hs]]; [|lia|].
  - specialize (Bn Hs). destruct Hk as [Hk|[(Hk & _)|(_ & Hk)]]; try lia.
    assert (L1 : 0 < lo).
    { destruct (Z.le_gt_cases lo hi) as [Hl|Hl].
      - exfalso. apply Hne. rewrite <- H, py_range_nil by lia. reflexivity.
      - destruct (Z.eq_dec lo 0) as [->|?]; [|lia]. exfalso. apply Hk. rewrite <- H. unfold py_range.
        destruct (Z.ltb_spec 0 st); [lia|]. destruct (Z.to_nat ((0 - hi - st - 1) / - st)) as [|k] eqn:Ek; [reflexivity|].
        cbn [seq map nth]. rewrite Z.mul_0_r. reflexivity. }
    destruct (Z.ltb_spec 0 lo); [|lia]. unfold slice_triple, slice_bound.
    assert (X : (match (if -1 <? hi then if hi =? Z.of_nat n then None else Some hi else None) with Some _ => Some st | None => Some st end) = Some st) by (destruct (if -1 <? hi then _ else _); auto).
    destruct (Z.eqb_spec st 0); [lia|]. destruct (Z.ltb_spec 0 st); [lia|].
    destruct (Z.ltb_spec lo 0); [lia|]. rewrite Z.min_l by lia.
    destruct (Z.ltb_spec (-1) hi).
    + destruct (Z.eqb_spec hi (Z.of_nat n)); [lia|]. destruct (Z.ltb_spec hi 0); [lia|]. rewrite Z.min_l by lia. reflexivity.
    + replace hi with (-1) by lia. reflexivity.
  - specialize (Bp Hs). destruct (Z.ltb_spec (-1) hi); [|lia].
    assert (X : st = 1 \/ ~ (lo = 0 /\ hi = Z.of_nat n)).
    { destruct Hk as [Hk|[(_ & l & h & Eq & Hk)|(Hk & _)]]; [left; auto| |lia]. right. injection Eq as <- <-. auto. }
    unfold slice_triple, slice_bound.
    destruct (Z.ltb_spec 0 lo), (Z.eqb_spec hi (Z.of_nat n));
      repeat match goal with |- context [?x =? 0] => destruct (Z.eqb_spec x 0); [lia|] | |- context [0 <? ?x] => destruct (Z.ltb_spec 0 x); [|lia] | |- context [?x <? 0] => destruct (Z.ltb_spec x 0); [lia|] end;
      rewrite ?Z.min_l by lia; f_equal; f_equal; try f_equal; try lia.
Qed.

Lemma norm_key_ok k n ps : asks_for k n ps -> plain_key k n ps ->
  exists sl, norm_key k n = Ok sl /\ positions sl n = Ok ps /\ (progression ps -> is_slice sl = true).
Proof.
  intros A P. destruct k as [z|a b s|l].
  - destruct A as (p & -> & A). cbn [norm_key]. rewrite (posify_ok _ _ _ A). cbn [rbind].
    exists (Slice (Some (Z.of_nat p)) (Some (Z.of_nat p + 1)) None). split; [reflexivity|]. split; [|auto].
    apply positions_1. apply A.
  - destruct (norm_slice a b s n ps A P) as (sl & E & I & H). exists sl. auto.
  - cbn [norm_key]. rewrite (posify_all_ok _ _ _ A). cbn [rbind]. destruct P as (Hne & Hk).
    destruct (contig_ok ps Hne) as (sl & Es). exists sl. split; [auto|].
    assert (In' : forall x, In x ps -> (x < n)%nat) by (intros x; apply (stands_in n l); auto).
    split.
    + destruct (contig_cases ps sl Es Hk) as [N| ->]; [apply contig_slice_positions; auto|apply fancy_positions; auto].
    + intros (a0 & s & Hs & Hp). destruct ps as [|x [|y r]]; [congruence|cbn in Es; injection Es as <-; reflexivity|].
      unfold contig_slice in Es. cbn [map] in Es. change (Z.of_nat x :: Z.of_nat y :: map Z.of_nat r) with (map Z.of_nat (x :: y :: r)) in Es.
      assert (D : forall q, In q (zdiffs (map Z.of_nat (x :: y :: r))) -> q = s).
      { clear - Hp. remember (x :: y :: r) as L. clear HeqL x y r. revert a0 Hp. induction L as [|u L IH]; intros a0 Hp q Hq; [destruct Hq|].
        destruct L as [|w L]; [destruct Hq|]. cbn [map zdiffs] in Hq. destruct Hq as [<-|Hq].
        - pose proof (Hp 0%nat ltac:(cbn; lia)) as A0. pose proof (Hp 1%nat ltac:(cbn; lia)) as A1. cbn [nth] in A0, A1. lia.
        - apply (IH (a0 + s)); auto. intros k Hk. specialize (Hp (S k) ltac:(cbn in *; lia)). cbn [nth] in *. lia. }
      destruct (zdiffs (map Z.of_nat (x :: y :: r))) as [|d ds] eqn:ED; [discriminate|].
      assert (E1 : zmaxl ds d = s) by (apply D; destruct (zmaxl_in ds d) as [<-|I]; [left; auto|right; auto]).
      assert (E2 : zminl ds d = s) by (apply D; destruct (zminl_in ds d) as [<-|I]; [left; auto|right; auto]).
      rewrite E1, E2, Z.eqb_refl in Es.
      match type of Es with (if ?b then _ else _) = _ => destruct b end; injection Es as <-; reflexivity.
Qed.

Lemma norm_key_slice k n sl : norm_key k n = Ok sl -> match k with KList _ => False | _ => True end -> is_slice sl = true.
Proof.
  destruct k as [z|a b s|l]; cbn [norm_key]; intros H []; auto.
  - destruct (posify n z) as [p|]; [|discriminate]. cbn [rbind contig_slice] in H. injection H as <-. reflexivity.
  - unfold normalize_slice in H. destruct (slice_triple a b s n) as [[[lo hi] st]|]; [|discriminate]. cbn [rbind] in H. injection H as <-. reflexivity.
Qed.

Lemma py_range_bounds a b s n : 0 <= n -> s <> 0 ->
  (0 < s -> 0 <= a <= n /\ 0 <= b <= n) -> (s < 0 -> -1 <= a <= n - 1 /\ -1 <= b <= n - 1) -> forall x, In x (py_range a b s) -> 0 <= x < n.
Proof.
  intros Hn S0 Hp Hm x Hx. unfold py_range in Hx. apply in_map_iff in Hx. destruct Hx as (i & <- & Hi). apply in_seq in Hi.
  destruct (Z.ltb_spec 0 s) as [Hs|Hs].
  - specialize (Hp Hs). assert (Z.of_nat i < (b - a + s - 1) / s) by lia.
    assert (s * ((b - a + s - 1) / s) <= b - a + s - 1) by (apply Z.mul_div_le; lia). nia.
  - specialize (Hm ltac:(lia)). assert (Z.of_nat i < (a - b - s - 1) / - s) by lia.
    assert (- s * ((a - b - s - 1) / - s) <= a - b - s - 1) by (apply Z.mul_div_le; lia). nia.
Qed.
Lemma slice_in_range a b s n ps x : slice_positions a b s n = Ok ps -> In x ps -> (x < n)%nat.
Proof.
  unfold slice_positions, slice_triple. set (st := match s with Some x => x | None => 1 end).
  destruct (Z.eqb_spec st 0) as [|S0]; [discriminate|]. intros H Hx.
  assert (G : forall lo hi, map Z.to_nat (py_range lo hi st) = ps -> (0 < st -> 0 <= lo <= Z.of_nat n /\ 0 <= hi <= Z.of_nat n) ->
     (st < 0 -> -1 <= lo <= Z.of_nat n - 1 /\ -1 <= hi <= Z.of_nat n - 1) -> (x < n)%nat).
  { intros lo hi <- Hp Hm. apply in_map_iff in Hx. destruct Hx as (z & <- & Hz).
    pose proof (py_range_bounds lo hi st (Z.of_nat n) ltac:(lia) S0 Hp Hm z Hz). lia. }
  unfold slice_bound in H. destruct (Z.ltb_spec 0 st); cbn [rbind] in H; injection H as H; apply (G _ _ H); intros; try lia;
    (split; [destruct a as [q|]|destruct b as [q|]]; try lia; destruct (Z.ltb_spec q 0); lia).
Qed.
Lemma asks_in k n ps x : asks_for k n ps -> In x ps -> (x < n)%nat.
Proof.
  destruct k as [z|a b s|l]; cbn [asks_for]; intros A H.
  - destruct A as (p & -> & A & _). destruct H as [<-|[]]. auto.
  - apply (slice_in_range a b s n ps); auto.
  - apply (stands_in n l ps); auto.
Qed.

Lemma nth_sel {A} (l : list A) d0 ix k : (k < List.length ix)%nat -> nth k (sel l d0 ix) d0 = nth (nth k ix 0%nat) l d0.
Proof. intros H. unfold sel. rewrite nth_indep with (d' := nth 0%nat l d0) by (rewrite map_length; auto). apply (map_nth (fun i => nth i l d0)). Qed.

Lemma iloc_ok t k0 k1 k2 k3 p0 p1 p2 p3 : wf t ->
  asks_for k0 (ax0 (values t)) p0 -> asks_for k1 (ax1 (values t)) p1 -> asks_for k2 (ax2 (values t)) p2 -> asks_for k3 (ax3 (values t)) p3 ->
  plain_key k0 (ax0 (values t)) p0 -> plain_key k1 (ax1 (values t)) p1 -> plain_key k2 (ax2 (values t)) p2 -> plain_key k3 (ax3 (values t)) p3 ->
  even_key k2 p2 -> even_key k3 p3 ->
  exists u, iloc t k0 k1 k2 k3 = Ok u /\ taken t u p0 p1 p2 p3 /\ (no_ultimate t -> latest_left t u p2 p3).
Proof.
  intros W A0 A1 A2 A3 P0 P1 P2 P3 E2 E3.
  destruct (norm_key_ok _ _ _ A0 P0) as (s0 & N0 & S0 & _). destruct (norm_key_ok _ _ _ A1 P1) as (s1 & N1 & S1 & _).
  destruct (norm_key_ok _ _ _ A2 P2) as (s2 & N2 & S2 & I2). destruct (norm_key_ok _ _ _ A3 P3) as (s3 & N3 & S3 & I3).
  assert (J2 : is_slice s2 = true) by (destruct k2; [eapply norm_key_slice; eauto; exact I|eapply norm_key_slice; eauto; exact I|auto]).
  assert (J3 : is_slice s3 = true) by (destruct k3; [eapply norm_key_slice; eauto; exact I|eapply norm_key_slice; eauto; exact I|auto]).
  unfold iloc. rewrite N0, N1, N2, N3. cbn [rbind]. unfold get_idx. rewrite J2, J3. cbn [andb negb]. rewrite S0, S1, S2, S3. cbn [rbind].
  set (s := sel_tri t p0 p1 p2 p3).
  assert (L2 : (1 <= List.length p2)%nat) by (destruct p2; [destruct P2; congruence|cbn; lia]).
  assert (L3 : (1 <= List.length p3)%nat) by (destruct p3; [destruct P3; congruence|cbn; lia]).
  assert (Lo : List.length (odims s) = List.length p2) by (unfold s, sel_tri, sel; cbn [odims]; apply map_length).
  assert (Ld : List.length (dlist (ddims s)) = List.length p3).
  { unfold s, sel_tri; cbn [ddims]. destruct (ddims t); cbn [dmap dlist]; unfold sel; apply map_length. }
  unfold clip_vdate. destruct (valuations s) as [|v vs] eqn:Ev.
  { exfalso. assert (In (valuation s 0 0) (valuations s)); [|rewrite Ev in H; destruct H].
    apply in_valuations. exists 0%nat, 0%nat. rewrite Lo, Ld. repeat split; lia. }
  eexists. split; [reflexivity|]. split.
  - constructor; try reflexivity. cbn [ddims set_vdate]. unfold s, sel_tri. cbn [ddims]. destruct (ddims t); reflexivity.
  - intros NU. change (vdate s) with (vdate t).
    assert (M : forall o d, (o < List.length p2)%nat -> (d < List.length p3)%nat ->
       valuation s o d = month_of t (nth o p2 0%nat) (nth d p3 0%nat)).
    { intros o d Ho Hd.
      assert (Po : (nth o p2 0 < ax2 (values t))%nat) by (apply (asks_in k2 _ p2); auto; apply nth_In; auto).
      assert (Pd : (nth d p3 0 < ax3 (values t))%nat) by (apply (asks_in k3 _ p3); auto; apply nth_In; auto).
      unfold valuation, month_of, s, sel_tri. cbn [ddims odims vdate]. unfold no_ultimate in NU.
      pose proof (wf_dev _ W) as Wd. pose proof (wf_d _ W) as Wl.
      destruct (ddims t) as [l|l]; cbn [dmap dlist] in *.
      - unfold age_month. rewrite !nth_sel by auto.
        assert (La : last (sel l 0 p3) 0 <> 9999).
        { rewrite last_nth. assert (Ls : List.length (sel l 0 p3) = List.length p3) by (unfold sel; apply map_length). rewrite Ls, nth_sel by lia. intros E. apply NU. rewrite <- E. apply nth_In.
          rewrite <- Wl. apply (asks_in k3 _ p3); auto. apply nth_In. lia. }
        destruct (Z.eqb_spec (last (sel l 0 p3) 0) ULT_AGE); [exfalso; apply La; auto|]. cbn [andb].
        destruct (Z.eqb_spec (nth (nth d p3 0%nat) l 0) 9999) as [E|E].
        { exfalso. apply NU. rewrite <- E. apply nth_In. rewrite <- Wl. auto. }
        destruct Wd as (_ & Wo & _). rewrite Z.min_l; [lia|]. apply Wo. apply nth_In. rewrite <- (wf_o _ W). auto.
      - apply nth_sel. auto. }
    set (z := zmaxl vs v). unfold latest_left. cbn [vdate set_vdate].
    assert (Iz : In z (v :: vs)) by apply zmaxl_in.
    split; [|split; [lia|]].
    + destruct (Z.le_ge_cases z (vdate t)) as [H|H]; [right|left; lia]. rewrite Z.min_l by lia.
      rewrite <- Ev in Iz. apply in_valuations in Iz. rewrite Lo, Ld in Iz. destruct Iz as (o & d & Ho & Hd & E).
      exists (nth o p2 0%nat), (nth d p3 0%nat). rewrite <- M by auto. repeat split; auto; apply nth_In; auto.
    + intros o d Ho Hd Hv. destruct (In_nth _ _ 0%nat Ho) as (a & Ha & <-). destruct (In_nth _ _ 0%nat Hd) as (b & Hb & <-).
      apply Z.min_glb; auto. apply zmaxl_ge.
      rewrite <- Ev. apply in_valuations. exists a, b. rewrite Lo, Ld. repeat split; auto.
Qed.

Lemma key_list_fancy l n ps : asks_for (KList l) n ps -> plain_key (KList l) n ps -> ~ progression ps ->
  norm_key (KList l) n = Ok (Fancy (map Z.of_nat ps)).
Proof.
  intros A2 P2 NP. cbn [rbind norm_key]. cbn [asks_for] in A2. rewrite (posify_all_ok _ _ _ A2). cbn [rbind].
  destruct P2 as (Hne & Hk). destruct ps as [|x [|y r]]; [congruence| |].
  - exfalso. apply NP. exists (Z.of_nat x), 1. split; [lia|]. intros k Hk'. cbn in Hk'. destruct k; [cbn; lia|lia].
  - unfold contig_slice. cbn [map]. change (Z.of_nat x :: Z.of_nat y :: map Z.of_nat r) with (map Z.of_nat (x :: y :: r)).
    set (L := x :: y :: r) in *. destruct (zdiffs (map Z.of_nat L)) as [|d ds] eqn:ED; [discriminate|].
    destruct (Z.eqb_spec (zmaxl ds d) (zminl ds d)) as [Heq|]; [|reflexivity]. exfalso. apply NP. set (st := zmaxl ds d) in *.
    assert (Hconst : forall z, In z (zdiffs (map Z.of_nat L)) -> z = st).
    { intros z Hz. rewrite ED in Hz. pose proof (zmaxl_ge ds d z Hz). pose proof (zminl_le ds d z Hz). unfold st in *. lia. }
    pose proof (zdiffs_const (Z.of_nat y :: map Z.of_nat r) st (Z.of_nat x) Hconst) as EL.
    change (Z.of_nat x :: Z.of_nat y :: map Z.of_nat r) with (map Z.of_nat L) in EL.
    assert (N : forall k, (k < List.length L)%nat -> Z.of_nat (nth k L 0%nat) = Z.of_nat x + st * Z.of_nat k).
    { intros k Hk'. transitivity (nth k (map Z.of_nat L) 0).
      - change 0 with (Z.of_nat 0) at 1. rewrite map_nth. reflexivity.
      - rewrite EL, nth_map_seq; [reflexivity|]. unfold L in Hk'. cbn [List.length] in *. rewrite map_length. auto. }
    exists (Z.of_nat x), st. split; auto. intros E.
    destruct Hk as [Hk|(i & Hi & Hk)]; [unfold L in Hk; cbn in Hk; lia|]. apply Hk. apply Nat2Z.inj. rewrite !N by (auto; unfold L in *; cbn in *; lia). rewrite E. lia.
Qed.
Lemma iloc_uneven t k0 k1 l k3 p0 p1 p2 p3 :
  asks_for k0 (ax0 (values t)) p0 -> asks_for k1 (ax1 (values t)) p1 -> asks_for (KList l) (ax2 (values t)) p2 -> asks_for k3 (ax3 (values t)) p3 ->
  plain_key k0 (ax0 (values t)) p0 -> plain_key k1 (ax1 (values t)) p1 -> plain_key (KList l) (ax2 (values t)) p2 -> plain_key k3 (ax3 (values t)) p3 ->
  ~ progression p2 -> iloc t k0 k1 (KList l) k3 = Err ValueError.
Proof.
  intros A0 A1 A2 A3 P0 P1 P2 P3 NP.
  destruct (norm_key_ok _ _ _ A0 P0) as (s0 & N0 & _). destruct (norm_key_ok _ _ _ A1 P1) as (s1 & N1 & _).
  destruct (norm_key_ok _ _ _ A3 P3) as (s3 & N3 & _).
  unfold iloc. rewrite N0, N1, N3, (key_list_fancy _ _ _ A2 P2 NP). cbn [rbind]. reflexivity.
Qed.
Lemma iloc_uneven_dev t k0 k1 k2 l p0 p1 p2 p3 :
  asks_for k0 (ax0 (values t)) p0 -> asks_for k1 (ax1 (values t)) p1 -> asks_for k2 (ax2 (values t)) p2 -> asks_for (KList l) (ax3 (values t)) p3 ->
  plain_key k0 (ax0 (values t)) p0 -> plain_key k1 (ax1 (values t)) p1 -> plain_key k2 (ax2 (values t)) p2 -> plain_key (KList l) (ax3 (values t)) p3 ->
  ~ progression p3 -> iloc t k0 k1 k2 (KList l) = Err ValueError.
Proof.
  intros A0 A1 A2 A3 P0 P1 P2 P3 NP.
  destruct (norm_key_ok _ _ _ A0 P0) as (s0 & N0 & _). destruct (norm_key_ok _ _ _ A1 P1) as (s1 & N1 & _).
  destruct (norm_key_ok _ _ _ A2 P2) as (s2 & N2 & _).
  unfold iloc. rewrite N0, N1, N2, (key_list_fancy _ _ _ A3 P3 NP). cbn [rbind]. unfold get_idx. cbn [is_slice]. rewrite andb_false_r. reflexivity.
Qed.
Lemma posify_out n z : z < - Z.of_nat n \/ Z.of_nat n <= z -> posify n z = Err IndexError.
Proof. intros H. unfold posify. destruct (Z.ltb_spec z (- Z.of_nat n)), (Z.leb_spec (Z.of_nat n) z); cbn [orb]; auto; lia. Qed.
Lemma iloc_outside t z k1 k2 k3 : z < - Z.of_nat (ax0 (values t)) \/ Z.of_nat (ax0 (values t)) <= z -> iloc t (KInt z) k1 k2 k3 = Err IndexError.
Proof. intros H. unfold iloc. cbn [norm_key]. rewrite posify_out; auto. Qed.
