(** Proofs for C17 (valuation filters). *)
From Coq Require Import Lia Sorted.
From Verif Require Export P_Core.
Local Open Scope Z_scope.

Lemma evenly_contig n f : evenly n (fun x => f x = true) -> (exists x, (x < n)%nat /\ f x = true) ->
  exists sl, contig_slice (map Z.of_nat (filter f (seq 0 n))) = Ok sl /\ is_slice sl = true.
Proof.
  intros (a & s & m & Hs & Hap) (x0 & Hx0 & Fx0).
  set (g := fun k => (a + s * k <? n)%nat).
  destruct (filter_prefix g m) as (m' & Hm' & Em').
  { intros x y Hy Hx Hg. unfold g in *. apply Nat.ltb_lt in Hg. apply Nat.ltb_lt. nia. }
  assert (Ec : filter f (seq 0 n) = map (fun k => a + s * k)%nat (seq 0 m')).
  { apply sorted_lt_ext; [apply incr_pos_filter|apply ap_sorted; auto|].
    intros x. rewrite filter_In, in_seq, in_map_iff. split.
    - intros (Hx & Fx). destruct (proj1 (Hap x ltac:(lia)) Fx) as (k & Hk & ->).
      exists k; split; auto. rewrite <- Em'. apply filter_In. split; [apply in_seq; lia|]. apply Nat.ltb_lt; lia.
    - intros (k & <- & Hk). rewrite <- Em' in Hk. apply filter_In in Hk. destruct Hk as [Hk Hlt].
      apply in_seq in Hk. apply Nat.ltb_lt in Hlt. split; [lia|]. apply (Hap _ Hlt). exists k; split; auto; lia. }
  rewrite Ec. apply contig_ap; auto.
  destruct m'; [|lia]. exfalso.
  assert (In x0 (filter f (seq 0 n))) by (apply filter_In; split; auto; apply in_seq; lia).
  rewrite Ec in H. destruct H.
Qed.

Lemma evenly_ext n P Q : (forall x, (x < n)%nat -> (P x <-> Q x)) -> evenly n P -> evenly n Q.
Proof.
  intros H (a & s & m & Hs & Hap). exists a, s, m. split; auto. intros x Hx. rewrite <- H by auto. apply Hap; auto.
Qed.
Lemma evenly_interval n P lo hi : (forall x, (x < n)%nat -> (P x <-> (lo <= x < hi)%nat)) -> evenly n P.
Proof.
  intros H. exists lo, 1%nat, (hi - lo)%nat. split; auto. intros x Hx. rewrite H by auto. split.
  - intros L. exists (x - lo)%nat. lia.
  - intros (k & Hk & ->). lia.
Qed.

Lemma getitem_valuation_ok t key : wf t -> (2 <= ax3 (values t))%nat ->
  (exists o d, (o < ax2 (values t))%nat /\ (d < ax3 (values t))%nat /\ key o d = true) ->
  evenly (ax2 (values t)) (fun o => exists d, (d < ax3 (values t))%nat /\ key o d = true) ->
  evenly (ax3 (values t)) (fun d => exists o, (o < ax2 (values t))%nat /\ key o d = true) ->
  exists u, getitem_valuation t key = Ok u /\ sliced t key u.
Proof.
  intros W Hn Hex Er Ec. unfold getitem_valuation. destruct (Nat.ltb_spec 1 (ax3 (values t))); [|lia].
  destruct Hex as (o0 & d0 & Ho & Hd & Hk).
  destruct (evenly_contig (ax2 (values t)) (fun o => existsb (fun d => key o d) (seq 0 (ax3 (values t))))) as (so & E1 & S1).
  - eapply evenly_ext; [|exact Er]. intros x Hx. cbv beta. rewrite existsb_exists. split.
    + intros (d & A & B). exists d; split; auto. apply in_seq; lia.
    + intros (d & A & B). apply in_seq in A. exists d; split; auto; lia.
  - exists o0. split; auto. apply existsb_exists. exists d0; split; auto. apply in_seq; lia.
  - destruct (evenly_contig (ax3 (values t)) (fun d => existsb (fun o => key o d) (seq 0 (ax2 (values t))))) as (sd & E2 & S2).
    + eapply evenly_ext; [|exact Ec]. intros x Hx. cbv beta. rewrite existsb_exists. split.
      * intros (d & A & B). exists d; split; auto. apply in_seq; lia.
      * intros (d & A & B). apply in_seq in A. exists d; split; auto; lia.
    + exists d0. split; auto. apply existsb_exists. exists o0; split; auto. apply in_seq; lia.
    + eapply slice_valuation_ok; eauto.
Qed.

Lemma in_sel_labels l f o : StronglySorted Z.lt l -> (o < List.length l)%nat ->
  (In (nth o l 0) (sel l 0 (filter f (seq 0 (List.length l)))) <-> f o = true).
Proof.
  intros Hs Ho. unfold sel. rewrite in_map_iff. split.
  - intros (x & E & Hx). apply filter_In in Hx. destruct Hx as [Hx Fx]. apply in_seq in Hx.
    assert (x = o) by (eapply sorted_nth_inj; eauto; lia). congruence.
  - intros F. exists o; split; auto. apply filter_In; split; auto. apply in_seq; lia.
Qed.

Lemma valuation_filter t key : wf t -> (2 <= ax3 (values t))%nat ->
  (exists o d, (o < ax2 (values t))%nat /\ (d < ax3 (values t))%nat /\ key o d = true) ->
  evenly (ax2 (values t)) (fun o => exists d, (d < ax3 (values t))%nat /\ key o d = true) ->
  evenly (ax3 (values t)) (fun d => exists o, (o < ax2 (values t))%nat /\ key o d = true) ->
  exists u, getitem_valuation t key = Ok u /\ wf u /\
    kdims u = kdims t /\ vdims u = vdims t /\ is_cumulative u = is_cumulative t /\
    (forall o, (o < ax2 (values t))%nat ->
       (In (nth o (odims t) 0) (odims u) <-> exists d, (d < ax3 (values t))%nat /\ key o d = true)) /\
    (forall d, (d < ax3 (values t))%nat ->
       (In (nth d (dlist (ddims t)) 0) (dlist (ddims u)) <-> exists o, (o < ax2 (values t))%nat /\ key o d = true)) /\
    (forall i c o d o' d', in_range t i c o d -> in_range u i c o' d' ->
       nth o' (odims u) 0 = nth o (odims t) 0 -> nth d' (dlist (ddims u)) 0 = nth d (dlist (ddims t)) 0 ->
       cel u i c o' d' = if key o d then n2n (cel t i c o d) else None) /\
    vdate u <= vdate t /\
    (forall o d, (o < ax2 (values t))%nat -> (d < ax3 (values t))%nat -> key o d = true -> month_of t o d <= vdate t ->
       month_of t o d <= vdate u) /\
    (vdate u < vdate t -> exists o d, (o < ax2 (values t))%nat /\ (d < ax3 (values t))%nat /\ key o d = true /\ month_of t o d = vdate u).
Proof.
  intros W Hn Hex Er Ec. destruct (getitem_valuation_ok t key W Hn Hex Er Ec) as (u & Eu & Su).
  exists u. split; [exact Eu|]. split; [apply Su|]. split; [apply Su|]. split; [apply Su|]. split; [apply Su|].
  split.
  { intros o Ho. rewrite (sl_o _ _ _ Su). unfold kept_rows. rewrite (wf_o _ W) in *. rewrite in_sel_labels; auto; [|apply W].
    rewrite existsb_exists. split.
    - intros (d & A & B). apply in_seq in A. exists d; split; auto; lia.
    - intros (d & A & B). exists d; split; auto; apply in_seq; lia. }
  split.
  { intros d Hd. rewrite (sl_d _ _ _ Su), dlist_dmap_sel. unfold kept_cols. rewrite (wf_d _ W) in *. rewrite in_sel_labels; auto; [|apply W].
    rewrite existsb_exists. split.
    - intros (o & A & B). apply in_seq in A. exists o; split; auto; lia.
    - intros (o & A & B). exists o; split; auto; apply in_seq; lia. }
  split.
  { intros i c o d o' d' (Ri & Rc & Ro & Rd) (Ri' & Rc' & Ro' & Rd') Eo Ed.
    rewrite (sl_2 _ _ _ Su) in Ro'. rewrite (sl_3 _ _ _ Su) in Rd'.
    rewrite (sl_cell _ _ _ Su) by auto.
    rewrite (sl_o _ _ _ Su), nth_sel in Eo by auto. rewrite (sl_d _ _ _ Su), dlist_dmap_sel, nth_sel in Ed by auto.
    assert (I1 : In (nth o' (kept_rows t key) 0%nat) (kept_rows t key)) by (apply nth_In; auto).
    assert (I2 : In (nth d' (kept_cols t key) 0%nat) (kept_cols t key)) by (apply nth_In; auto).
    apply in_kept_rows in I1. apply in_kept_cols in I2. destruct I1 as [I1 _], I2 as [I2 _].
    apply sorted_nth_inj in Eo; [|apply W|rewrite <- (wf_o _ W); auto|rewrite <- (wf_o _ W); auto].
    apply sorted_nth_inj in Ed; [|apply W|rewrite <- (wf_d _ W); auto|rewrite <- (wf_d _ W); auto].
    rewrite Eo, Ed. reflexivity. }
  split; [apply Su|]. split.
  { intros o d Ho Hd Hk Hm. pose proof (sl_vge _ _ _ Su o d Ho Hd Hk). lia. }
  intros L. destruct (sl_vex _ _ _ Su) as [E|E]; [lia|exact E].
Qed.

(** Filters by a valuation bound always meet the spacing conditions. *)
Lemma prefix_bound n f : (forall x y, (y <= x)%nat -> (x < n)%nat -> f x = true -> f y = true) ->
  exists k, forall x, (x < n)%nat -> (f x = true <-> (x < k)%nat).
Proof.
  intros H. destruct (filter_prefix f n H) as (k & Hk & E). exists k. intros x Hx. split.
  - intros F. assert (In x (seq 0 k)) by (rewrite <- E; apply filter_In; split; auto; apply in_seq; lia). apply in_seq in H0. lia.
  - intros L. assert (In x (filter f (seq 0 n))) by (rewrite E; apply in_seq; lia). apply filter_In in H0. tauto.
Qed.
Lemma evenly_down n (P : nat -> Prop) : (forall x, P x \/ ~ P x) -> (forall x y, (y <= x)%nat -> (x < n)%nat -> P x -> P y) -> evenly n P.
Proof.
  intros Dec H.
  assert (G : forall m, (m <= n)%nat -> exists k, forall x, (x < m)%nat -> (P x <-> (x < k)%nat)).
  { induction m as [|m IH]; intros Hm; [exists 0%nat; intros; lia|].
    destruct IH as (k & Hk); [lia|]. destruct (Dec m) as [Pm|Pm].
    - exists (S m). intros x Hx. split; [lia|]. intros _. apply (H m); auto; lia.
    - exists (Nat.min k m). intros x Hx. destruct (Nat.eq_dec x m) as [->|]; [split; [tauto|lia]|]. rewrite Hk by lia. lia. }
  destruct (G n) as (k & Hk); auto. apply (evenly_interval n P 0 k). intros x Hx. rewrite Hk by auto. lia.
Qed.
Lemma evenly_up n (P : nat -> Prop) : (forall x, P x \/ ~ P x) -> (forall x y, (x <= y)%nat -> (y < n)%nat -> P x -> P y) -> evenly n P.
Proof.
  intros Dec H.
  assert (G : forall m, (m <= n)%nat -> exists k, forall x, (x < m)%nat -> (P x <-> (k <= x)%nat)).
  { induction m as [|m IH]; intros Hm; [exists 0%nat; intros; lia|].
    destruct IH as (k & Hk); [lia|]. destruct (Dec m) as [Pm|Pm].
    - exists (Nat.min k m). intros x Hx. destruct (Nat.eq_dec x m) as [->|]; [split; [lia|auto]|]. rewrite Hk by lia. lia.
    - exists (S m). intros x Hx. split; [|lia]. intros Px. exfalso. apply Pm. apply (H x m); auto; lia. }
  destruct (G n) as (k & Hk); auto. apply (evenly_interval n P k n). intros x Hx. rewrite Hk by auto. lia.
Qed.

Lemma dec_ex n (f : nat -> bool) : (exists d, (d < n)%nat /\ f d = true) \/ ~ (exists d, (d < n)%nat /\ f d = true).
Proof.
  destruct (existsb f (seq 0 n)) eqn:E.
  - left. apply existsb_exists in E. destruct E as (d & Hd & F). apply in_seq in Hd. exists d; split; auto; lia.
  - right. intros (d & Hd & F). assert (existsb f (seq 0 n) = true) by (apply existsb_exists; exists d; split; auto; apply in_seq; lia). congruence.
Qed.

Lemma valuation_upto_evenly t v : wf t -> let key := fun o d => valuation t o d <=? v in
  evenly (ax2 (values t)) (fun o => exists d, (d < ax3 (values t))%nat /\ key o d = true) /\
  evenly (ax3 (values t)) (fun d => exists o, (o < ax2 (values t))%nat /\ key o d = true).
Proof.
  intros W key. split.
  - apply evenly_down; [intros; apply dec_ex|]. intros x y Hy Hx (d & Hd & Hk). exists d; split; auto.
    unfold key in *. rewrite valuation_month in * by (auto; lia). apply Z.leb_le in Hk. apply Z.leb_le.
    pose proof (month_mono_o t y x d W). lia.
  - apply evenly_down; [intros; apply dec_ex|]. intros x y Hy Hx (o & Ho & Hk). exists o; split; auto.
    unfold key in *. rewrite valuation_month in * by (auto; lia). apply Z.leb_le in Hk. apply Z.leb_le.
    pose proof (month_mono t o y x W). lia.
Qed.
Lemma valuation_after_evenly t v : wf t -> let key := fun o d => v <? valuation t o d in
  evenly (ax2 (values t)) (fun o => exists d, (d < ax3 (values t))%nat /\ key o d = true) /\
  evenly (ax3 (values t)) (fun d => exists o, (o < ax2 (values t))%nat /\ key o d = true).
Proof.
  intros W key. split.
  - apply evenly_up; [intros; apply dec_ex|]. intros x y Hy Hx (d & Hd & Hk). exists d; split; auto.
    unfold key in *. rewrite valuation_month in * by (auto; lia). apply Z.ltb_lt in Hk. apply Z.ltb_lt.
    pose proof (month_mono_o t x y d W). lia.
  - apply evenly_up; [intros; apply dec_ex|]. intros x y Hy Hx (o & Ho & Hk). exists o; split; auto.
    unfold key in *. rewrite valuation_month in * by (auto; lia). apply Z.ltb_lt in Hk. apply Z.ltb_lt.
    pose proof (month_mono t o x y W). lia.
Qed.
