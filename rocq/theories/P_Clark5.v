(** Proofs about TailClark. *)
From Coq Require Import Reals Lra Lia.
From Verif Require Import Spec TriFacts ArrFacts NumFacts P_Mack P_Agg P_Bondy P_Clark1 P_Clark2 P_Clark3 P_Clark4 SpecClark.
Local Open Scope nat_scope.

Lemma firstn_map_seq {A} (f : nat -> A) n m : m <= n -> firstn m (map f (seq 0 n)) = map f (seq 0 m).
Proof.
  intros H. replace n with (m + (n - m)) by lia. rewrite seq_app, map_app, firstn_app, firstn_all2 by (rewrite map_length, seq_length; lia).
  rewrite map_length, seq_length, Nat.sub_diag. cbn [firstn]. apply app_nil_r.
Qed.
Lemma count_below (f : nat -> Z) N k (p : Z -> bool) : k <= N -> (forall d, d < k -> p (f d) = true) -> (forall d, k <= d -> d < N -> p (f d) = false) ->
  List.length (filter p (map f (seq 0 N))) = k.
Proof.
  intros H A B. replace N with (k + (N - k)) by lia. rewrite seq_app, map_app, filter_app, app_length.
  rewrite filter_all by (intros x Hx; apply in_map_iff in Hx; destruct Hx as (d & <- & Hd); apply in_seq in Hd; apply A; lia).
  rewrite filter_none by (intros x Hx; apply in_map_iff in Hx; destruct Hx as (d & <- & Hd); apply in_seq in Hd; apply B; lia).
  rewrite map_length, seq_length. cbn. lia.
Qed.
Lemma count_above (f : nat -> Z) N k (p : Z -> bool) : k <= N -> (forall d, d < k -> p (f d) = false) -> (forall d, k <= d -> d < N -> p (f d) = true) ->
  List.length (filter p (map f (seq 0 N))) = N - k.
Proof.
  intros H A B. replace N with (k + (N - k)) at 1 by lia. rewrite seq_app, map_app, filter_app, app_length.
  rewrite filter_none by (intros x Hx; apply in_map_iff in Hx; destruct Hx as (d & <- & Hd); apply in_seq in Hd; apply A; lia).
  rewrite filter_all by (intros x Hx; apply in_map_iff in Hx; destruct Hx as (d & <- & Hd); apply in_seq in Hd; apply B; lia).
  rewrite map_length, seq_length. cbn. lia.
Qed.
Lemma nth_map_seq (f : nat -> Z) N k : k < N -> nth k (map f (seq 0 N)) 0%Z = f k.
Proof. intros H. rewrite (nth_indep _ 0%Z (f 0)) by (rewrite map_length, seq_length; auto). rewrite map_nth, seq_nth by auto. reflexivity. Qed.

Section Tail.
Variables (t l : tri) (n : nat) (g : growth) (om th : nat -> nat -> R) (weights : bool) (aa : option Z) (years k : nat).
Hypothesis I : clark_input t n.
Hypothesis N : named_growth g.
Hypothesis Hom : forall i c, (0 < om i c)%R.
Hypothesis Hth : forall i c, (0 < th i c)%R.
Hypothesis F : clark_factors t l n.
Local Notation total := (tail_length t n years).

Lemma months_step : grain_step (dgrain t) = grain_months (dgrain t).
Proof. destruct (dgrain t); reflexivity. Qed.
Lemma months_z : (0 < grain_months (dgrain t))%Z.
Proof. destruct (dgrain t); reflexivity. Qed.
Lemma ages_projected : ddims t = Ages (map (projected_age t) (seq 0 n)).
Proof using I.
  destruct (cl_square _ _ I) as (o0 & a0 & h & ((H1 & _ & _ & Ed & _) & E2 & E3) & G & L). rewrite E3 in Ed. pose proof (cl_n _ _ I) as Hn.
  rewrite Ed at 1. f_equal. apply map_ext. intros d. unfold projected_age. rewrite Ed, G. cbn [dlist]. rewrite (nth_map_seq (fun k => (a0 + Z.of_nat (h * k))%Z)) by lia. lia.
Qed.
Lemma projected_known d : d < n -> projected_average t d = average_age t d.
Proof using I. intros Hd. unfold projected_average, average_age. rewrite ages_projected. cbn [dlist]. rewrite nth_map_seq by auto. reflexivity. Qed.
Lemma projected_mono d d' : d < d' -> (projected_age t d < projected_age t d')%Z.
Proof. intros H. unfold projected_age. pose proof months_z. nia. Qed.
Lemma projected_average_mono d d' : d < d' -> (projected_average t d < projected_average t d')%R.
Proof. intros H. unfold projected_average. pose proof (IZR_lt _ _ (projected_mono d d' H)). lra. Qed.
Lemma projected_pos d : (0 < projected_average t d)%R.
Proof using I.
  pose proof (cl_n _ _ I). pose proof (average_pos t n I 0 ltac:(lia)) as A. rewrite <- projected_known in A by lia. destruct d as [|d]; auto. pose proof (projected_average_mono 0 (S d) ltac:(lia)). lra.
Qed.
Lemma base_ages : exists b, tail_base t years l = Ok b /\ dlist (ddims b) = map (projected_age t) (seq 0 total) /\ ax3 (values b) = total /\ ax0 (values b) = ax0 (values l) /\ ax1 (values b) = ax1 (values l) /\ ax2 (values b) = ax2 (values l) /\
  kdims b = kdims l /\ vdims b = vdims l /\ odims b = odims l /\ ddims b = Ages (map (projected_age t) (seq 0 total)) /\
  (forall i c o d, av (values b) i c o d = if d <? n - 1 then cel l i c o d else Some 1%Qc).
Proof using I F.
  pose proof (cl_n _ _ I) as Hn. pose proof (cf_d _ _ _ F) as Fd. pose proof (cf_3 _ _ _ F) as F3.
  rewrite ages_projected in Fd. cbn [dmap] in Fd. rewrite firstn_map_seq in Fd by lia.
  assert (E : map (projected_age t) (seq 0 (n - 1)) ++ map (fun j => ((Z.of_nat j + 1) * grain_step (dgrain t) + last (map (projected_age t) (seq 0 (n - 1))) 0)%Z) (seq 0 (S (per_year (dgrain t) * years))) = map (projected_age t) (seq 0 total)).
  { assert (Ls : last (map (projected_age t) (seq 0 (n - 1))) 0%Z = projected_age t (n - 2)).
    { replace (n - 1) with (S (n - 2)) by lia. rewrite seq_S, map_app. cbn [map Nat.add]. apply last_last. }
    rewrite Ls. unfold tail_length. replace (n + periods_per_year (dgrain t) * years) with ((n - 1) + S (per_year (dgrain t) * years)) by (replace (per_year (dgrain t)) with (periods_per_year (dgrain t)) by (destruct (dgrain t); reflexivity); lia).
    rewrite seq_app, map_app. f_equal. cbn [Nat.add]. apply (nth_ext _ _ 0%Z 0%Z); [rewrite !map_length, !seq_length; auto|]. rewrite map_length, seq_length. intros j Hj.
    rewrite (nth_map_seq (fun j => ((Z.of_nat j + 1) * grain_step (dgrain t) + projected_age t (n - 2))%Z)) by auto.
    rewrite (nth_indep _ 0%Z (projected_age t 0)) by (rewrite map_length, seq_length; auto). rewrite map_nth, seq_nth by auto. rewrite months_step. unfold projected_age. replace (Z.of_nat (n - 1 + j)) with (Z.of_nat (n - 2) + Z.of_nat j + 1)%Z by lia. ring. }
  unfold tail_base. rewrite Fd. eexists. split; [reflexivity|]. cbv [set_ddims set_dims set_values]. cbn [ddims dlist values ax0 ax1 ax2 ax3 av kdims vdims odims]. rewrite E, F3.
  split; [auto|]. split. { unfold tail_length. replace (per_year (dgrain t)) with (periods_per_year (dgrain t)) by (destruct (dgrain t); reflexivity). lia. }
  repeat split; auto.
Qed.

(** The factor after the age of position [d]. *)
Definition tail_factor i c d : R :=
  if S d <? total then (growth_curve g (om i c) (th i c) (projected_average t (S d)) / growth_curve g (om i c) (th i c) (projected_average t d))%R
  else (/ growth_curve g (om i c) (th i c) (projected_average t d))%R.
Definition cut_at (trunc : option R) i c : R := match trunc with Some x => growth_curve g (om i c) (th i c) x | None => 1%R end.

Lemma tail_facts trunc : attached t n years aa k -> match trunc with Some x => (0 < x)%R | None => True end ->
  exists r, tail_clark g om th weights aa trunc years t l = Ok r /\
    kdims (rt_frame r) = kdims l /\ vdims (rt_frame r) = vdims l /\ odims (rt_frame r) = odims l /\ ddims (rt_frame r) = Ages (map (projected_age t) (seq 0 total)) /\
    ax0 (values (rt_frame r)) = ax0 (values l) /\ ax1 (values (rt_frame r)) = ax1 (values l) /\ ax2 (values (rt_frame r)) = ax2 (values l) /\ ax3 (values (rt_frame r)) = total /\
    (forall i c o d, d < k -> rt_cell r i c o d = if d <? n - 1 then r_of (cel l i c o d) else Some 1%R) /\
    (forall i c o d, k <= d -> S d < total -> rt_cell r i c o d = Some (tail_factor i c d)) /\
    (forall i c o, rt_cell r i c o (total - 1) = Some (tail_factor i c (total - 1) * cut_at trunc i c)%R).
Proof using I N Hom Hth F.
  intros At Tr. pose proof (cl_n _ _ I) as Hn. destruct base_ages as (b & Eb & Ea & B3 & B0 & B1 & B2 & Bk & Bv & Bo & Bd & Bc).
  destruct (clark_ok t n g om th weights I N Hom Hth) as (ck & Eck & _).
  assert (Tn : n <= total) by (unfold tail_length; lia).
  assert (At' : exists a, match aa with None | Some 0%Z => age_at (dlist (ddims t)) (-2) | Some a => Ok a end = Ok a /\ k < total /\ (forall d, d < k -> (projected_age t d < a)%Z) /\ (a <= projected_age t k)%Z).
  { unfold attached in At. destruct aa as [a|].
    - destruct At as (Na & Hk & A1 & A2). exists a. split; [destruct a; auto; lia|]. auto.
    - exists (projected_age t (n - 2)). replace k with (n - 2) by lia. split.
      + rewrite age_at_2 by (rewrite (cl_len _ _ I); lia). rewrite (cl_len _ _ I). rewrite ages_projected. cbn [dlist]. rewrite nth_map_seq by lia. reflexivity.
      + split; [lia|]. split; [intros d Hd; apply projected_mono; auto|lia]. }
  destruct At' as (a & Eaa & Hk & A1 & A2).
  assert (K1 : List.length (filter (fun x => (x <? a)%Z) (map (projected_age t) (seq 0 total))) = k).
  { apply count_below; [lia| |]; intros d Hd.
    - apply Z.ltb_lt, A1; auto.
    - intros _. apply Z.ltb_ge. destruct (Nat.eq_dec k d) as [<-|]; auto. pose proof (projected_mono k d). lia. }
  assert (K2 : ages_from a (map (projected_age t) (seq 0 total)) = total - k).
  { apply count_above; [lia| |]; intros d Hd.
    - apply Z.leb_gt, A1; auto.
    - intros _. apply Z.leb_le. destruct (Nat.eq_dec k d) as [<-|]; auto. pose proof (projected_mono k d). lia. }
  unfold tail_clark. rewrite Eb. cbn [rbind]. rewrite Eck. cbn [rbind]. rewrite Ea, map_length, seq_length.
  assert (Fa : forallb (fun x => if Rlt_dec (age_offset (dgrain t)) (IZR x) then true else false) (map (projected_age t) (seq 0 total)) = true).
  { apply forallb_forall. intros x Hx. apply in_map_iff in Hx. destruct Hx as (d & <- & _). pose proof (projected_pos d) as P. unfold projected_average in P. rewrite <- offset_half in P. destruct (Rlt_dec (age_offset (dgrain t)) (IZR (projected_age t d))); auto. lra. }
  rewrite Fa. cbn [negb]. rewrite Eaa. cbn [rbind]. rewrite K1, K2.
  assert (Tr' : match trunc with Some x => if Rlt_dec x 0 then Err NotImplementedError else Ok tt | None => Ok tt end = Ok tt) by (destruct trunc as [x|]; auto; destruct (Rlt_dec x 0); auto; lra).
  rewrite Tr'. cbn [rbind].
  assert (Sk : match total - k with 0 => 0 | S _ => total - (total - k) end = k) by (destruct (total - k) eqn:Z; lia).
  rewrite Sk. replace (k + (total - k)) with total by lia. eexists. split; [reflexivity|]. cbv [set_values]. cbn [rt_frame rt_cell kdims vdims odims ddims values ax0 ax1 ax2 ax3].
  split; auto. split; auto. split; auto. split; auto. split; auto. split; auto. split; auto. split; auto.
  assert (Cut : forall i c d, S d < total -> match trunc with Some x => if Req_EM_T x 0 then 1%R else if S d =? total then growth_at g (th i c) (om i c) x else 1%R | None => 1%R end = 1%R).
  { intros i c d Hd. destruct trunc as [x|]; auto. destruct (Req_EM_T x 0); auto. destruct (Nat.eqb_spec (S d) total); auto. lia. }
  assert (Cdf : forall i c d, d < total -> inv_growth g (th i c) (om i c) (IZR (nth d (map (projected_age t) (seq 0 total)) 0%Z) - age_offset (dgrain t)) = Some (/ growth_curve g (om i c) (th i c) (projected_average t d))%R).
  { intros i c d Hd. rewrite nth_map_seq, offset_half by auto. apply inv_growth_curve; auto. apply projected_pos. }
  assert (Nz : forall i c d, growth_curve g (om i c) (th i c) (projected_average t d) <> 0%R) by (intros i c d; pose proof (growth_range g (om i c) (th i c) (Hom i c) (Hth i c) _ (projected_pos d)); lra).
  assert (Ft : forall i c d, d < total -> (if S d <? total then rdiv (inv_growth g (th i c) (om i c) (IZR (nth d (map (projected_age t) (seq 0 total)) 0%Z) - age_offset (dgrain t))) (inv_growth g (th i c) (om i c) (IZR (nth (S d) (map (projected_age t) (seq 0 total)) 0%Z) - age_offset (dgrain t))) else inv_growth g (th i c) (om i c) (IZR (nth d (map (projected_age t) (seq 0 total)) 0%Z) - age_offset (dgrain t))) = Some (tail_factor i c d)).
  { intros i c d Hd. unfold tail_factor. destruct (Nat.ltb_spec (S d) total) as [L|L]; [|apply Cdf; auto]. rewrite !Cdf by lia. cbn [rdiv]. pose proof (Nz i c d) as N1. pose proof (Nz i c (S d)) as N2.
    destruct (Req_EM_T _ 0) as [E|E]; [exfalso; revert E; apply Rinv_neq_0_compat; auto|]. f_equal. field. auto. }
  split; [|split].
  - intros i c o d Hd. destruct (Nat.ltb_spec d k); [|lia]. rewrite Cut by lia. rewrite Bc. destruct (d <? n - 1); [destruct (cel l i c o d) as [q|]; cbn; [f_equal; ring|reflexivity]|]. cbn. f_equal. rewrite rv_1. ring.
  - intros i c o d Hd Ht. destruct (Nat.ltb_spec d k); [lia|]. rewrite Cut by lia. replace (k + (d - k)) with d by lia. rewrite Ft by lia. cbn. f_equal. ring.
  - intros i c o. destruct (Nat.ltb_spec (total - 1) k); [lia|]. replace (k + (total - 1 - k)) with (total - 1) by lia. rewrite Ft by lia. replace (S (total - 1)) with total by lia. rewrite Nat.eqb_refl. cbn [rmul]. do 2 f_equal.
    unfold cut_at. destruct trunc as [x|]; auto. destruct (Req_EM_T x 0); [lra|]. apply growth_at_curve; auto.
Qed.
(** The factors after attachment lead to the ultimate amount. *)
Lemma tail_product i c d : d < total -> rprod_from d total (tail_factor i c) = (/ growth_curve g (om i c) (th i c) (projected_average t d))%R.
Proof using I Hom Hth.
  intros Hd. assert (Nz : forall d, growth_curve g (om i c) (th i c) (projected_average t d) <> 0%R) by (intros x; pose proof (growth_range g (om i c) (th i c) (Hom i c) (Hth i c) _ (projected_pos x)); lra).
  assert (A : forall m, d + m < total -> rprodn m (fun j => tail_factor i c (d + j)) = (growth_curve g (om i c) (th i c) (projected_average t (d + m)) / growth_curve g (om i c) (th i c) (projected_average t d))%R).
  { induction m as [|m IH]; intros H; cbn [rprodn]; [rewrite Nat.add_0_r; field; auto|]. rewrite IH by lia. unfold tail_factor. destruct (Nat.ltb_spec (S (d + m)) total); [|lia]. replace (d + S m) with (S (d + m)) by lia. field. auto. }
  unfold rprod_from. replace (total - d) with (S (total - 1 - d)) by lia. cbn [rprodn]. rewrite A by lia. unfold tail_factor. replace (d + (total - 1 - d)) with (total - 1) by lia. destruct (Nat.ltb_spec (S (total - 1)) total); [lia|]. field. auto.
Qed.
(** An attachment after the last age. *)
Lemma tail_beyond a : aa = Some a -> (projected_age t (total - 1) < a)%Z -> a <> 0%Z ->
  exists r, tail_clark g om th weights aa None years t l = Ok r /\ List.length (dlist (ddims (rt_frame r))) = total /\ ax3 (values (rt_frame r)) = 2 * total /\
    (forall i c o d, d < n - 1 -> rt_cell r i c o d = r_of (cel l i c o d)) /\ (forall i c o d, d < total -> rt_cell r i c o (total + d) = Some (tail_factor i c d)).
Proof using I N Hom Hth F.
  intros -> Ha Na. pose proof (cl_n _ _ I) as Hn. destruct base_ages as (b & Eb & Ea & B3 & B0 & B1 & B2 & Bk & Bv & Bo & Bd & Bc).
  destruct (clark_ok t n g om th weights I N Hom Hth) as (ck & Eck & _).
  assert (Tn : n <= total) by (unfold tail_length; lia).
  assert (A : forall d, d < total -> (projected_age t d < a)%Z). { intros d Hd. destruct (Nat.eq_dec d (total - 1)) as [->|]; auto. pose proof (projected_mono d (total - 1) ltac:(lia)). lia. }
  assert (K1 : List.length (filter (fun x => (x <? a)%Z) (map (projected_age t) (seq 0 total))) = total) by (apply count_below; [lia| |]; intros d Hd; [apply Z.ltb_lt, A; auto|intros; lia]).
  assert (K2 : ages_from a (map (projected_age t) (seq 0 total)) = 0) by (unfold ages_from; rewrite (count_above _ total total); [lia|lia| |]; intros d Hd; [apply Z.leb_gt, A; auto|intros; lia]).
  unfold tail_clark. rewrite Eb. cbn [rbind]. rewrite Eck. cbn [rbind]. rewrite Ea, map_length, seq_length.
  assert (Fa : forallb (fun x => if Rlt_dec (age_offset (dgrain t)) (IZR x) then true else false) (map (projected_age t) (seq 0 total)) = true).
  { apply forallb_forall. intros x Hx. apply in_map_iff in Hx. destruct Hx as (d & <- & _). pose proof (projected_pos d) as P. unfold projected_average in P. rewrite <- offset_half in P. destruct (Rlt_dec (age_offset (dgrain t)) (IZR (projected_age t d))); auto. lra. }
  rewrite Fa. cbn [negb]. assert (Eaa : match a with 0%Z => age_at (dlist (ddims t)) (-2) | _ => Ok a end = Ok a) by (destruct a; auto; lia). rewrite Eaa. cbn [rbind]. rewrite K1, K2, Nat.sub_0_r.
  eexists. split; [reflexivity|]. cbv [set_values]. cbn [rt_frame rt_cell ddims values ax3]. split; [rewrite Ea, map_length, seq_length; auto|]. split; [lia|].
  assert (Cdf : forall i c d, d < total -> inv_growth g (th i c) (om i c) (IZR (nth d (map (projected_age t) (seq 0 total)) 0%Z) - age_offset (dgrain t)) = Some (/ growth_curve g (om i c) (th i c) (projected_average t d))%R).
  { intros i c d Hd. rewrite nth_map_seq, offset_half by auto. apply inv_growth_curve; auto. apply projected_pos. }
  assert (Nz : forall i c d, growth_curve g (om i c) (th i c) (projected_average t d) <> 0%R) by (intros i c d; pose proof (growth_range g (om i c) (th i c) (Hom i c) (Hth i c) _ (projected_pos d)); lra).
  split.
  - intros i c o d Hd. destruct (Nat.ltb_spec d total); [|lia]. rewrite Bc. destruct (Nat.ltb_spec d (n - 1)); [|lia]. destruct (cel l i c o d) as [q|]; cbn; [f_equal; ring|reflexivity].
  - intros i c o d Hd. destruct (Nat.ltb_spec (total + d) total); [lia|]. replace (0 + (total + d - total)) with d by lia. unfold tail_factor. destruct (Nat.ltb_spec (S d) total) as [L|L]; rewrite !Cdf by lia; cbn [rdiv].
    + pose proof (Nz i c d) as N1. pose proof (Nz i c (S d)) as N2. destruct (Req_EM_T _ 0) as [E|E]; [exfalso; revert E; apply Rinv_neq_0_compat; auto|]. cbn. f_equal. field. auto.
    + cbn. f_equal. ring.
Qed.
End Tail.
