(** Link ratios of outstanding amounts: weights, ratios and their averages. *)
From Coq Require Import Lia.
From Verif Require Export Outst P_Berq1 P_Berq2 P_Agg DevFit P_Methods P_Dev.
From Verif Require Export SpecBerq SpecDev.
Local Open Scope nat_scope.

(** One column with the index of [t] and given origins and ages. *)
Record blk (t : tri) (od : list Z) (dd : ddim) (v : Z) (u : tri) (f : nat -> nat -> nat -> cell) : Prop := {
  b_k : kdims u = kdims t; b_kl : key_labels u = key_labels t; b_v : List.length (vdims u) = 1;
  b_o : odims u = od; b_d : ddims u = dd; b_og : ograin u = ograin t; b_dg : dgrain u = dgrain t; b_vd : vdate u = v;
  b_0 : ax0 (values u) = ax0 (values t); b_1 : ax1 (values u) = 1;
  b_2 : ax2 (values u) = List.length od; b_3 : ax3 (values u) = List.length (dlist dd);
  b_cell : forall i o d, i < ax0 (values t) -> o < List.length od -> d < List.length (dlist dd) -> cel u i 0 o d = f i o d }.

Lemma blk_ext t od dd v u f g : blk t od dd v u f -> (forall i o d, i < ax0 (values t) -> o < List.length od -> d < List.length (dlist dd) -> f i o d = g i o d) -> blk t od dd v u g.
Proof. intros [] E. constructor; auto. intros. rewrite <- E by auto. auto. Qed.

Lemma sorted_seq (g : nat -> Z) j k : (forall x y, x < y -> (g x < g y)%Z) -> StronglySorted Z.lt (map g (seq j k)).
Proof.
  intros M. revert j. induction k; intros j; cbn; constructor; auto. apply Forall_forall. intros x Hx. apply in_map_iff in Hx. destruct Hx as (q & <- & Hq). apply in_seq in Hq. apply M. lia.
Qed.

Lemma nth_seq_map {A} (g : nat -> A) j k o x : o < k -> nth o (map g (seq j k)) x = g (j + o).
Proof. intros H. rewrite (nth_indep _ x (g 0)) by (rewrite map_length, seq_length; auto). rewrite map_nth, seq_nth by auto. reflexivity. Qed.

Section Out.
Variables (t : tri) (n h : nat) (o0 a0 : Z).
Hypotheses (W : wf t) (B : blank_future t) (Q : square t n o0 a0 h) (Hn : 3 <= n) (H0 : 1 <= ax0 (values t)).

Lemma part_blk v u f : part t n true true v u f -> blk t (odims t) (ddims t) v u f.
Proof using All.
  intros P. pose proof Q as (_ & E2 & E3). pose proof (wf_o _ W) as Wo. pose proof (wf_d _ W) as Wd. destruct P as [Pk Pkl Pv Po Pd Pog Pdg Pvd P0 P1 P2 P3 Pc]. cbn in *.
  constructor; auto; try congruence. intros. apply Pc; auto; congruence.
Qed.
Lemma blk_part v u f : blk t (odims t) (ddims t) v u f -> part t n true true v u f.
Proof using All.
  intros P. pose proof Q as (_ & E2 & E3). pose proof (wf_o _ W) as Wo. pose proof (wf_d _ W) as Wd. destruct P as [Pk Pkl Pv Po Pd Pog Pdg Pvd P0 P1 P2 P3 Pc].
  constructor; auto; try congruence. intros. apply Pc; auto; congruence.
Qed.

Definition orgs (j k : nat) : list Z := map (fun q => (o0 + Z.of_nat (h * 1 * q))%Z) (seq j k).
Definition agl (j k : nat) : list Z := map (fun q => (a0 + Z.of_nat (h * q))%Z) (seq j k).
Lemma t_orgs : odims t = orgs 0 n.
Proof using All. destruct Q as ((_ & _ & Ro & _) & E2 & _). rewrite Ro, E2. reflexivity. Qed.
Lemma t_ages : ddims t = Ages (agl 0 n).
Proof using All. destruct Q as ((_ & _ & _ & Rd & _) & _ & E3). rewrite Rd, E3. reflexivity. Qed.
Lemma orgs_len j k : List.length (orgs j k) = k.
Proof using. unfold orgs. rewrite map_length, seq_length. reflexivity. Qed.
Lemma agl_len j k : List.length (agl j k) = k.
Proof using. unfold agl. rewrite map_length, seq_length. reflexivity. Qed.
Lemma h_pos : 1 <= h.
Proof using All. apply Q. Qed.

(** The last month that any origin can reach. *)
Lemma grid_month u j k j' k' v f o d : blk t (orgs j k) (Ages (agl j' k')) v u f -> j' + k' <= n -> o < k -> d < k' ->
  month_of u o d = (o0 + a0 - 1 + Z.of_nat h * Z.of_nat (j + o + (j' + d)))%Z.
Proof using All.
  intros P L Ho Hd. unfold month_of. rewrite (b_o _ _ _ _ _ _ P), (b_d _ _ _ _ _ _ P). unfold age_month, orgs, agl. rewrite !nth_seq_map by auto.
  pose proof Q as ((_ & _ & _ & _ & R9 & _) & _ & E3). assert (a0 + Z.of_nat (h * (j' + d)) <> 9999)%Z by (apply R9; lia).
  destruct (Z.eqb_spec (a0 + Z.of_nat (h * (j' + d))) 9999); [lia|nia].
Qed.
Lemma grid_wf u j k j' k' v f : blk t (orgs j k) (Ages (agl j' k')) v u f -> j + k <= n -> j' + k' <= n -> 1 <= k -> 1 <= k' ->
  (vdate t <= v <= ULT_VAL)%Z -> wf u.
Proof using All.
  intros P L L' K K' V. pose proof (wf_k _ W) as Wk. pose proof (wf_dev _ W) as Wd. rewrite t_ages in Wd. destruct Wd as (D1 & D2 & D3). rewrite t_orgs in D2, D3.
  assert (IO : forall x, In x (orgs j k) -> In x (orgs 0 n)). { unfold orgs. intros x Hx. apply in_map_iff in Hx. destruct Hx as (q & <- & Hq). apply in_seq in Hq. apply in_map_iff. exists q. split; auto. apply in_seq. lia. }
  assert (IA : forall x, In x (agl j' k') -> In x (agl 0 n)). { unfold agl. intros x Hx. apply in_map_iff in Hx. destruct Hx as (q & <- & Hq). apply in_seq in Hq. apply in_map_iff. exists q. split; auto. apply in_seq. lia. }
  constructor.
  - rewrite (b_0 _ _ _ _ _ _ P), (b_k _ _ _ _ _ _ P). auto.
  - rewrite (b_1 _ _ _ _ _ _ P), (b_v _ _ _ _ _ _ P). auto.
  - rewrite (b_2 _ _ _ _ _ _ P), (b_o _ _ _ _ _ _ P). auto.
  - rewrite (b_3 _ _ _ _ _ _ P), (b_d _ _ _ _ _ _ P). auto.
  - rewrite (b_2 _ _ _ _ _ _ P), orgs_len. auto.
  - rewrite (b_3 _ _ _ _ _ _ P). cbn. rewrite agl_len. auto.
  - rewrite (b_o _ _ _ _ _ _ P). unfold orgs. apply sorted_seq. pose proof h_pos. intros. nia.
  - rewrite (b_d _ _ _ _ _ _ P). cbn. unfold agl. apply sorted_seq. pose proof h_pos. intros. nia.
  - rewrite (b_vd _ _ _ _ _ _ P). lia.
  - rewrite (b_d _ _ _ _ _ _ P), (b_o _ _ _ _ _ _ P), (b_vd _ _ _ _ _ _ P). split; [intros; apply D1; auto|]. split; [intros o Ho; specialize (D2 o (IO o Ho)); lia|].
    intros o a Ho Ha. apply D3; auto.
Qed.

(** Slices of ages. *)
Lemma sel_seq_map {A} (g : nat -> A) x j k m : j + k <= m -> sel (map g (seq 0 m)) x (seq j k) = map g (seq j k).
Proof using. clear. intros H. unfold sel. apply map_ext_in. intros q Hq. apply in_seq in Hq. rewrite nth_map_seq by lia. reflexivity. Qed.
Lemma blk_slice u od dd v f (l : list Z) id w : blk t od (Ages l) v u f -> dd = Ages (sel l 0%Z id) -> wf u -> incr_pos id (List.length l) ->
  clipped (sel_dev u id) w -> blk t od dd (vdate w) w (fun i o d => f i o (nth d id 0)).
Proof using All.
  intros P -> Wu I C. pose proof (cl_eq _ _ C) as E. pose proof (wf_k _ Wu) as Wk. pose proof (wf_v _ Wu) as Wv. pose proof (wf_o _ Wu) as Wo.
  pose proof (b_k _ _ _ _ _ _ P) as Pk. pose proof (b_o _ _ _ _ _ _ P) as Po. pose proof (b_d _ _ _ _ _ _ P) as Pd.
  pose proof (b_0 _ _ _ _ _ _ P) as P0. pose proof (b_1 _ _ _ _ _ _ P) as P1. pose proof (b_2 _ _ _ _ _ _ P) as P2. pose proof (b_3 _ _ _ _ _ _ P) as P3. cbn [dlist] in P3.
  rewrite E. unfold set_vdate, sel_dev, sel_tri. constructor; cbn [kdims key_labels vdims odims ddims ograin dgrain vdate values ax0 ax1 ax2 ax3].
  - rewrite Wk. rewrite sel_seq_all; auto.
  - apply P.
  - rewrite Wv, sel_seq_all; auto. apply P.
  - rewrite P2, sel_seq_all; auto. rewrite Po. auto.
  - rewrite Pd. reflexivity.
  - apply P.
  - apply P.
  - reflexivity.
  - cbn [sel_arr ax0]. rewrite seq_length. auto.
  - cbn [sel_arr ax1]. rewrite seq_length. auto.
  - cbn [sel_arr ax2]. rewrite seq_length. auto.
  - cbn [sel_arr ax3 dlist]. unfold sel. rewrite map_length. reflexivity.
  - intros i o d Hi Ho Hd. cbn [dlist] in Hd. unfold sel in Hd. rewrite map_length in Hd. unfold cel. cbn [values set_vdate av]. unfold sel_arr. cbn [av].
    rewrite !seq_nth by lia. cbn [Nat.add]. apply (b_cell _ _ _ _ _ _ P); auto. cbn [dlist]. apply I. apply nth_In. auto.
Qed.

(** Products and quotients with arrays of the same origins and ages. *)
Lemma blk_arr op b u od dd v f : op = OMul \/ op = ODiv -> blk t od dd v u f -> 1 <= List.length od -> 1 <= List.length (dlist dd) ->
  ax0 b = ax0 (values t) \/ ax0 b = 1 -> ax1 b = 1 -> ax2 b = List.length od \/ ax2 b = 1 -> ax3 b = List.length (dlist dd) \/ ax3 b = 1 ->
  exists r, op_arr op u b = Ok r /\ blk t od dd v r (fun i o d => cop op (f i o d) (bav b i 0 o d)) /\ vdims r = vdims u /\ same_flags u r.
Proof using All.
  intros Hop P Lo Ld S0 S1 S2 S3. pose proof (b_0 _ _ _ _ _ _ P) as P0. pose proof (b_1 _ _ _ _ _ _ P) as P1. pose proof (b_2 _ _ _ _ _ _ P) as P2. pose proof (b_3 _ _ _ _ _ _ P) as P3.
  destruct (op_arr_ok op u b) as (r & E & R); [unfold bok; repeat split; lia|]. exists r. split; auto. pose proof (ar_fl _ _ _ _ R) as Fl. split; [|split; [apply R|auto]].
  destruct Fl as (F1 & F2 & F3 & F4). constructor.
  - rewrite (ar_k _ _ _ _ R). apply P.
  - rewrite (ar_kl _ _ _ _ R). apply P.
  - rewrite (ar_v _ _ _ _ R). apply P.
  - rewrite (ar_o _ _ _ _ R). apply P.
  - rewrite (ar_d _ _ _ _ R). apply P.
  - rewrite F3. apply P.
  - rewrite F4. apply P.
  - rewrite (ar_vd _ _ _ _ R). apply P.
  - rewrite (ar_0 _ _ _ _ R). lia.
  - rewrite (ar_1 _ _ _ _ R). lia.
  - rewrite (ar_2 _ _ _ _ R). lia.
  - rewrite (ar_3 _ _ _ _ R). lia.
  - intros i o d Hi Ho Hd. rewrite (ar_cell _ _ _ _ R). rewrite bav_in by lia. change (av (values u) i 0 o d) with (cel u i 0 o d). rewrite (b_cell _ _ _ _ _ _ P) by auto.
    destruct Hop as [-> | ->]; reflexivity.
Qed.

(** Sums and means over origins. *)
Lemma blk_over_origins a v u od dd f : blk t od dd v u f -> a = ASum \/ a = AMean -> 2 <= List.length od -> 2 <= List.length (dlist dd) \/ 2 <= ax0 (values t) ->
  exists s, aggregate a (Some AxOrigin) false u = Ok (AggTri s) /\ is_cumulative s = is_cumulative u /\ is_pattern s = is_pattern u /\
    blk t (firstn 1 od) dd v s (fun i _ d => n2n (agg_line a (map (fun o => f i o d) (seq 0 (List.length od))))).
Proof using All.
  intros P A Lo Ld. exists (agg_axis a u AxOrigin). pose proof (b_o _ _ _ _ _ _ P) as Po.
  pose proof (b_0 _ _ _ _ _ _ P) as P0. pose proof (b_2 _ _ _ _ _ _ P) as P2. pose proof (b_3 _ _ _ _ _ _ P) as P3.
  assert (O : (1 <? List.length (odims u)) = true) by (rewrite Po; apply Nat.ltb_lt; lia).
  assert (X : agg_axis a u AxOrigin = set_odims (set_values u (map_arr n2n (reduce_arr a 2 (values u)))) (firstn 1 (odims u))) by (unfold agg_axis; rewrite O; reflexivity).
  assert (L1 : List.length (firstn 1 od) = 1) by (rewrite firstn_length; lia).
  split.
  - unfold aggregate.
    assert (Y : (ax0 (values (agg_axis a u AxOrigin)) =? 1) && (ax1 (values (agg_axis a u AxOrigin)) =? 1) && (ax2 (values (agg_axis a u AxOrigin)) =? 1) && (ax3 (values (agg_axis a u AxOrigin)) =? 1) = false).
    { rewrite X. change (ax0 _) with (ax0 (values u)). change (ax3 _) with (ax3 (values u)). rewrite P0, P3.
      destruct Ld as [Ld|Ld]; [replace (List.length (dlist dd) =? 1) with false by (symmetry; apply Nat.eqb_neq; lia); apply andb_false_r|replace (ax0 (values t) =? 1) with false by (symmetry; apply Nat.eqb_neq; lia); reflexivity]. }
    rewrite Y. destruct A as [-> | ->]; reflexivity.
  - rewrite X. split; [reflexivity|]. split; [reflexivity|]. destruct P as [P1 Pa Pb P4 P5 P6 P7 P8 P9 P10 P11 P12 P13]. constructor; auto.
    + cbv [set_odims set_dims set_values odims]. change (firstn 1 (odims u) = firstn 1 od). congruence.
    + intros i o d Hi Ho Hd. change (n2n (agg_line a (map (fun j => av (values u) i 0 j d) (seq 0 (ax2 (values u))))) = n2n (agg_line a (map (fun o => f i o d) (seq 0 (List.length od))))). rewrite P11. do 2 f_equal.
      apply map_ext_in. intros k Hk. apply in_seq in Hk. apply P13; auto; lia.
Qed.

(** The mean of the ratios other than zero. *)
Definition avg0 (f : nat -> cell) (k : nat) : cell := n2n (agg_line AMean (map (fun o => n2n (f o)) (seq 0 k))).
Lemma average_ok v u dd f : blk t (odims t) dd v u f -> 2 <= List.length (dlist dd) ->
  exists s, os_average u = Ok s /\ is_cumulative s = is_cumulative u /\ is_pattern s = is_pattern u /\
    blk t (orgs 0 1) dd v s (fun i _ d => avg0 (fun o => f i o d) n).
Proof using All.
  intros P Ld. pose proof (wf_o _ W) as Wo. pose proof Q as (_ & E2 & _).
  assert (Lo : List.length (odims t) = n) by congruence.
  destruct (blk_over_origins AMean v u (odims t) dd f P ltac:(auto) ltac:(lia) ltac:(auto)) as (s & Es & Fc & Fp & S).
  assert (P' : blk t (odims t) dd v (set_values u (map_arr n2n (values u))) (fun i o d => n2n (f i o d))).
  { destruct P as [P1 Pa Pb P4 P5 P6 P7 P8 P9 P10 P11 P12 P13]. constructor; auto. intros i o d Hi Ho Hd. change (n2n (cel u i 0 o d) = n2n (f i o d)). rewrite P13 by auto. reflexivity. }
  destruct (blk_over_origins AMean v _ (odims t) dd _ P' ltac:(auto) ltac:(lia) ltac:(auto)) as (s' & Es' & _ & _ & S').
  unfold os_average. rewrite Es. cbn [rbind]. rewrite Es'. cbn [rbind agg_tri]. eexists. split; [reflexivity|]. split; [auto|]. split; [auto|].
  assert (F1 : firstn 1 (odims t) = orgs 0 1). { rewrite t_orgs. unfold orgs. destruct n as [|m]; [lia|]. reflexivity. }
  rewrite F1, Lo in S, S'. destruct S as [P1 Pa Pb P4 P5 P6 P7 P8 P9 P10 P11 P12 P13], S' as [R1 Ra Rb R4 R5 R6 R7 R8 R9 R10 R11 R12 R13]. constructor; auto.
Qed.
End Out.
