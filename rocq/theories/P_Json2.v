(** Proofs for C60: grains and sums of the table. *)
From Coq Require Import Lia Sorted Permutation Znumtheory.
From Verif Require Import SpecPandas P_Align2 P_Align3 CatFacts P_Calendar NumFacts ArrFacts TriFacts UnionFacts P_Group P_Core P_Arith DevFacts P_Build P_Build2 P_Build3 P_View P_Grain ConvFacts P_Agg P_Sort SpecJson P_Json.
Local Open Scope Z_scope.

(** * Periods *)
Lemma first_iff gc x : first_month gc x = x <-> (x - (snd gc + 1)) mod months_in (fst gc) = 0.
Proof.
  unfold first_month. pose proof (step_pos (fst gc)) as P. set (g := months_in (fst gc)) in *. set (y := x - (snd gc + 1)).
  pose proof (Z.div_mod y g ltac:(lia)) as E. unfold y in *. split; intros; lia.
Qed.
Lemma last_iff gc x : (x - snd gc) mod months_in (fst gc) = 0 -> last_month gc x = x /\ first_month gc (x - months_in (fst gc) + 1) = x - months_in (fst gc) + 1.
Proof.
  intros H. pose proof (step_pos (fst gc)) as P.
  assert (F : first_month gc (x - months_in (fst gc) + 1) = x - months_in (fst gc) + 1).
  { apply first_iff. replace (x - months_in (fst gc) + 1 - (snd gc + 1)) with (x - snd gc + (-1) * months_in (fst gc)) by lia. rewrite Z.mod_add by lia. auto. }
  split; auto. unfold last_month. pose proof (first_le gc x) as L. pose proof (first_idem gc x) as I. destruct (first_diff gc _ _ F I) as (k & K).
  set (g := months_in (fst gc)) in *. assert (k = 0) by nia. subst k. lia.
Qed.
Lemma first_last gc x : first_month gc (x - months_in (fst gc) + 1) = x - months_in (fst gc) + 1 -> (x - snd gc) mod months_in (fst gc) = 0.
Proof.
  intros F. apply first_iff in F. pose proof (step_pos (fst gc)) as P. replace (x - months_in (fst gc) + 1 - (snd gc + 1)) with (x - snd gc + (-1) * months_in (fst gc)) in F by lia.
  rewrite Z.mod_add in F by lia. auto.
Qed.
Lemma months_grain g : months_in g = grain_months g. Proof. destruct g; reflexivity. Qed.

(** * Grains that show *)
Lemma all_spaced s a l : 0 < s -> forallb (Z.eqb s) (zdiffs (a :: l)) = true -> forall x, In x (a :: l) -> (x - a) mod s = 0.
Proof.
  intros P. revert a. induction l as [|b l IH]; intros a F x [<-|I].
  - rewrite Z.sub_diag. apply Z.mod_0_l. lia.
  - destruct I.
  - rewrite Z.sub_diag. apply Z.mod_0_l. lia.
  - change (zdiffs (a :: b :: l)) with ((b - a) :: zdiffs (b :: l)) in F. cbn [forallb] in F. apply andb_true_iff in F. destruct F as (E & F). apply Z.eqb_eq in E.
    specialize (IH b F x I). replace (x - a) with (x - b + 1 * s) by lia. rewrite Z.mod_add by lia. auto.
Qed.
Lemma shows_grain trailing k ds d0 g M : In d0 ds -> (forall m, M m <-> exists d, In d ds /\ dm d mod 12 = m) ->
  grain_shows g M -> (g = GY -> forall d e, In d ds -> In e ds -> dm d mod 12 = dm e mod 12) -> fst (get_grain trailing k ds d0) = g.
Proof.
  intros I0 HM G Y. destruct g; cbn in G.
  - rewrite (grain_shape ds d0 trailing k (dm d0 mod 12) 1 1); auto; try lia. intros m. split.
    + intros (d & Hd & <-). exists 0%nat. split; auto. rewrite (Y eq_refl d d0); auto. lia.
    + intros (j & Hj & ->). exists d0. split; auto. lia.
  - destruct G.
  - destruct G as (a & n & Hn & E). rewrite (grain_shape ds d0 trailing k a 3 n); try lia.
    + destruct (Nat.eqb_spec n 1); [lia|reflexivity].
    + intros m. rewrite <- HM. apply E.
  - destruct G as (m & M1 & M2). apply HM in M1. apply HM in M2. unfold get_grain. cbn [fst].
    assert (I1 : In m (zsort (map (fun d => dm d mod 12) ds))) by (apply zsort_In, in_map_iff; destruct M1 as (d & ? & ?); exists d; auto).
    assert (I2 : In (m + 1) (zsort (map (fun d => dm d mod 12) ds))) by (apply zsort_In, in_map_iff; destruct M2 as (d & ? & ?); exists d; auto).
    destruct (zsort (map (fun d => dm d mod 12) ds)) as [|a [|b l]]; [destruct I1|destruct I1 as [I1|[]], I2 as [I2|[]]; lia|].
    assert (N : forall s, 1 < s -> forallb (Z.eqb s) (zdiffs (a :: b :: l)) = false).
    { intros s P. destruct (forallb (Z.eqb s) (zdiffs (a :: b :: l))) eqn:F; auto. exfalso.
      pose proof (all_spaced s a (b :: l) ltac:(lia) F m I1) as E1. pose proof (all_spaced s a (b :: l) ltac:(lia) F (m + 1) I2) as E2.
      replace (m + 1 - a) with (1 + (m - a)) in E2 by lia. rewrite Z.add_mod, E1, Z.add_0_r, Z.mod_mod, Z.mod_1_l in E2 by lia. lia. }
    unfold grain_of_months. rewrite !N by lia. reflexivity.
Qed.

(** * An incremental triangle *)
Section Incr.
Variables (s : tri) (o0 a0 : Z) (h m : nat).
Hypothesis V : savable s o0 a0 h m.
Hypothesis Inc : is_cumulative s = Some false.
Let W : wf s := sv_wf _ _ _ _ _ V.
Let G : age_grid s o0 a0 h m := sv_grid _ _ _ _ _ V.
Let n := ax3 (values s).

Lemma hm_pos : (1 <= h /\ 1 <= m)%nat. Proof. destruct G as (? & ? & _). auto. Qed.
Lemma mon o d : (o < ax2 (values s))%nat -> (d < ax3 (values s))%nat -> month_of s o d = o0 + a0 - 1 + Z.of_nat (h * (d + m * o)).
Proof. intros. apply grid_month; auto. Qed.
Lemma org o : (o < ax2 (values s))%nat -> nth o (odims s) 0 = o0 + Z.of_nat (h * m * o).
Proof. intros Ho. destruct G as (_ & _ & -> & _). rewrite nth_map_seq; auto. Qed.
Lemma age_bound : 1 <= a0 /\ forall x, In x (odims s) -> x <= vdate s.
Proof.
  pose proof (wf_dev _ W) as D. destruct G as (_ & _ & _ & Ed & _). rewrite Ed in D. destruct D as (D & Ho & _). split; auto.
  pose proof (wf_d1 _ W). assert (I : In a0 (map (fun k => a0 + Z.of_nat (h * k)) (seq 0 (ax3 (values s))))) by (apply in_map_iff; exists 0%nat; split; [lia|apply in_seq; lia]). apply D in I. lia.
Qed.
Lemma org_le o : (o < ax2 (values s))%nat -> nth o (odims s) 0 <= vdate s.
Proof. intros Ho. apply age_bound. apply nth_In. rewrite <- (wf_o _ W). auto. Qed.
Lemma vdate_eq : vdate s = month_of s 0 (n - 1).
Proof. pose proof (wf_o1 _ W). pose proof (wf_d1 _ W). unfold n. rewrite mon by lia. rewrite (sv_last_age _ _ _ _ _ V). lia. Qed.
Lemma entry_cel i c o d : entry s i c o d <-> in_range s i c o d /\ cel s i c o d <> None.
Proof.
  unfold entry. rewrite Inc. split.
  - intros (R & _ & E). destruct d; auto.
  - intros (R & E). split; auto. split; [|destruct d; auto]. intros F. apply E. apply (sv_blank _ _ _ _ _ V); auto.
Qed.
Lemma month_range i c o d : entry s i c o d -> o0 + a0 - 1 <= month_of s o d <= vdate s /\ o0 <= nth o (odims s) 0 <= month_of s o d.
Proof.
  intros (R & F & _). unfold future in F. destruct R as (_ & _ & Ho & Hd). pose proof age_bound as (A & _). rewrite mon in * by auto. rewrite org by auto. nia.
Qed.

Lemma frame_of : exists v w, dev_to_val s = Ok v /\ to_frame v = Ok (frame w) /\ wf w /\ same_data_by_date s w.
Proof.
  pose proof age_bound as (A & OL). pose proof (sv_dates _ _ _ _ _ V) as (D1 & D2). pose proof (wf_o1 _ W) as O1. pose proof (wf_d1 _ W) as N1. pose proof hm_pos as (H1 & M1).
  destruct (view_round_trip_len s o0 a0 h m) as (u & w & Eu & Ew & SD & Gw & Wu & Gu & Edu & L); auto.
  - right. right. fold n. rewrite <- vdate_eq. lia.
  - apply (sv_blank _ _ _ _ _ V).
  - destruct (sv_beyond _ _ _ _ _ V) as [B|(i & c & o & d & E & Ho)]; [left; auto|right]. apply entry_cel in E. exists i, c, o, d. tauto.
  - intros o d Ho Hd. rewrite mon by auto. pose proof (org_le o Ho) as Lo. rewrite org in Lo by auto. pose proof (sv_last_age _ _ _ _ _ V) as LA. nia.
  - left. congruence.
  - unfold short_history. assert (E : hd 0 (odims s) = o0).
    { pose proof (org 0 O1) as E. destruct (odims s); cbn in *; lia. }
    rewrite E. lia.
  - unfold future. rewrite mon by lia. pose proof (sv_last_age _ _ _ _ _ V). nia.
  - exists u, w. split; auto. split; [apply to_frame_eq; auto|]. split; auto. pose proof SD as (S & _).
    assert (Age : forall k, (k < ax3 (values w))%nat -> o0 + a0 - 1 + Z.of_nat (h * k) <= vdate s).
    { intros k Hk. rewrite L in Hk. pose proof Gu as (_ & _ & _ & Ev & _).
      assert (I : In (o0 + a0 - 1 + Z.of_nat (h * k)) (known_valuations s)).
      { assert (E : known_valuations s = map (fun k => o0 + a0 - 1 + Z.of_nat (h * k)) (seq 0 (ax3 (values u)))) by congruence. rewrite E. apply in_map_iff. exists k. split; auto. apply in_seq. lia. }
      apply (known_in s _ W) in I. destruct I as (? & ? & _ & _ & _ & I). auto. }
    pose proof Gw as (_ & _ & _ & Edw & _). constructor.
    + rewrite (sr_0 _ _ S), (sr_k _ _ S). apply W.
    + rewrite (sr_1 _ _ S), (sr_v _ _ S). apply W.
    + rewrite (sr_2 _ _ S), (sr_o _ _ S). apply W.
    + rewrite Edw. cbn [dlist]. rewrite map_length, seq_length. auto.
    + rewrite (sr_2 _ _ S). auto.
    + rewrite L. apply Wu.
    + rewrite (sr_o _ _ S). apply W.
    + rewrite Edw. apply sorted_ap. auto.
    + rewrite (sr_vd _ _ S). apply W.
    + rewrite Edw, (sr_o _ _ S), (sr_vd _ _ S). change ULT_VAL with 27143. split; [|split; auto].
      * intros a Ha. apply in_map_iff in Ha. destruct Ha as (k & <- & Hk). apply in_seq in Hk. specialize (Age k ltac:(lia)). lia.
      * intros o a Ho Ha _. apply OL in Ho. apply in_map_iff in Ha. destruct Ha as (k & <- & Hk). apply in_seq in Hk. specialize (Age k ltac:(lia)). lia.
Qed.

Section Rows.
Variable w : tri.
Hypothesis Ww : wf w.
Hypothesis SD : same_data_by_date s w.
Let table := map rounded (frame w).
Lemma Nw : NoDup (kdims w). Proof. destruct SD as (S & _). rewrite (sr_k _ _ S). apply (sv_names _ _ _ _ _ V). Qed.
Lemma range_w i c o d : in_range s i c o d -> forall e, (e < ax3 (values w))%nat -> in_range w i c o e.
Proof. destruct SD as (S & _). unfold in_range. rewrite (sr_0 _ _ S), (sr_1 _ _ S), (sr_2 _ _ S). tauto. Qed.
Lemma row_of_table r : In r table -> exists i c o d, entry s i c o d /\ r_key r = nth i (kdims s) [] /\ r_o r = Date (nth o (odims s) 0) true /\ r_d r = Date (month_of s o d) false.
Proof.
  intros I. apply in_map_iff in I. destruct I as (r' & <- & I). apply (proj1 (frame_In w Ww Nw r')) in I. destruct I as (i & o & e & Hi & Ho & He & (c & Hc & Nn) & ->).
  destruct SD as (S & _ & B). destruct (cel w i c o e) as [q|] eqn:E; [|congruence]. destruct (B i c o e q) as (d & Hd & Em & Ec); auto; [repeat split; auto|].
  exists i, c, o, d. rewrite (sr_0 _ _ S) in Hi. rewrite (sr_1 _ _ S) in Hc. rewrite (sr_2 _ _ S) in Ho. cbn [rounded r_key r_o r_d]. rewrite (sr_k _ _ S), (sr_o _ _ S), Em.
  split; auto. apply entry_cel. split; [repeat split; auto|congruence].
Qed.
Lemma table_row i c o d : entry s i c o d -> exists r, In r table /\ r_key r = nth i (kdims s) [] /\ r_o r = Date (nth o (odims s) 0) true /\ r_d r = Date (month_of s o d) false.
Proof.
  intros E. apply entry_cel in E. destruct E as (R & E). destruct SD as (S & F & _). destruct (cel s i c o d) as [q|] eqn:Eq; [|congruence].
  destruct (F i c o d q R Eq) as (e & He & Em & Ec). pose proof (range_w i c o d R e He) as (R1 & R2 & R3 & R4).
  exists (rounded (Rec (nth i (kdims w) []) (Date (nth o (odims w) 0) true) (Date (month_of w o e) false) (row_amounts w i o e))). split.
  - apply in_map. apply frame_In; auto using Nw. exists i, o, e. repeat split; auto. exists c. split; auto. congruence.
  - cbn [rounded r_key r_o r_d]. rewrite (sr_k _ _ S), (sr_o _ _ S), Em. auto.
Qed.
Lemma table_sum i c o d : in_range s i c o d ->
  column_sum c (filter (fun r => strs_eqb (r_key r) (nth i (kdims s) []) && (dm (r_o r) =? nth o (odims s) 0) && (dm (r_d r) =? month_of s o d)) table) = amount s i c o d.
Proof.
  intros R. pose proof R as (R1 & R2 & R3 & R4). destruct SD as (S & F & B).
  assert (Found : forall e q, (e < ax3 (values w))%nat -> cel w i c o e = Some q -> exists d', (d' < ax3 (values s))%nat /\ month_of s o d' = month_of w o e /\ cel s i c o d' = Some q).
  { intros e q He Eq. apply B; auto. apply (range_w i c o d); auto. }
  pose proof (frame_sum w Ww Nw i c o (month_of s o d)) as FS. rewrite (sr_k _ _ S), (sr_o _ _ S), (sr_0 _ _ S), (sr_1 _ _ S), (sr_2 _ _ S) in FS. unfold table. rewrite FS; auto; clear FS.
  - destruct (cel s i c o d) as [q|] eqn:Eq.
    + destruct (F i c o d q R Eq) as (e & He & Em & Ec). rewrite (sumn_single _ e); auto.
      * rewrite Em, Z.eqb_refl. unfold amount. rewrite Ec, Eq. auto.
      * intros e' He' Ne. destruct (Z.eqb_spec (month_of w o e') (month_of s o d)) as [E|]; auto. exfalso. apply Ne. apply (month_inj w o); auto; [rewrite (sr_2 _ _ S); auto|congruence].
    + unfold amount at 2. rewrite Eq. cbn [nz]. apply sumn_zero. intros e He. destruct (Z.eqb_spec (month_of w o e) (month_of s o d)) as [E|]; auto.
      unfold amount. destruct (cel w i c o e) as [q|] eqn:Ew; auto. exfalso. destruct (Found e q He Ew) as (d' & Hd' & Em & Ec).
      assert (d' = d) by (apply (month_inj s o); auto; congruence). subst d'. congruence.
  - intros e He. unfold amount. destruct (cel w i c o e) as [q|] eqn:Ew; [|apply ten_decimals_0]. destruct (Found e q He Ew) as (d' & Hd' & _ & Ec).
    pose proof (sv_decimals _ _ _ _ _ V i c o d') as T. unfold amount in T. rewrite Ec in T. apply T. repeat split; auto.
Qed.

(** ** The grains that are read off *)
Let cl := match dgrain s with GM => 11 | _ => vdate s mod 12 end.
Lemma table_nonempty : exists r0 tl, table = r0 :: tl.
Proof. destruct (sv_first _ _ _ _ _ V) as (i & c & E). destruct (table_row _ _ _ _ E) as (r & I & _). destruct table as [|r0 tl]; [destruct I|eauto]. Qed.
Lemma h_eq : months_in (dgrain s) = Z.of_nat h /\ months_in (ograin s) = Z.of_nat (h * m).
Proof. rewrite !months_grain. destruct G as (_ & _ & _ & _ & _ & ? & ?). auto. Qed.
Lemma mod_same x y k g : x = y + k * g -> g <> 0 -> x mod g = y mod g.
Proof. intros -> N. rewrite Z.mod_add; auto. Qed.
Lemma og_eq : origin_grain_of true table = (ograin s, 11).
Proof.
  destruct table_nonempty as (r0 & tl & Et). unfold origin_grain_of. rewrite Et. rewrite <- Et.
  assert (I0 : In r0 table) by (rewrite Et; left; auto). clear Et. pose proof h_eq as (Hd & Ho).
  assert (M : fst (get_grain true OriginDates (map r_o table) (r_o r0)) = ograin s).
  { apply (shows_grain _ _ _ _ _ (origin_months s)); [apply in_map; auto| |apply (sv_ograin _ _ _ _ _ V)|].
    - intros x. split.
      + intros (i & c & o & d & E & Em). destruct (table_row _ _ _ _ E) as (r & I & _ & Eo & _). exists (r_o r). split; [apply in_map; auto|]. rewrite Eo. auto.
      + intros (dt & I & Em). apply in_map_iff in I. destruct I as (r & <- & I). destruct (row_of_table r I) as (i & c & o & d & E & _ & Eo & _). exists i, c, o, d. rewrite Eo in Em. auto.
    - intros Y x y Ix Iy. apply in_map_iff in Ix, Iy. destruct Ix as (r & <- & Ix), Iy as (r' & <- & Iy).
      destruct (row_of_table r Ix) as (i & c & o & d & E & _ & Eo & _). destruct (row_of_table r' Iy) as (i' & c' & o' & d' & E' & _ & Eo' & _). rewrite Eo, Eo'. cbn [dm].
      destruct E as ((_ & _ & L & _) & _), E' as ((_ & _ & L' & _) & _). rewrite !org by auto. rewrite Y in Ho. cbn in Ho.
      apply (mod_same _ _ (Z.of_nat o - Z.of_nat o')); nia. }
  assert (Mn : date_min (map r_o table) (r_o r0) = Date o0 true).
  { destruct (date_min_spec (map r_o table) (r_o r0)) as (I & L). assert (I' : In (date_min (map r_o table) (r_o r0)) (map r_o table)) by (destruct I as [<-|I]; auto; apply in_map; auto).
    apply in_map_iff in I'. destruct I' as (r & Er & Ir). destruct (row_of_table r Ir) as (i & c & o & d & E & _ & Eo & _). rewrite <- Er, Eo.
    destruct (sv_first _ _ _ _ _ V) as (i' & c' & E'). destruct (table_row _ _ _ _ E') as (r' & I2 & _ & Eo' & _). specialize (L (r_o r') (or_intror (in_map r_o _ _ I2))).
    rewrite <- Er, Eo, Eo' in L. unfold date_leb in L. cbn [dm dfirst orb] in L. rewrite andb_true_r in L. apply orb_true_iff in L.
    pose proof (month_range _ _ _ _ E). rewrite (org 0) in L by apply (wf_o1 _ W). f_equal.
    destruct L as [L|L]; [apply Z.ltb_lt in L|apply Z.eqb_eq in L]; lia. }
  pose proof (sv_calendar _ _ _ _ _ V) as Ca. rewrite <- Ho in Ca.
  unfold get_grain in M |- *. cbn [fst] in M. rewrite M. f_equal. unfold closing. cbn [negb]. rewrite Mn. unfold day_before. cbn [dfirst dm].
  pose proof (sv_ograin _ _ _ _ _ V) as Sg. destruct (ograin s); cbn in Ca, Sg; try tauto.
  - replace (o0 - 1) with (11 + (-1) * 12 + o0) by lia. rewrite Z.add_mod, Ca by lia. reflexivity.
  - assert (E : (o0 - 1) mod 12 mod 3 = 2).
    { rewrite <- Zmod_div_mod; [|lia|lia|exists 4; lia]. replace (o0 - 1) with (2 + (-1) * 3 + o0) by lia. rewrite Z.add_mod, Ca by lia. reflexivity. }
    rewrite E. reflexivity.
Qed.
Lemma dg_eq : dev_grain_of true table = (dgrain s, cl).
Proof.
  destruct table_nonempty as (r0 & tl & Et). unfold dev_grain_of. rewrite Et. rewrite <- Et.
  assert (I0 : In r0 table) by (rewrite Et; left; auto). clear Et. pose proof h_eq as (Hd & Ho).
  assert (M : fst (get_grain true DevelopmentDates (map r_d table) (r_d r0)) = dgrain s).
  { apply (shows_grain _ _ _ _ _ (date_months s)); [apply in_map; auto| |apply (sv_dgrain _ _ _ _ _ V)|].
    - intros x. split.
      + intros (i & c & o & d & E & Em). destruct (table_row _ _ _ _ E) as (r & I & _ & _ & Eo). exists (r_d r). split; [apply in_map; auto|]. rewrite Eo. auto.
      + intros (dt & I & Em). apply in_map_iff in I. destruct I as (r & <- & I). destruct (row_of_table r I) as (i & c & o & d & E & _ & _ & Eo). exists i, c, o, d. rewrite Eo in Em. auto.
    - intros Y x y Ix Iy. apply in_map_iff in Ix, Iy. destruct Ix as (r & <- & Ix), Iy as (r' & <- & Iy).
      destruct (row_of_table r Ix) as (i & c & o & d & E & _ & _ & Eo). destruct (row_of_table r' Iy) as (i' & c' & o' & d' & E' & _ & _ & Eo'). rewrite Eo, Eo'. cbn [dm].
      destruct E as ((_ & _ & L & Ld) & _), E' as ((_ & _ & L' & Ld') & _). rewrite !mon by auto. rewrite Y in Hd. cbn in Hd.
      apply (mod_same _ _ (Z.of_nat (d + m * o) - Z.of_nat (d' + m * o'))); nia. }
  assert (Mx : dm (date_max (map r_d table) (r_d r0)) = vdate s).
  { destruct (date_max_spec (map r_d table) (r_d r0)) as (I & L). assert (I' : In (date_max (map r_d table) (r_d r0)) (map r_d table)) by (destruct I as [<-|I]; auto; apply in_map; auto).
    apply in_map_iff in I'. destruct I' as (r & Er & Ir). destruct (row_of_table r Ir) as (i & c & o & d & E & _ & _ & Eo). rewrite <- Er, Eo. cbn [dm].
    destruct (sv_last _ _ _ _ _ V) as (i' & c' & o' & d' & E' & Em). destruct (table_row _ _ _ _ E') as (r' & I2 & _ & _ & Eo'). specialize (L (r_d r') (or_intror (in_map r_d _ _ I2))).
    rewrite <- Er, Eo, Eo' in L. unfold date_leb in L. cbn [dm dfirst orb negb] in L. rewrite andb_true_r in L. apply orb_true_iff in L.
    pose proof (month_range _ _ _ _ E). destruct L as [L|L]; [apply Z.ltb_lt in L|apply Z.eqb_eq in L]; lia. }
  assert (Nf : existsb (fun d => dfirst d && (dm d mod 3 =? 0)) (map r_d table) = false).
  { destruct (existsb _ (map r_d table)) eqn:E; auto. exfalso. apply existsb_exists in E. destruct E as (x & I & E). apply in_map_iff in I. destruct I as (r & <- & I).
    destruct (row_of_table r I) as (? & ? & ? & ? & _ & _ & _ & Eo). rewrite Eo in E. discriminate. }
  unfold get_grain in M |- *. cbn [fst] in M. rewrite M. f_equal. unfold closing, cl. cbn [negb]. rewrite Mx, Nf.
  destruct (dgrain s); reflexivity.
Qed.

(** ** The triangle that is built *)
Lemma divides12 g : exists k, 12 = k * months_in g. Proof. destruct g; [exists 1|exists 2|exists 4|exists 12]; reflexivity. Qed.
Lemma mod12 x g : (x - x mod 12) mod months_in g = 0.
Proof.
  destruct (divides12 g) as (k & K). pose proof (step_pos g). pose proof (Z.div_mod x 12 ltac:(lia)) as D. replace (x - x mod 12) with (x / 12 * (k * months_in g)) by (rewrite <- K; lia). rewrite Z.mul_assoc. apply Z.mod_mul. lia.
Qed.
Lemma date_fits o d : (o < ax2 (values s))%nat -> (d < ax3 (values s))%nat -> last_month (dgrain s, cl) (month_of s o d) = month_of s o d /\
  first_month (dgrain s, cl) (month_of s o d - months_in (dgrain s) + 1) = month_of s o d - months_in (dgrain s) + 1.
Proof.
  intros Ho Hd. apply (last_iff (dgrain s, cl)). cbn [fst snd]. pose proof h_eq as (Eh & _). pose proof hm_pos as (H1 & _).
  assert (C : (vdate s - cl) mod months_in (dgrain s) = 0).
  { unfold cl. pose proof (mod12 (vdate s) (dgrain s)) as M. destruct (dgrain s); auto. apply Z.mod_1_r. }
  rewrite <- C. rewrite Eh in *. apply (mod_same _ _ (Z.of_nat (d + m * o) - Z.of_nat (ax3 (values s) - 1))); [|lia].
  rewrite mon by auto. rewrite (sv_last_age _ _ _ _ _ V). lia.
Qed.
Lemma origin_fits x : first_month (ograin s, 11) x = x <-> (x - o0) mod Z.of_nat (h * m) = 0.
Proof.
  rewrite first_iff. cbn [fst snd]. pose proof h_eq as (_ & Eh). pose proof hm_pos as (H1 & M1). destruct (divides12 (ograin s)) as (k & K). rewrite Eh in *.
  pose proof (sv_calendar _ _ _ _ _ V) as Ca. apply Z.mod_divide in Ca; [|lia]. destruct Ca as (j & Ca).
  rewrite (mod_same (x - (11 + 1)) (x - o0) (j - k)); [tauto|lia|lia].
Qed.
Lemma table_ok_rows : table_ok (ograin s, 11) (dgrain s, cl) table /\ forall r, In r table -> counts (ograin s, 11) (dgrain s, cl) r = true.
Proof.
  pose proof (sv_dates _ _ _ _ _ V) as (D1 & D2). pose proof age_bound as (A & _).
  assert (C : forall r, In r table -> counts (ograin s, 11) (dgrain s, cl) r = true).
  { intros r I. destruct (row_of_table r I) as (i & c & o & d & E & _ & Eo & Ed). pose proof (month_range _ _ _ _ E) as MR. destruct E as ((_ & _ & Ho & Hd) & _).
    unfold counts. rewrite Eo, Ed. cbn [dm]. apply Z.leb_le. rewrite (proj1 (date_fits o d Ho Hd)). pose proof (first_le (ograin s, 11) (nth o (odims s) 0)). lia. }
  split; auto. destruct (sv_first _ _ _ _ _ V) as (i & c & E0). destruct (table_row _ _ _ _ E0) as (r0 & I0 & _ & _ & Ed0).
  destruct (sv_last _ _ _ _ _ V) as (i1 & c1 & o1 & d1 & E1 & Em1). destruct (table_row _ _ _ _ E1) as (r1 & I1 & _ & _ & Ed1). constructor.
  - exists r0. auto.
  - destruct (sv_1970 _ _ _ _ _ V) as [N|N].
    + exists r0. split; auto. rewrite Ed0. cbn [dm]. destruct E0 as ((_ & _ & ? & ?) & _). rewrite mon by auto. replace (o0 + a0 - 1 + Z.of_nat (h * (0 + m * 0))) with (o0 + a0 - 1) by lia. auto.
    + exists r1. split; auto. rewrite Ed1. cbn [dm]. congruence.
  - intros r I. destruct (row_of_table r I) as (i' & c' & o & d & E & _ & Eo & Ed). pose proof (month_range _ _ _ _ E). rewrite Eo, Ed. cbn [dm]. lia.
  - cbn [fst]. intros X. pose proof (sv_ograin _ _ _ _ _ V) as Y. rewrite X in Y. exact Y.
  - cbn [fst]. intros X. pose proof (sv_dgrain _ _ _ _ _ V) as Y. rewrite X in Y. exact Y.
  - cbn [fst snd]. destruct (divides12 (ograin s)) as (k & K). change (11 + 1) with 12. rewrite K. apply Z.mod_mul. pose proof (step_pos (ograin s)). lia.
Qed.
Lemma finer_eq : finer (dgrain s) (ograin s) = dgrain s.
Proof.
  unfold finer. rewrite (step_months_in (dgrain s)), (step_months_in (ograin s)). pose proof h_eq as (Eh & Ehm). pose proof hm_pos as (H1 & M1). destruct (Z.ltb_spec (months_in (dgrain s)) (months_in (ograin s))); auto.
  assert (months_in (dgrain s) = months_in (ograin s)) by (assert (h <= h * m)%nat by nia; lia). destruct (dgrain s), (ograin s); cbn in *; congruence || lia.
Qed.

Lemma build_table labels : exists b, build true labels (vdims s) (Some false) table = Ok b /\ wf b /\ blank_future b /\ is_pattern b = false /\ is_cumulative b = Some false /\
  key_labels b = labels /\ vdims b = vdims s /\ Permutation (kdims b) (kdims s) /\ odims b = odims s /\ ddims b = ddims s /\ vdate b = vdate s /\
  ograin b = ograin s /\ dgrain b = dgrain s /\
  forall i j c o d, in_range s i c o d -> (j < ax0 (values b))%nat -> nth j (kdims b) [] = nth i (kdims s) [] -> stores (cel b j c o d) (amount s i c o d).
Proof.
  destruct table_ok_rows as (TOK & C). rewrite <- og_eq, <- dg_eq in TOK.
  destruct (build_built true labels (vdims s) (Some false) table TOK) as (b & Eb & B & Ec & El & Eg). pose proof (build_ages true labels (vdims s) (Some false) table b TOK Eb) as (Dg & DD).
  rewrite og_eq, dg_eq in *. cbn [fst snd] in Eg, Dg, DD. rewrite finer_eq in Dg.
  destruct (sv_first _ _ _ _ _ V) as (i0 & c0 & E0). destruct (table_row _ _ _ _ E0) as (r0 & I0 & _ & Eo0 & Ed0).
  destruct (sv_last _ _ _ _ _ V) as (i1 & c1 & o1 & d1 & E1 & Em1). destruct (table_row _ _ _ _ E1) as (r1 & I1 & _ & _ & Ed1).
  pose proof (wf_o1 _ W) as O1. pose proof (sv_two_ages _ _ _ _ _ V) as N2. pose proof hm_pos as (H1 & M1). pose proof age_bound as (A & _).
  assert (RD : forall r, In r table -> exists i c o d, entry s i c o d /\ r_key r = nth i (kdims s) [] /\ r_o r = Date (nth o (odims s) 0) true /\ r_d r = Date (month_of s o d) false /\
     first_month (ograin s, 11) (dm (r_o r)) = nth o (odims s) 0 /\ last_month (dgrain s, cl) (dm (r_d r)) = month_of s o d).
  { intros r I. destruct (row_of_table r I) as (i & c & o & d & E & Ek & Eo & Ed). exists i, c, o, d. repeat (split; [assumption|]). pose proof E as ((_ & _ & Ho & Hd) & _).
    rewrite Eo, Ed. cbn [dm]. split; [|apply date_fits; auto]. apply origin_fits. rewrite org by auto. replace (o0 + Z.of_nat (h * m * o) - o0) with (Z.of_nat o * Z.of_nat (h * m)) by lia. apply Z.mod_mul. lia. }
  assert (EV : vdate b = vdate s).
  { destruct (bt_vdate _ _ _ _ _ B) as ((r & I & _ & E) & L). destruct (RD r I) as (i & c & o & d & En & _ & _ & _ & _ & Lr). pose proof (month_range _ _ _ _ En).
    destruct (RD r1 I1) as (i' & c' & o' & d' & En' & _ & _ & Ed' & _ & Lr'). specialize (L r1 I1 (C r1 I1)). rewrite Lr' in L. rewrite Ed1 in Ed'. injection Ed' as Ed'. lia. }
  assert (EO : odims b = odims s).
  { apply zsorted_ext; [apply (bt_wf _ _ _ _ _ B)|apply W|]. intros x. rewrite (bt_origins _ _ _ _ _ B), EV, origin_fits. split.
    - intros (F & L & r & I & _ & Lr). destruct (RD r I) as (i & c & o & d & En & _ & _ & _ & Er & _). rewrite Er in Lr. pose proof (month_range _ _ _ _ En).
      apply Z.mod_divide in F; [|lia]. destruct F as (k & F). assert (0 <= k) by nia. pose proof (sv_last_origin _ _ _ _ _ V) as LO.
      destruct G as (_ & _ & -> & _). apply in_map_iff. exists (Z.to_nat k). split; [nia|]. apply in_seq. split; [lia|]. nia.
    - intros I. split; [|split].
      + destruct G as (_ & _ & Eo & _). rewrite Eo in I. apply in_map_iff in I. destruct I as (k & <- & _). replace (o0 + Z.of_nat (h * m * k) - o0) with (Z.of_nat k * Z.of_nat (h * m)) by lia. apply Z.mod_mul. lia.
      + apply age_bound. auto.
      + exists r0. split; auto. split; auto. destruct (RD r0 I0) as (i & c & o & d & En & _ & Eo & _ & Er & _). rewrite Er. rewrite Eo0 in Eo. injection Eo as <-. rewrite org by lia.
        destruct G as (_ & _ & Eo' & _). rewrite Eo' in I. apply in_map_iff in I. destruct I as (k & <- & _). lia. }
  assert (M0 : last_month (dgrain s, cl) (dm (r_d r0)) = o0 + a0 - 1).
  { rewrite Ed0. cbn [dm]. rewrite (proj1 (date_fits 0 0 ltac:(lia) ltac:(lia))), mon by lia. lia. }
  assert (M1' : last_month (dgrain s, cl) (dm (r_d r1)) = vdate s).
  { rewrite Ed1. cbn [dm]. rewrite Em1. pose proof (date_fits 0 (n - 1) ltac:(lia) ltac:(unfold n; lia)) as (DF & _). rewrite <- vdate_eq in DF. auto. }
  assert (VD : vdate s = o0 + a0 - 1 + Z.of_nat h * (Z.of_nat n - 1)) by (rewrite (sv_last_age _ _ _ _ _ V); unfold n; lia).
  assert (EDd : ddims b = ddims s).
  { destruct DD as [(l & El' & Sl & Il)|(_ & All)].
    2:{ specialize (All r0 I0 (C r0 I0)). rewrite M0 in All. rewrite EV in All. unfold n in VD. nia. }
    rewrite El'. pose proof G as (_ & _ & _ & Eds & _). rewrite Eds. f_equal. apply zsorted_ext; auto; [apply sorted_ap; auto|]. intros a. rewrite Il, in_map_iff. pose proof h_eq as (Eh & _). split.
    - intros (o & b' & -> & Lob & (Fo & (ra & Ia & _ & La) & _) & (Fb & (rb & Ib & _ & Lb) & (rc & Ic & _ & Lc))).
      destruct (RD ra Ia) as (? & ? & oa & da & Ena & _ & _ & _ & Ra & _). rewrite Ra in La. pose proof (month_range _ _ _ _ Ena).
      destruct (RD rb Ib) as (? & ? & ob & db & Enb & _ & _ & _ & _ & Rb). rewrite Rb in Lb. pose proof (month_range _ _ _ _ Enb).
      destruct (RD rc Ic) as (? & ? & oc & dc & Enc & _ & _ & _ & _ & Rc). rewrite Rc in Lc. pose proof (month_range _ _ _ _ Enc).
      apply origin_fits in Fo. apply Z.mod_divide in Fo; [|lia]. destruct Fo as (j & Fo).
      pose proof (date_fits 0 0 ltac:(lia) ltac:(lia)) as (_ & F0). destruct (first_diff (dgrain s, cl) _ _ F0 Fb) as (k & K). cbn [fst] in K. rewrite Eh in K. rewrite mon in K by lia.
      assert (0 <= j) by nia. assert (Kb : b' = o0 + a0 - 1 + Z.of_nat h * k) by lia. assert (0 <= k <= Z.of_nat n - 1) by nia.
      pose proof (sv_first_age _ _ _ _ _ V) as FA.
      assert (a0 + Z.of_nat h * (k - Z.of_nat m * j) >= 1) by nia. assert (0 <= k - Z.of_nat m * j) by nia.
      exists (Z.to_nat (k - Z.of_nat m * j)). split; [nia|]. apply in_seq. unfold n in *. nia.
    - intros (k & <- & Hk). apply in_seq in Hk. exists o0, (o0 + a0 - 1 + Z.of_nat (h * k)). split; [lia|]. split; [lia|]. split; [split|].
      + apply origin_fits. rewrite Z.sub_diag. apply Z.mod_0_l. lia.
      + destruct (RD r0 I0) as (? & ? & ? & ? & _ & _ & Eo & _ & Er & _). rewrite Eo0 in Eo. injection Eo as Eo. rewrite (org 0) in Eo by lia. split; exists r0; repeat split; auto; lia.
      + pose proof (date_fits 0 k ltac:(lia) ltac:(lia)) as (_ & F0). rewrite mon in F0 by lia. split; [|split].
        * replace (o0 + a0 - 1 + Z.of_nat (h * k)) with (o0 + a0 - 1 + Z.of_nat (h * (k + m * 0))) by lia. auto.
        * exists r0. repeat split; auto. lia.
        * exists r1. repeat split; auto. unfold n in *. nia. }
  exists b. split; [exact Eb|]. split; [apply B|]. split; [apply B|]. split; [apply B|]. split; [auto|]. split; [auto|]. split; [apply B|]. split.
  { apply NoDup_Permutation; [apply B|apply (sv_names _ _ _ _ _ V)|]. intros k. rewrite (proj2 (bt_keys _ _ _ _ _ B)). split.
    - intros (r & I & _ & <-). destruct (RD r I) as (i & c & o & d & En & -> & _). destruct En as ((? & _) & _). apply nth_In. rewrite <- (wf_k _ W). auto.
    - intros I. destruct (In_nth' _ _ [] I) as (i & Li & <-). rewrite <- (wf_k _ W) in Li. destruct (sv_rows _ _ _ _ _ V i Li) as (c & o & d & En).
      destruct (table_row _ _ _ _ En) as (r & Ir & Ek & _). exists r. auto. }
  do 5 (split; [auto|]). intros i j c o d R Hj Ek. pose proof R as (R1 & R2 & R3 & R4).
  assert (EM : month_of b o d = month_of s o d) by (unfold month_of; rewrite EO, EDd; auto).
  assert (Rb : in_range b j c o d).
  { pose proof (bt_wf _ _ _ _ _ B) as Wb. repeat split; auto; [rewrite (wf_v _ Wb), (bt_v _ _ _ _ _ B), <- (wf_v _ W)|rewrite (wf_o _ Wb), EO, <- (wf_o _ W)|rewrite (wf_d _ Wb), EDd, <- (wf_d _ W)]; auto. }
  pose proof (bt_cell _ _ _ _ _ B j c o d Rb) as ST.
  assert (EF : filter (belongs (ograin s, 11) (dgrain s, cl) b j o d) table =
    filter (fun r => strs_eqb (r_key r) (nth i (kdims s) []) && (dm (r_o r) =? nth o (odims s) 0) && (dm (r_d r) =? month_of s o d)) table).
  { apply filter_ext_in. intros r I. destruct (RD r I) as (i' & c' & o' & d' & _ & _ & Eo & Ed & Er & Lr). unfold belongs. rewrite Er, Lr, EO, EM, Ek, Eo, Ed. reflexivity. }
  rewrite EF, table_sum in ST by auto. auto.
Qed.
End Rows.
End Incr.
