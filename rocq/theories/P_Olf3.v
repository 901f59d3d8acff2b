(** On-level factors: closed form of a single change, and the estimator. *)
From Coq Require Import Lia Sorted.
From Verif Require Import NumFacts P_Benk P_Core P_Methods UnionFacts P_Olf P_Olf2 BcastFacts SpecOlf.
Local Open Scope Z_scope.

Lemma qcZ_plus a b : qc (a + b) = (qc a + qc b)%Qc.
Proof. apply Qc_is_canon. unfold qc. cbn [this Q2Qc Qcplus]. rewrite !Qred_correct. unfold Qeq; cbn. lia. Qed.
Lemma qcZ_mult a b : qc (a * b) = (qc a * qc b)%Qc.
Proof. apply Qc_is_canon. unfold qc. cbn [this Q2Qc Qcmult]. rewrite !Qred_correct. unfold Qeq; cbn. lia. Qed.
Lemma qcZ_minus a b : qc (a - b) = (qc a - qc b)%Qc.
Proof. replace (a - b) with (a + (- b)) by lia. rewrite qcZ_plus. assert (E : qc (- b) = (- qc b)%Qc). { apply Qc_is_canon. unfold qc. cbn [this Q2Qc Qcopp]. rewrite !Qred_correct. unfold Qeq; cbn. lia. } rewrite E. ring. Qed.
Lemma qcZ_0 : qc 0 = 0%Qc. Proof. apply Qc_is_canon; reflexivity. Qed.
Lemma qcZ_1 : qc 1 = 1%Qc. Proof. apply Qc_is_canon; reflexivity. Qed.
Lemma qcZ_2 : qc 2 = (1 + 1)%Qc. Proof. apply Qc_is_canon; reflexivity. Qed.
Lemma qcZ_pos a : 0 < a -> (0 < qc a)%Qc.
Proof. intros H. rewrite <- (Z2Nat.id a) by lia. apply qc_pos. lia. Qed.
Lemma two_ne : (1 + 1)%Qc <> 0%Qc. Proof. intros E. apply (f_equal this) in E. discriminate E. Qed.

(** 1 from [s] on. *)
Definition step (s m : Z) : Qc := if s <=? m then 1%Qc else 0%Qc.
Lemma sumn_step n u : sumn n (fun j => if Z.of_nat j <? u then 1%Qc else 0%Qc) = qc (Z.max 0 (Z.min (Z.of_nat n) u)).
Proof.
  induction n as [|n IH]; [cbn [sumn]; replace (Z.max 0 (Z.min (Z.of_nat 0) u)) with 0 by lia; symmetry; apply qcZ_0|].
  cbn [sumn]. rewrite IH. destruct (Z.ltb_spec (Z.of_nat n) u).
  - rewrite <- qcZ_1, <- qcZ_plus. f_equal. lia.
  - rewrite Qcplus_0_r. f_equal. lia.
Qed.
(** Twice the premium at the new level in a period [u] periods after the change, and in the periods before it. *)
Definition slope2 (w u : Z) : Z := if u <? 0 then 0 else if u <? w then 2 * u + 1 else 2 * w.
Definition area2 (w u : Z) : Z := if u <=? 0 then 0 else if u <=? w then u * u else w * w + 2 * w * (u - w).
Lemma area_step w u : 1 <= w -> area2 w (u + 1) = area2 w u + slope2 w u.
Proof.
  intros Hw. unfold area2, slope2. destruct (Z.leb_spec (u + 1) 0), (Z.leb_spec u 0), (Z.leb_spec (u + 1) w), (Z.leb_spec u w), (Z.ltb_spec u 0), (Z.ltb_spec u w); try lia; try nia.
Qed.
Lemma earning_step w s m : (1 <= w)%nat -> earning w (step s) m = (qc (slope2 (Z.of_nat w) (m - s)) / qc (2 * Z.of_nat w))%Qc.
Proof.
  intros Hw. unfold earning. f_equal.
  rewrite (sumn_ext _ _ (fun j => if Z.of_nat j <? m - s then 1%Qc else 0%Qc)).
  2:{ intros j _. unfold step. destruct (Z.leb_spec s (m - 1 - Z.of_nat j)), (Z.ltb_spec (Z.of_nat j) (m - s)); auto; lia. }
  rewrite sumn_step, <- qcZ_2, <- qcZ_mult. unfold step, slope2.
  destruct (Z.leb_spec s m), (Z.leb_spec s (m - Z.of_nat w)), (Z.ltb_spec (m - s) 0), (Z.ltb_spec (m - s) (Z.of_nat w)); try lia;
    rewrite <- ?qcZ_1, <- ?qcZ_0, <- ?qcZ_plus; f_equal; lia.
Qed.
Lemma average_step n w s t : (1 <= n)%nat -> (1 <= w)%nat ->
  average n (earning w (step s)) t = (qc (area2 (Z.of_nat w) (t + Z.of_nat n - s) - area2 (Z.of_nat w) (t - s)) / qc (2 * Z.of_nat w * Z.of_nat n))%Qc.
Proof.
  intros Hn Hw. unfold average.
  assert (E : forall k, sumn k (fun j => earning w (step s) (t + Z.of_nat j)) = (qc (area2 (Z.of_nat w) (t + Z.of_nat k - s) - area2 (Z.of_nat w) (t - s)) / qc (2 * Z.of_nat w))%Qc).
  { induction k as [|k IH]; cbn [sumn].
    - replace (t + Z.of_nat 0 - s) with (t - s) by lia. rewrite Z.sub_diag, qcZ_0. unfold Qcdiv. ring.
    - rewrite IH, earning_step by auto. unfold Qcdiv. rewrite <- Qcmult_plus_distr_l, <- qcZ_plus. f_equal. f_equal.
      replace (t + Z.of_nat (S k) - s) with (t + Z.of_nat k - s + 1) by lia. rewrite area_step by lia. lia. }
  rewrite E, (qcZ_mult (2 * Z.of_nat w)). assert (qc (2 * Z.of_nat w) <> 0%Qc) by (apply Qc_pos_ne, qcZ_pos; lia). assert (qc (Z.of_nat n) <> 0%Qc) by (apply Qc_pos_ne, qcZ_pos; lia). field. auto.
Qed.
Lemma average_plain n s t : (1 <= n)%nat ->
  average n (step s) t = (qc (Z.max 0 (Z.min (Z.of_nat n) (t + Z.of_nat n - s))) / qc (Z.of_nat n))%Qc.
Proof.
  intros Hn. unfold average. f_equal.
  assert (E : forall k, sumn k (fun j => step s (t + Z.of_nat j)) = qc (Z.max 0 (Z.min (Z.of_nat k) (t + Z.of_nat k - s)))).
  { induction k as [|k IH]; cbn [sumn]; [rewrite <- qcZ_0; f_equal; lia|]. rewrite IH. unfold step. destruct (Z.leb_spec s (t + Z.of_nat k)); rewrite <- ?qcZ_1, <- ?qcZ_0, <- qcZ_plus; f_equal; lia. }
  apply E.
Qed.
(** Averages are linear. *)
Lemma earning_affine w f g r m : (1 <= w)%nat -> (forall x, f x = 1 + r * g x)%Qc -> earning w f m = (1 + r * earning w g m)%Qc.
Proof.
  intros Hw H. unfold earning. rewrite !H. rewrite (sumn_ext _ _ (fun j => 1 + r * g (m - 1 - Z.of_nat j)%Z)%Qc) by (intros; apply H).
  rewrite sumn_plus, sumn_scal. assert (E : sumn (w - 1) (fun _ => 1%Qc) = qc (Z.of_nat w - 1)).
  { clear -Hw. replace (Z.of_nat w - 1) with (Z.of_nat (w - 1)) by lia. induction (w - 1)%nat as [|k IH]; [symmetry; apply qcZ_0|]. cbn [sumn]. rewrite IH, qc_S. reflexivity. }
  rewrite E, qcZ_minus, qcZ_1, qcZ_mult, qcZ_2. pose proof two_ne. assert (qc (Z.of_nat w) <> 0%Qc) by (apply qc_ne; auto). field. auto.
Qed.
Lemma average_affine n f g r t : (1 <= n)%nat -> (forall x, f x = 1 + r * g x)%Qc -> average n f t = (1 + r * average n g t)%Qc.
Proof.
  intros Hn H. unfold average. rewrite (sumn_ext _ _ (fun j => 1 + r * g (t + Z.of_nat j)%Z)%Qc) by (intros; apply H).
  rewrite sumn_plus, sumn_scal. assert (E : sumn n (fun _ => 1%Qc) = qc (Z.of_nat n)).
  { clear. induction n as [|k IH]; [symmetry; apply qcZ_0|]. cbn [sumn]. rewrite IH, qc_S. reflexivity. }
  rewrite E. assert (qc (Z.of_nat n) <> 0%Qc) by (apply qc_ne; auto). field. auto.
Qed.
Lemma qc_div_self a : 0 < a -> (qc a / qc a)%Qc = 1%Qc.
Proof. intros H. assert (qc a <> 0%Qc) by (apply Qc_pos_ne, qcZ_pos; auto). field. auto. Qed.
Lemma share_area w k p q : (1 <= w)%nat -> 0 <= k < Z.of_nat w ->
  average w (earning w (step (Z.of_nat w * p + k))) (Z.of_nat w * q) = changed_share (Z.of_nat w) k p q.
Proof.
  intros Hw Hk. rewrite average_step by auto. unfold changed_share. set (W := Z.of_nat w) in *. assert (HW : 1 <= W) by lia.
  destruct (Z.ltb_spec q p); [|destruct (Z.eqb_spec q p); [|destruct (Z.eqb_spec q (p + 1))]].
  - assert (W * (q + 1) <= W * p) by nia. replace (area2 W (W * q + W - (W * p + k))) with 0 by (unfold area2; destruct (Z.leb_spec (W * q + W - (W * p + k)) 0); lia).
    replace (area2 W (W * q - (W * p + k))) with 0 by (unfold area2; destruct (Z.leb_spec (W * q - (W * p + k)) 0); lia). rewrite Z.sub_diag, qcZ_0. unfold Qcdiv. ring.
  - subst q. replace (W * p + W - (W * p + k)) with (W - k) by lia. replace (W * p - (W * p + k)) with (- k) by lia. f_equal. f_equal. unfold area2.
    destruct (Z.leb_spec (W - k) 0), (Z.leb_spec (W - k) W), (Z.leb_spec (- k) 0); lia.
  - subst q. replace (W * (p + 1) + W - (W * p + k)) with (W + W - k) by lia. replace (W * (p + 1) - (W * p + k)) with (W - k) by lia.
    assert (E : area2 W (W + W - k) - area2 W (W - k) = 2 * W * W - k * k).
    { unfold area2. destruct (Z.leb_spec (W + W - k) 0), (Z.leb_spec (W - k) 0), (Z.leb_spec (W + W - k) W), (Z.leb_spec (W - k) W); try nia. }
    rewrite E, qcZ_minus. assert (qc (2 * W * W) <> 0%Qc) by (apply Qc_pos_ne, qcZ_pos; nia). field. auto.
  - assert (W * (p + 2) <= W * q) by nia. set (u := W * q - (W * p + k)). assert (W < u) by nia. replace (W * q + W - (W * p + k)) with (u + W) by lia.
    assert (E : area2 W (u + W) - area2 W u = 2 * W * W).
    { unfold area2. destruct (Z.leb_spec (u + W) 0), (Z.leb_spec u 0), (Z.leb_spec (u + W) W), (Z.leb_spec u W); try lia. }
    rewrite E. apply qc_div_self. nia.
Qed.
Lemma part_area w k p q : (1 <= w)%nat -> 0 <= k < Z.of_nat w ->
  average w (step (Z.of_nat w * p + k)) (Z.of_nat w * q) = changed_part (Z.of_nat w) k p q.
Proof.
  intros Hw Hk. rewrite average_plain by auto. unfold changed_part. set (W := Z.of_nat w) in *. assert (HW : 1 <= W) by lia.
  destruct (Z.ltb_spec q p); [|destruct (Z.eqb_spec q p)].
  - assert (W * (q + 1) <= W * p) by nia. replace (Z.max 0 _) with 0 by lia. rewrite qcZ_0. unfold Qcdiv. ring.
  - subst q. f_equal. f_equal. lia.
  - assert (W * (p + 1) <= W * q) by nia. replace (Z.max 0 _) with W by lia. apply qc_div_self. lia.
Qed.
Lemma one_change_level m r x : month_level [(first_day m, r)] x = (1 + r * step m x)%Qc.
Proof.
  unfold month_level, rate_level, step. cbn [map qprod fold_right fst snd].
  destruct (Z.leb_spec (first_day m) (first_day x)) as [L|L], (Z.leb_spec m x) as [L'|L']; try ring.
  - pose proof (first_day_lt x m). lia.
  - pose proof (first_day_le m x). lia.
Qed.
(** A single change in month [k] of year [p]. *)
Lemma single_change p k r a b v : 0 <= k < 12 -> (0 < 1 + r)%Qc -> whole_years a b -> 12 * p + k <= b ->
  parallelogram_olf [(first_day (12 * p + k), r)] a b GY ByMonth v =
    Ok (map (fun q => (q, Some ((1 + r) / (1 + r * (if v then changed_part 12 k p q else changed_share 12 k p q)))%Qc)) (zrange (a / 12) (b / 12))).
Proof.
  intros Hk Hr Hy Hb. rewrite years_by_month; auto.
  - f_equal. apply map_ext. intros q. do 2 f_equal.
    assert (L := one_change_level (12 * p + k) r). f_equal.
    + rewrite L. unfold step. destruct (Z.leb_spec (12 * p + k) b); [ring|lia].
    + rewrite (average_affine 12 _ (if v then step (12 * p + k) else earning 12 (step (12 * p + k))) r); [|lia|intros x; destruct v; [apply L|apply earning_affine; [lia|exact L]]].
      f_equal. f_equal. destruct v; [apply (part_area 12 k p q)|apply (share_area 12 k p q)]; lia.
  - split; [repeat constructor; intros []|]. intros c [<-|[]]; auto.
  - intros c [<-|[]]. eexists; reflexivity.
Qed.

(** * The estimator *)
Lemma qprod_upd (F : Z -> Qc) x e D : NoDup D -> In e D -> qprod (map (fun d => if e =? d then (x * F d)%Qc else F d) D) = (x * qprod (map F D))%Qc.
Proof.
  induction D as [|a D IH]; intros N I; [destruct I|]. inversion N; subst. cbn [map qprod fold_right]. destruct (Z.eqb_spec e a) as [->|Ne].
  - rewrite (map_ext_in _ F). { unfold qprod. ring. } intros d Hd. destruct (Z.eqb_spec a d); [congruence|auto].
  - destruct I as [->|I]; [congruence|]. unfold qprod in *. rewrite IH by auto. ring.
Qed.
Lemma qprod_split (G : Z * Qc -> Qc) ch D : NoDup D -> (forall c, In c ch -> In (fst c) D) ->
  qprod (map (fun d => qprod (map G (filter (fun c => fst c =? d) ch))) D) = qprod (map G ch).
Proof.
  intros N. induction ch as [|c ch IH]; intros H.
  - cbn [filter map qprod fold_right]. clear. induction D as [|a D IH]; [reflexivity|]. cbn [map]. unfold qprod in *. cbn [fold_right]. rewrite IH. ring.
  - cbn [map]. change (qprod (G c :: map G ch)) with (G c * qprod (map G ch))%Qc. rewrite <- IH by (intros; apply H; right; auto).
    rewrite <- (qprod_upd _ (G c) (fst c)) by (auto; apply H; left; auto). f_equal. apply map_ext. intros d. cbn [filter]. destruct (Z.eqb_spec (fst c) d); reflexivity.
Qed.
Lemma qprod_pos l : (forall x, In x l -> (0 < x)%Qc) -> (0 < qprod l)%Qc.
Proof.
  induction l as [|a l IH]; intros H; [reflexivity|]. change (qprod (a :: l)) with (a * qprod l)%Qc.
  assert (0 < a)%Qc by (apply H; left; auto). assert (0 < qprod l)%Qc by (apply IH; intros; apply H; right; auto). qnra.
Qed.
Lemma sorted_NoDup l : StronglySorted Z.lt l -> NoDup l.
Proof.
  induction 1 as [|a l S IH F]; constructor; auto. intros I. rewrite Forall_forall in F. specialize (F a I). lia.
Qed.
Lemma merged_dates ch : map fst (merged ch) = zunion (map fst ch) [].
Proof. unfold merged. rewrite map_map. apply map_id. Qed.
Lemma merged_rate ch x : rate_level (merged ch) x = rate_level ch x.
Proof.
  unfold rate_level. set (G := fun c : Z * Qc => if fst c <=? x then (1 + snd c)%Qc else 1%Qc).
  rewrite <- (qprod_split G ch (zunion (map fst ch) [])).
  - unfold merged. rewrite map_map. f_equal. apply map_ext. intros d. unfold G. cbn [fst snd].
    assert (E : forall l, (forall c, In c l -> fst c = d) -> qprod (map (fun c : Z * Qc => if fst c <=? x then (1 + snd c)%Qc else 1%Qc) l) = if d <=? x then qprod (map (fun c => (1 + snd c)%Qc) l) else 1%Qc).
    { induction l as [|c l IH]; intros H; [destruct (d <=? x); reflexivity|]. cbn [map]. unfold qprod in *. cbn [fold_right]. rewrite IH by (intros; apply H; right; auto).
      rewrite (H c) by (left; auto). destruct (d <=? x); ring. }
    rewrite E by (intros c Hc; apply filter_In in Hc; destruct Hc as [_ Hc]; apply Z.eqb_eq; auto). destruct (d <=? x); [ring|reflexivity].
  - apply sorted_NoDup, zunion_sorted.
  - intros c Hc. apply zunion_In. left. apply in_map; auto.
Qed.
Lemma merged_sound ch : positive_changes ch -> sound_history (merged ch).
Proof.
  intros P. split. { rewrite merged_dates. apply sorted_NoDup, zunion_sorted. }
  intros c Hc. unfold merged in Hc. apply in_map_iff in Hc. destruct Hc as (d & <- & _). cbn [snd].
  match goal with |- (0 < 1 + (?p - 1))%Qc => replace (1 + (p - 1))%Qc with p by ring end.
  apply qprod_pos. intros y Hy. apply in_map_iff in Hy. destruct Hy as (c & <- & Hc). apply filter_In in Hc. apply P, Hc.
Qed.
Lemma merged_months ch : on_month_starts ch -> on_month_starts (merged ch).
Proof.
  intros P c Hc. apply (in_map fst) in Hc. rewrite merged_dates in Hc. apply zunion_In in Hc. destruct Hc as [Hc|[]]. apply in_map_iff in Hc.
  destruct Hc as (c' & <- & Hc). apply P; auto.
Qed.
