(** The whole fit of outstanding amounts. *)
From Coq Require Import Lia.
From Verif Require Import P_Corr5 P_Select2 SpecLoc.
From Verif Require Export P_Out9 P_Out5 P_Out3 P_Out2 SpecOutst.
Local Open Scope nat_scope.

(** What [os_set_ldf] makes of a triangle and two patterns. *)
Record rolled (nm : os_names) (t : tri) (n h : nat) (o0 a0 : Z) (p q : nat) (F G : nat -> nat -> cell) (s : outstanding) : Prop := {
  ro_case : part t n true true (last_month n h o0 a0) (os_case_ s) (Cc n F (kcase t n p q));
  ro_paid : part t n true true ULT_VAL (os_paid_ s) (fun i o d => n2n (Some (full_paid t n (Cc n F (kcase t n p q)) G p i o d)));
  ro_ldf : kdims (os_ldf_ s) = kdims t /\ vdims (os_ldf_ s) = os_cols t nm /\ odims (os_ldf_ s) = odims t /\ ddims (os_ldf_ s) = Ages (agl h a0 0 (n - 1)) /\
    is_pattern (os_ldf_ s) = true /\ is_cumulative (os_ldf_ s) = Some false;
  ro_cell : forall i c o d, i < ax0 (values t) -> c < List.length (os_cols t nm) -> o < n -> d < n - 1 ->
    let X := full_paid t n (Cc n F (kcase t n p q)) G p in
    let f := factor_at t n X (full_inc t n (Cc n F (kcase t n p q)) X q) nm in
    cel (os_ldf_ s) i c o d = if S d <? n - 1 then Some (factor (f i c o d) / factor (f i c o (S d)))%Qc else Some (factor (f i c o d)) }.

Section Out.
Variables (nm : os_names) (t : tri) (n h : nat) (o0 a0 : Z) (p q : nat).
Hypotheses (I : os_input nm t n p q) (Q : square t n o0 a0 h) (Gd : grain_months (dgrain t) = Z.of_nat h) (Go : grain_months (ograin t) = Z.of_nat h)
  (U1 : (o0 + a0 + Z.of_nat (h * (3 * n)) < 12 * 2261)%Z) (U2 : (a0 + Z.of_nat (h * (2 * n)) < 9999)%Z).
Local Notation M := (last_month n h o0 a0).
Local Notation hyp L := (L t n h o0 a0 (oi_wf _ _ _ _ _ I) (oi_blank _ _ _ _ _ I) Q (oi_n _ _ _ _ _ I) (oi_0 _ _ _ _ _ I)).

Lemma far : (M < 12 * 2261)%Z /\ (M < o0 + 9998)%Z /\ (M + Z.of_nat h * Z.of_nat (n - 1) < 12 * 2261)%Z.
Proof using All. unfold last_month. pose proof (oi_n _ _ _ _ _ I). assert (1 <= h) by apply Q. nia. Qed.
Lemma names_differ : on_paid nm <> on_incurred nm.
Proof using All.
  intros E. apply (oi_ne _ _ _ _ _ I). pose proof (oi_p _ _ _ _ _ I) as P. pose proof (oi_q _ _ _ _ _ I) as R. rewrite <- E in R.
  refine (proj1 (NoDup_nth_error (vdims t)) (oi_cols _ _ _ _ _ I) p q _ _); [apply nth_error_Some; congruence|congruence].
Qed.
Lemma column_at name j : nth_error (vdims t) j = Some name -> ~ In name (key_labels t) ->
  exists u, column t name = Ok u /\ part t n true true (vdate t) u (fun i o d => cel t i j o d) /\ is_pattern u = false /\ is_cumulative u = Some true.
Proof using All.
  intros E K. pose proof (oi_n _ _ _ _ _ I) as Hn. destruct (column_part t n h o0 a0 (oi_wf _ _ _ _ _ I) Q ltac:(lia) (oi_0 _ _ _ _ _ I) name j (oi_cols _ _ _ _ _ I) E K) as (u & Eu & P & _).
  exists u. split; auto. split; auto.
  destruct (name_taken t name j (oi_wf _ _ _ _ _ I) (oi_cols _ _ _ _ _ I) (oi_0 _ _ _ _ _ I) K E) as (u' & Eu' & T & _). unfold column in Eu. rewrite Eu' in Eu. cbn [rbind] in Eu. injection Eu as ->.
  rewrite (tk_pat _ _ _ _ _ _ T), (tk_cum _ _ _ _ _ _ T), (oi_pat _ _ _ _ _ I), (oi_cum _ _ _ _ _ I). auto.
Qed.
Lemma Lt_held i o : o < n -> Lt n (kcase t n p q) i o = n2n (Some (latest_held t n p q i o)).
Proof using All. intros Ho. unfold Lt, kcase, latest_held, held. destruct (Nat.ltb_spec (o + (n - 1 - o)) n); [|lia]. apply n2n_idem. Qed.

Lemma set_all cl pl v v1 F G : blk t (orgs h o0 0 1) (Ages (agl h a0 1 (n - 1))) v cl (fun i _ d => F i d) -> is_cumulative cl = Some false -> (forall i d, F i d <> Some 0%Qc) ->
  blk t (orgs h o0 0 1) (Ages (agl h a0 1 (n - 1))) v1 pl (fun i _ d => G i d) ->
  (exists i o, i < ax0 (values t) /\ 1 <= o < n /\ latest_held t n p q i o <> 0%Qc) ->
  exists s, os_set_ldf nm cl pl t = Ok s /\ rolled nm t n h o0 a0 p q F G s.
Proof using All.
  intros Bc Cc0 HF Bp (i0 & j0 & Hi0 & Hj0 & Hh). pose proof (oi_n _ _ _ _ _ I) as Hn. destruct far as (Fa & Fb & Fc).
  destruct (column_at _ _ (oi_p _ _ _ _ _ I) (oi_pl _ _ _ _ _ I)) as (pd & Ep & Pp & Fp & Cp). destruct (column_at _ _ (oi_q _ _ _ _ _ I) (oi_ql _ _ _ _ _ I)) as (ic & Ei & Pi & Fi & Ci).
  destruct (hyp case_ok p q pd ic Pp Pi) as (c & Ec & Pc & _).
  destruct (hyp case_all Gd Go Fa Fb cl c v F _ Bc Cc0 HF Pc Fc) as (cs & Es & Ps & _ & Fs).
  { exists i0, j0. repeat split; try lia. rewrite Lt_held by lia. unfold n2n. destruct (Qc_eqb_spec (latest_held t n p q i0 j0) 0%Qc); [contradiction|discriminate]. }
  destruct (hyp paid_all (oi_keys _ _ _ _ _ I) Fa cs pl pd v1 _ G p Ps Bp Pp Fp Cp) as (fp & Ef & Pf & _ & Ff & _).
  assert (Hq : q < ax1 (values t)). { rewrite (wf_v _ (oi_wf _ _ _ _ _ I)). apply nth_error_Some. rewrite (oi_q _ _ _ _ _ I). discriminate. }
  destruct (hyp incurred_all (oi_keys _ _ _ _ _ I) Fa cs fp ic _ _ q Hq Ps Fs Pf Ff Pi Fi) as (fi & Efi & Pfi & _ & _).
  destruct (hyp factors_all (oi_pat _ _ _ _ _ I) (oi_cols _ _ _ _ _ I) Fa fp fi _ _ nm p q Pf Ff Pfi (oi_p _ _ _ _ _ I) (oi_q _ _ _ _ _ I) names_differ)
    as (l & El & _ & L1 & _ & L2 & L3 & L4 & _ & L5 & L6 & _ & _ & _ & _ & L7).
  exists (OS l cs fp). split.
  - unfold os_set_ldf. rewrite Ep. cbn [rbind]. rewrite Ei. cbn [rbind]. rewrite Ec. cbn [rbind]. rewrite Es. cbn [rbind]. rewrite Ef. cbn [rbind]. rewrite Efi. cbn [rbind]. rewrite El. reflexivity.
  - constructor; cbn [os_case_ os_paid_ os_ldf_]; auto 10.
Qed.

Lemma mean_avg (f : nat -> cell) (g : nat -> option Qc) : (forall o, o < n -> n2n (f o) = g o) -> avg0 f n = mean_share n g.
Proof using.
  clear. intros E. unfold avg0, mean_share. f_equal. cbn [agg_line].
  replace (map (fun o => n2n (f o)) (seq 0 n)) with (map g (seq 0 n)) by (apply map_ext_in; intros o Ho; apply in_seq in Ho; rewrite E by lia; reflexivity).
  assert (L : List.length (Agg.present (map g (seq 0 n))) = List.length (filter (fun o => match g o with Some _ => true | None => false end) (seq 0 n))).
  { generalize (seq 0 n). intros l. induction l as [|x l IH]; auto. cbn [map filter]. rewrite present_cons, app_length, IH. destruct (g x); reflexivity. }
  cbv zeta. rewrite <- L. replace (sumn n (fun o => nz (g o))) with (qsum (Agg.present (map g (seq 0 n)))) by apply qsum_present. unfold mean_of. destruct (Agg.present (map g (seq 0 n))); reflexivity.
Qed.
Lemma avg0_nz f k : avg0 f k <> Some 0%Qc.
Proof using. clear. unfold avg0. generalize (agg_line AMean (map (fun o => n2n (f o)) (seq 0 k))). intros [x|]; cbn; [|discriminate]. destruct (Qc_eqb_spec x 0%Qc); congruence. Qed.

Lemma share_cells x y (w : cell) : n2n (cdiv (cmul (n2n (Some x)) w) (n2n (Some y))) = match w with Some k => if Qc_eqb k 0%Qc then None else if Qc_eqb k 1%Qc then share x y else n2n (cdiv (cmul (n2n (Some x)) w) (n2n (Some y))) | None => None end.
Proof using.
  clear. unfold share, n2n. destruct w as [k|]; [|destruct (Qc_eqb x 0%Qc); reflexivity].
  destruct (Qc_eqb_spec k 0%Qc) as [-> |K0].
  - destruct (Qc_eqb_spec x 0%Qc); [reflexivity|]. cbn [cmul]. destruct (Qc_eqb_spec y 0%Qc); [reflexivity|]. rewrite cdiv_Some by auto. replace (x * 0 / y)%Qc with 0%Qc by (field; auto). reflexivity.
  - destruct (Qc_eqb_spec k 1%Qc) as [-> |K1]; [|reflexivity].
    destruct (Qc_eqb_spec x 0%Qc); [reflexivity|]. cbn [cmul]. destruct (Qc_eqb_spec y 0%Qc); [cbn; reflexivity|]. rewrite cdiv_Some by auto. cbn [orb]. replace (x * 1 / y)%Qc with (x / y)%Qc by (field; auto).
    destruct (Qc_eqb_spec (x / y) 0%Qc) as [E|E]; [|reflexivity]. exfalso. apply n. transitivity (x / y * y)%Qc; [field; auto|rewrite E; ring].
Qed.

Lemma in_last_used N o d : o + S d < n -> in_last n N o d = used n N o d.
Proof using.
  clear. intros L. unfold in_last, used. destruct (Nat.ltb_spec (o + S d) n); [|lia]. cbn [andb].
  destruct (Z.ltb_spec N 1); [reflexivity|]. cbn [orb]. destruct (Z.leb_spec (Z.of_nat n - 1) N); [|reflexivity]. cbn [orb]. symmetry. apply Z.leb_le. lia.
Qed.
Lemma ratio_share N w x y o d : (forall o d, o + d + 1 < n -> if in_last n N o d then av w 0 0 o d = Some 1%Qc else av w 0 0 o d = None \/ av w 0 0 o d = Some 0%Qc) ->
  n2n (cdiv (cmul (if o + S d <? n then n2n (Some x) else None) (av w 0 0 o d)) (if o + d <? n then n2n (Some y) else None)) = if used n N o d then share x y else None.
Proof using.
  clear. intros Hw. destruct (Nat.ltb_spec (o + S d) n) as [L|L].
  - destruct (Nat.ltb_spec (o + d) n); [|lia]. rewrite share_cells. specialize (Hw o d ltac:(lia)). rewrite in_last_used in Hw by auto. destruct (used n N o d); [rewrite Hw; reflexivity|]. destruct Hw as [-> | ->]; reflexivity.
  - unfold used. destruct (Nat.ltb_spec (o + S d) n); [lia|]. reflexivity.
Qed.

Record fitted_os (pn cn : Z) (r : os_fitted) : Prop := {
  fo_cr : exists v f, blk t (odims t) (Ages (agl h a0 1 (n - 1))) v (of_case_ratio r) f /\ forall i o d, o < n -> n2n (f i o d) = held_share t n p q cn i o d;
  fo_pr : exists v f, blk t (odims t) (Ages (agl h a0 1 (n - 1))) v (of_paid_ratio r) f /\ forall i o d, o < n -> n2n (f i o d) = paid_share t n p q pn i o d;
  fo_cl : exists v, blk t (orgs h o0 0 1) (Ages (agl h a0 1 (n - 1))) v (of_case_ldf r) (fun i _ d => mean_share n (fun o => held_share t n p q cn i o d));
  fo_pl : exists v, blk t (orgs h o0 0 1) (Ages (agl h a0 1 (n - 1))) v (of_paid_ldf r) (fun i _ d => mean_share n (fun o => paid_share t n p q pn i o d));
  fo_cum : is_cumulative (of_case_ldf r) = Some false;
  fo_set : os_set_ldf nm (of_case_ldf r) (of_paid_ldf r) t = Ok (of_set r) }.

Lemma mean_nz g : mean_share n g <> Some 0%Qc.
Proof using. clear. unfold mean_share. cbv zeta. match goal with |- n2n ?x <> _ => generalize x end. intros [x|]; cbn; [|discriminate]. destruct (Qc_eqb_spec x 0%Qc); congruence. Qed.

Lemma fit_all pn cn : os_data t n p q -> exists r, os_fit nm pn cn t = Ok r /\ fitted_os pn cn r.
Proof using All.
  intros [T L]. pose proof (oi_n _ _ _ _ _ I) as Hn.
  assert (H1 : 1 <= ax1 (values t)). { rewrite (wf_v _ (oi_wf _ _ _ _ _ I)). assert (p < List.length (vdims t)) by (apply nth_error_Some; rewrite (oi_p _ _ _ _ _ I); discriminate). lia. }
  destruct (hyp weights_ok H1 (oi_pat _ _ _ _ _ I) Gd Go T pn) as (pw & Epw & Dpw & Wpw). destruct (hyp weights_ok H1 (oi_pat _ _ _ _ _ I) Gd Go T cn) as (cw & Ecw & Dcw & Wcw).
  destruct (column_at _ _ (oi_p _ _ _ _ _ I) (oi_pl _ _ _ _ _ I)) as (pd & Ep & Pp & Fp & Cp). destruct (column_at _ _ (oi_q _ _ _ _ _ I) (oi_ql _ _ _ _ _ I)) as (ic & Ei & Pi & Fi & Ci).
  destruct (hyp case_ratio_ok p q cw pd ic Pp Pi Dcw) as (cr & v & Ecr & Bcr & Fcr & _). destruct (hyp paid_ratio_ok p q pw pd ic Pp Pi Dpw Fp Cp) as (pr & v' & Epr & Bpr & _).
  assert (Lg : 2 <= List.length (dlist (Ages (agl h a0 1 (n - 1))))) by (cbn [dlist]; rewrite agl_len; lia).
  destruct (hyp average_ok v cr _ _ Bcr Lg) as (cl & Ecl & Fcl & _ & Bcl). destruct (hyp average_ok v' pr _ _ Bpr Lg) as (pl & Epl & _ & _ & Bpl).
  assert (Rc : forall i o d, o < n -> n2n (rcase t n p q cw i o d) = held_share t n p q cn i o d). { intros. unfold rcase, kcase. apply (ratio_share cn cw). exact Wcw. }
  assert (Rp : forall i o d, o < n -> n2n (rpaid t n p q pw i o d) = paid_share t n p q pn i o d). { intros. unfold rpaid, kcase, kpaid. apply (ratio_share pn pw). exact Wpw. }
  assert (Bcl' : blk t (orgs h o0 0 1) (Ages (agl h a0 1 (n - 1))) v cl (fun i _ d => mean_share n (fun o => held_share t n p q cn i o d))).
  { eapply blk_ext; [exact Bcl|]. intros. cbv beta. apply mean_avg. intros. apply Rc. auto. }
  assert (Bpl' : blk t (orgs h o0 0 1) (Ages (agl h a0 1 (n - 1))) v' pl (fun i _ d => mean_share n (fun o => paid_share t n p q pn i o d))).
  { eapply blk_ext; [exact Bpl|]. intros. cbv beta. apply mean_avg. intros. apply Rp. auto. }
  destruct (set_all cl pl v v' _ _ Bcl' ltac:(congruence) (fun i d => mean_nz _) Bpl' L) as (s & Es & _).
  exists (OSF cr pr cl pl s). split.
  - unfold os_fit. rewrite Epw. cbn [rbind]. rewrite Ecw. cbn [rbind]. rewrite Ep. cbn [rbind]. rewrite Ei. cbn [rbind]. rewrite Ecr. cbn [rbind]. rewrite Ecl. cbn [rbind]. rewrite Epr. cbn [rbind]. rewrite Epl. cbn [rbind]. rewrite Es. reflexivity.
  - constructor; cbn [of_case_ratio of_paid_ratio of_case_ldf of_paid_ldf of_set]; eauto. congruence.
Qed.
End Out.
