(** Outstanding amounts from age to age. *)
From Coq Require Import Lia.
From Verif Require Export P_Out10.
Local Open Scope nat_scope.

Section Walk.
Variables (n : nat) (F : nat -> nat -> cell) (K : nat -> nat -> nat -> cell) (i o : nat).
Hypotheses (Hn : 3 <= n) (Ho : o < n) (HF : forall d, F i d <> Some 0%Qc).

Lemma Cc_none d : Lt n K i o = None -> Cc n F K i o d = None.
Proof using. clear. intros E. unfold Cc, Xv. rewrite E. destruct (cmul (Some _) _); reflexivity. Qed.
Lemma Vr_at d : d < n -> Vr n F K i o (d + o) = Gr n F K i o d.
Proof using. clear. intros Hd. unfold Vr. destruct (Nat.leb_spec o (d + o)); [|lia]. replace (d + o - o) with d by lia. destruct (Nat.ltb_spec d n); [|lia]. reflexivity. Qed.
Lemma Cc_some d l : d < n -> Lt n K i o = Some l -> (match d with O => True | S e => F i e <> None end) -> Cc n F K i o d = Some (walk n F K i o (d + o) * l)%Qc.
Proof using HF.
  clear Hn Ho. intros Hd E P. unfold Cc, Xv. rewrite E, Vr_at by auto. 
  assert (X : exists x, Gr n F K i o d = Some x /\ x <> 0%Qc).
  { destruct d as [|e]; cbn [Gr]; [exists 1%Qc; split; [auto|discriminate]|]. rewrite E. destruct (F i e) as [x|] eqn:Ex; [|contradiction P; reflexivity]. exists x. split; auto. intros ->. apply (HF e). auto. }
  destruct X as (x & -> & X). rewrite cdiv_Some by auto. cbn [cmul]. f_equal. field. auto.
Qed.
Lemma Cc_gap e : S e < n -> F i e = None -> Cc n F K i o (S e) = None.
Proof using. clear. intros He E. unfold Cc, Xv. rewrite Vr_at by auto. cbn [Gr]. rewrite E. destruct (Lt n K i o); reflexivity. Qed.
Lemma Cc_latest l : Lt n K i o = Some l -> (match n - 1 - o with O => True | S e => F i e <> None end) -> Cc n F K i o (n - 1 - o) = Some l.
Proof using All.
  intros E P. rewrite (Cc_some _ l) by (auto; lia). f_equal. replace (n - 1 - o + o) with (n - 1) by lia. unfold walk. destruct (Nat.ltb_spec (n - 1) n); [|lia]. rewrite Nat.sub_diag. cbn [prodn]. ring.
Qed.
Lemma Cc_step d l x : S d < n -> Lt n K i o = Some l -> (forall e, e < n - 1 -> F i e <> None) -> F i d = Some x ->
  exists y, Cc n F K i o d = Some y /\ Cc n F K i o (S d) = Some (y * x)%Qc.
Proof using All.
  intros Hd E P Ex. exists (walk n F K i o (d + o) * l)%Qc. rewrite (Cc_some d l), (Cc_some (S d) l); auto; try lia.
  2:{ apply P. lia. } 2:{ destruct d; auto. apply P. lia. }
  split; auto. f_equal. cbn [Nat.add]. assert (X0 : x <> 0%Qc) by (intros ->; apply (HF d); auto).
  assert (V : Vr n F K i o (S (d + o)) = Some x). { change (S (d + o)) with (S d + o). rewrite Vr_at by auto. cbn [Gr]. rewrite E. auto. }
  unfold walk. destruct (Nat.ltb_spec (d + o) n) as [L|L].
  - destruct (Nat.ltb_spec (S (d + o)) n) as [L'|L'].
    + replace (n - 1 - (d + o)) with (S (n - 1 - S (d + o))) by lia. cbn [prodn]. replace (n - 1 - (n - 1 - S (d + o))) with (S (d + o)) by lia. rewrite V. unfold recip. rewrite cdiv_Some by auto. cbn [or_one]. field. auto.
    + assert (d + o = n - 1) by lia. replace (n - 1 - (d + o)) with 0 by lia. replace (S (d + o) - (n - 1)) with 1 by lia. cbn [prodn]. rewrite Nat.add_0_r. replace (Vr n F K i o n) with (Some x) by (rewrite <- V; f_equal; lia). cbn [or_one]. ring.
  - destruct (Nat.ltb_spec (S (d + o)) n); [lia|]. replace (S (d + o) - (n - 1)) with (S (d + o - (n - 1))) by lia. cbn [prodn]. replace (n + (d + o - (n - 1))) with (S (d + o)) by lia. rewrite V. cbn [or_one]. ring.
Qed.
End Walk.
