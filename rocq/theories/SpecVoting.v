(** Specification of voting. *)
From Coq Require Export Permutation.
From Verif Require Export SpecMethods SpecLabel Voting.
Local Open Scope Z_scope.

(** The weight given to estimator [e] for a cell. *)
Definition weight_of (w : warr) (i c o e : nat) : Qc :=
  match w with W2 _ _ f => f o e | W3 _ _ _ f => f c o e | W4 _ _ _ _ f => f i c o e end.
(** The array weights_cover the triangle and has one weight per member. *)
Definition weights_cover (t : tri) (w : warr) (n : nat) : Prop :=
  match w with
  | W2 no ne _ => no = ax2 (values t) /\ ne = n
  | W3 nc no ne _ => nc = ax1 (values t) /\ no = ax2 (values t) /\ ne = n
  | W4 ni nc no ne _ => ni = ax0 (values t) /\ nc = ax1 (values t) /\ no = ax2 (values t) /\ ne = n
  end.
Definition member (us : list tri) (e : nat) (i c o : nat) : Qc := nth e (map (fun u => amount u i c o 0) us) 0%Qc.
Definition total_weight (w : warr) (n i c o : nat) : Qc := sumn n (fun e => weight_of w i c o e).
Definition voted (w : warr) (us : list tri) (i c o : nat) : Qc :=
  (sumn (List.length us) (fun e => weight_of w i c o e * member us e i c o) / total_weight w (List.length us) i c o)%Qc.
(** The weights a specification stands for at an origin. *)
Definition mapped (m : list (Z * list Qc)) (o : Z) (r : list Qc) : Prop :=
  exists m1 m2, m = m1 ++ (o, r) :: m2 /\ ~ In o (map fst m2).
(** A voting of [us] (in this order) with weights [w] for the triangle [t]. *)
Definition ready (t : tri) (w : warr) (us : list tri) : Prop :=
  wf t /\ (1 <= ax0 (values t))%nat /\ (1 <= ax1 (values t))%nat /\ us <> [] /\ weights_cover t w (List.length us) /\
  forall u, In u us -> ultimate_frame t u.
