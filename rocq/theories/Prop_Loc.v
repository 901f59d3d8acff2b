(** Property C16: positional slicing. *)
From Coq Require Import Lia.
From Verif Require Import SpecLoc P_Loc Ex.
Local Open Scope Z_scope.

(** C16. [iloc] with an integer, a slice or a list on each axis returns the cells asked
    for, in the order asked for, with their labels; the valuation date becomes the
    latest valuation left, if that is earlier. *)
Theorem C16_iloc : forall t k0 k1 k2 k3 p0 p1 p2 p3, wf t ->
  asks_for k0 (ax0 (values t)) p0 -> asks_for k1 (ax1 (values t)) p1 -> asks_for k2 (ax2 (values t)) p2 -> asks_for k3 (ax3 (values t)) p3 ->
  plain_key k0 (ax0 (values t)) p0 -> plain_key k1 (ax1 (values t)) p1 -> plain_key k2 (ax2 (values t)) p2 -> plain_key k3 (ax3 (values t)) p3 ->
  even_key k2 p2 -> even_key k3 p3 ->
  exists u, iloc t k0 k1 k2 k3 = Ok u /\ taken t u p0 p1 p2 p3 /\ (no_ultimate t -> latest_left t u p2 p3).
Proof. exact iloc_ok. Qed.
Print Assumptions C16_iloc.

(** C16. A list of origins or of ages that is not evenly spaced is refused. *)
Theorem C16_uneven_origins_rejected : forall t k0 k1 l k3 p0 p1 p2 p3,
  asks_for k0 (ax0 (values t)) p0 -> asks_for k1 (ax1 (values t)) p1 -> asks_for (KList l) (ax2 (values t)) p2 -> asks_for k3 (ax3 (values t)) p3 ->
  plain_key k0 (ax0 (values t)) p0 -> plain_key k1 (ax1 (values t)) p1 -> plain_key (KList l) (ax2 (values t)) p2 -> plain_key k3 (ax3 (values t)) p3 ->
  ~ progression p2 -> iloc t k0 k1 (KList l) k3 = Err ValueError.
Proof. exact iloc_uneven. Qed.
Print Assumptions C16_uneven_origins_rejected.

Theorem C16_uneven_ages_rejected : forall t k0 k1 k2 l p0 p1 p2 p3,
  asks_for k0 (ax0 (values t)) p0 -> asks_for k1 (ax1 (values t)) p1 -> asks_for k2 (ax2 (values t)) p2 -> asks_for (KList l) (ax3 (values t)) p3 ->
  plain_key k0 (ax0 (values t)) p0 -> plain_key k1 (ax1 (values t)) p1 -> plain_key k2 (ax2 (values t)) p2 -> plain_key (KList l) (ax3 (values t)) p3 ->
  ~ progression p3 -> iloc t k0 k1 k2 (KList l) = Err ValueError.
Proof. exact iloc_uneven_dev. Qed.
Print Assumptions C16_uneven_ages_rejected.

(** C16. A position outside the axis is refused. *)
Theorem C16_outside_rejected : forall t z k1 k2 k3, z < - Z.of_nat (ax0 (values t)) \/ Z.of_nat (ax0 (values t)) <= z ->
  iloc t (KInt z) k1 k2 k3 = Err IndexError.
Proof. exact iloc_outside. Qed.
Print Assumptions C16_outside_rejected.

(** Ages 36 and 12 of the two latest origins of a three by three triangle. *)
Definition rev_u := Ex.get ex3 (iloc ex3 (KInt (-1)) (KSlice None None None) (KSlice (Some (-2)) None None) (KList [2; 0])).
Example C16_example : wf ex3 /\
  asks_for (KInt (-1)) (ax0 (values ex3)) [0%nat] /\ asks_for (KSlice None None None) (ax1 (values ex3)) [0%nat] /\
  asks_for (KSlice (Some (-2)) None None) (ax2 (values ex3)) [1; 2]%nat /\ asks_for (KList [2; 0]) (ax3 (values ex3)) [2; 0]%nat /\
  plain_key (KInt (-1)) (ax0 (values ex3)) [0%nat] /\ plain_key (KSlice None None None) (ax1 (values ex3)) [0%nat] /\
  plain_key (KSlice (Some (-2)) None None) (ax2 (values ex3)) [1; 2]%nat /\ plain_key (KList [2; 0]) (ax3 (values ex3)) [2; 0]%nat /\
  even_key (KSlice (Some (-2)) None None) [1; 2]%nat /\ even_key (KList [2; 0]) [2; 0]%nat /\ no_ultimate ex3 /\
  iloc ex3 (KInt (-1)) (KSlice None None None) (KSlice (Some (-2)) None None) (KList [2; 0]) = Ok rev_u /\
  ddims rev_u = Ages [36; 12] /\ cel rev_u 0 0 0 1 = cel ex3 0 0 1 0.
Proof.
  split; [apply wfb_ok; vm_compute; reflexivity|].
  split; [exists 0%nat; split; [reflexivity|]; split; [vm_compute; lia|right; reflexivity]|].
  split; [reflexivity|]. split; [reflexivity|].
  split; [repeat constructor|].
  split; [split; [discriminate|exact I]|]. split; [split; [discriminate|left; reflexivity]|].
  split; [split; [discriminate|left; reflexivity]|].
  split; [split; [discriminate|right; exists 1%nat; split; [cbn; lia|discriminate]]|].
  split; [exact I|]. split; [exists 2, (-2); split; [lia|]; intros [|[|k]] Hk; cbn in *; lia|].
  split; [cbn; intros [H|[H|[H|[]]]]; discriminate|].
  split; [apply get_ok; vm_compute; reflexivity|]. split; vm_compute; reflexivity.
Qed.
Example C16_uneven_example : ~ progression [0; 1; 3]%nat.
Proof. intros (a & s & _ & H). pose proof (H 0%nat ltac:(cbn; lia)). pose proof (H 1%nat ltac:(cbn; lia)). pose proof (H 2%nat ltac:(cbn; lia)). cbn in *. lia. Qed.

(** Boundary of C16: a slice over a whole axis loses its step: [iloc[..., ::2]] returns
    every age. *)
Theorem C16_whole_axis_step_refuted :
  exists t u, wf t /\ asks_for (KSlice None None (Some 2)) (ax3 (values t)) [0; 2]%nat /\
    iloc t (KInt 0) (KInt 0) (KSlice None None None) (KSlice None None (Some 2)) = Ok u /\ ddims u = Ages [12; 24; 36].
Proof.
  exists ex3, (Ex.get ex3 (iloc ex3 (KInt 0) (KInt 0) (KSlice None None None) (KSlice None None (Some 2)))).
  split; [apply wfb_ok; vm_compute; reflexivity|]. split; [reflexivity|]. split; [apply get_ok|]; vm_compute; reflexivity.
Qed.
Print Assumptions C16_whole_axis_step_refuted.

(** Boundary of C16: a backward slice that starts at the first position returns the whole
    axis instead of that one position: [iloc[..., 0::-1]]. *)
Theorem C16_backward_from_first_refuted :
  exists t u, wf t /\ asks_for (KSlice (Some 0) None (Some (-1))) (ax3 (values t)) [0]%nat /\
    iloc t (KInt 0) (KInt 0) (KSlice None None None) (KSlice (Some 0) None (Some (-1))) = Ok u /\ ddims u = Ages [12; 24; 36].
Proof.
  exists ex3, (Ex.get ex3 (iloc ex3 (KInt 0) (KInt 0) (KSlice None None None) (KSlice (Some 0) None (Some (-1))))).
  split; [apply wfb_ok; vm_compute; reflexivity|]. split; [reflexivity|]. split; [apply get_ok|]; vm_compute; reflexivity.
Qed.
Print Assumptions C16_backward_from_first_refuted.

(** Boundary of C16: the same position asked for twice raises. *)
Theorem C16_repeated_position_refuted :
  exists t, wf t /\ asks_for (KList [1; 1]) (ax2 (values t)) [1; 1]%nat /\
    iloc t (KInt 0) (KInt 0) (KList [1; 1]) (KSlice None None None) = Err ValueError.
Proof. exists ex3. split; [apply wfb_ok; vm_compute; reflexivity|]. split; [repeat constructor|vm_compute; reflexivity]. Qed.
Print Assumptions C16_repeated_position_refuted.
