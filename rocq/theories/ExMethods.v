(** Example inputs for tails and reserving methods. *)
From Coq Require Import Lia.
From Verif Require Export SpecMethods ExDev P_Core.
Local Open Scope Z_scope.

Lemma ex3_method : method_input ex3.
Proof.
  constructor; try reflexivity; try (cbn; lia).
  - apply ex3_wf.
  - apply ex3_blank.
  - split.
    + intros o Ho. cbn in Ho. exists (2 - o)%nat. split; [change (2 - o < 3)%nat; lia|]. do 3 (destruct o as [|o]; [reflexivity|]). lia.
    + exists 0%nat, 1%nat, 3%nat. split; [lia|]. intros d Hd. cbn in Hd. split; [intros _; exists d; lia|].
      intros _. exists (2 - d)%nat. split; [change (2 - d < 3)%nat; lia|]. do 3 (destruct d as [|d]; [reflexivity|]). lia.
Qed.
Lemma ex3_room : room_after ex3 1.
Proof. exists [12; 24; 36]. vm_compute. repeat split; congruence. Qed.

(** Factors for [ex3]: 3/2, 7/6 and a tail of 6/5 in the last two ages. *)
Definition expat : tri := Tri [["Total"%string]] ["Total"%string] ["paid"%string] [y 2001] (Ages [12; 24; 36; 48])
  (Arr 1 1 1 4 (fun _ _ _ d => nth d [Some (qc 3 / qc 2)%Qc; Some (qc 7 / qc 6)%Qc; Some (qc 6 / qc 5)%Qc; Some 1%Qc] None))
  ULT_VAL (Some false) true GY GY.
Lemma expat_pattern : pattern_for ex3 expat.
Proof.
  constructor; try reflexivity; try discriminate.
  - apply wfb_ok; vm_compute; reflexivity.
  - exists [12; 24; 36], [48]. auto.
Qed.
(** Exposure of 200, 300 and 250. *)
Definition exexp : tri := tri_of [[Some 200]; [Some 300]; [Some 250]] [y 2001; y 2002; y 2003] (Ages [12]) (dec 2003) (Some true) false.
Lemma exexp_for : exposure_for ex3 exexp.
Proof. constructor; try reflexivity. left; reflexivity. Qed.
(** A tail of 6/5 over two years. *)
Definition extail : tail_params := TailParams (qc 6 / qc 5)%Qc (qc 1 / qc 2)%Qc (qc 1 / qc 10)%Qc None 2.
