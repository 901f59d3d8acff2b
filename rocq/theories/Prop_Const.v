(** Property C40: external development patterns. *)
From Coq Require Import Lia.
From Verif Require Import SpecConst P_Const P_Tail Ex ExMethods.
Local Open Scope Z_scope.

(** C40. Age-to-age factors are taken as given, for every index row and column. *)
Theorem C40_age_to_age : forall p t g, wf t -> is_pattern t = false -> (1 <= ax0 (values t))%nat -> (1 <= ax1 (values t))%nat -> (2 <= ax3 (values t))%nat ->
  is_val_tri t = false -> all_given p t g ->
  exists l, dev_constant p Ldf t = Ok l /\ wf l /\ fitted_factors t l /\
   forall i c o d, in_range l i c o d -> cel l i c o d = Some (number t g i d).
Proof. exact const_ldf. Qed.
Print Assumptions C40_age_to_age.

(** C40. Cumulative factors: the fitted factors multiply up to the given numbers. *)
Theorem C40_cumulative : forall p t g, wf t -> is_pattern t = false -> (1 <= ax0 (values t))%nat -> (1 <= ax1 (values t))%nat -> (2 <= ax3 (values t))%nat ->
  is_val_tri t = false -> all_given p t g -> (forall k a, In k (kdims t) -> In a (removelast (dlist (ddims t))) -> g k a <> 0%Qc) ->
  exists l, dev_constant p Cdf t = Ok l /\ wf l /\ fitted_factors t l /\
   (forall i c o d, in_range l i c o d ->
     prodn (ax3 (values t) - 1 - d) (fun j => factor (cel l i c o (d + j)%nat)) = number t g i d) /\
   (forall i c o d, in_range l i c o d -> cel (cdf_of l) i c o d = Some (number t g i d)).
Proof. exact const_cdf. Qed.
Print Assumptions C40_cumulative.

(** C40. Chain ladder ultimates on such factors: latest amount times the given cumulative
    factor times the tail. *)
Theorem C40_chain_ladder : forall p q t g, method_input t -> (2 <= ax3 (values t))%nat -> all_given p t g ->
  (forall k a, In k (kdims t) -> In a (removelast (dlist (ddims t))) -> g k a <> 0%Qc) ->
  tp_attach q = None -> tp_tail q <> 0%Qc -> decay_ok q -> room_after t (tp_years q) -> (periods_per_year (dgrain t) * tp_years q < 1000)%nat ->
  exists f l u, dev_constant p Cdf t = Ok f /\ tail_constant q t f = Ok l /\ cl_fit t (Some l) = Ok (l, u) /\ ultimate_frame t u /\
  forall i c o d, in_range t i c o d -> (d < ax3 (values t) - 1)%nat -> month_of t o d = vdate t ->
    stores (cel u i c o 0%nat) (amount t i c o d * (number t g i d * tp_tail q))%Qc.
Proof. exact const_chain_ladder. Qed.
Print Assumptions C40_chain_ladder.

(** C40. An age that is given no number is an error. *)
Theorem C40_missing_age : forall p s t a, wf t -> is_pattern t = false -> (1 <= ax0 (values t))%nat -> (1 <= ax1 (values t))%nat -> (2 <= ax3 (values t))%nat ->
  is_val_tri t = false -> In a (removelast (dlist (ddims t))) ->
  match p with PDict f => f a = None | PRows f => forall k, In k (kdims t) -> f k a = None end ->
  dev_constant p s t = Err KeyError.
Proof. exact const_missing. Qed.
Print Assumptions C40_missing_age.

Definition exdict : patterns := PDict (fun a => if a =? 12 then Some (qc 2) else if a =? 24 then Some (qc 5 / qc 4)%Qc else None).
Definition exnum (_ : list string) (a : Z) : Qc := if a =? 12 then qc 2 else (qc 5 / qc 4)%Qc.
Example C40_hyps : wf ex3 /\ all_given exdict ex3 exnum /\ method_input ex3 /\ room_after ex3 1 /\
  (forall k a, In k (kdims ex3) -> In a (removelast (dlist (ddims ex3))) -> exnum k a <> 0%Qc) /\
  (exists l, dev_constant exdict Cdf ex3 = Ok l /\ cel l 0 0 0 0 = Some (qc 8 / qc 5)%Qc /\ cel l 0 0 0 1 = Some (qc 5 / qc 4)%Qc) /\
  dev_constant exdict Ldf (set_ddims ex3 (Ages [12; 25; 36])) = Err KeyError.
Proof.
  split; [apply ex3_wf|]. split.
  { intros k a _ Ha. cbn in Ha. destruct Ha as [<- | [<- | []]]; reflexivity. }
  split; [apply ex3_method|]. split; [apply ex3_room|]. split.
  { intros k a _ Ha. cbn in Ha. destruct Ha as [<- | [<- | []]]; discriminate. }
  split; [|vm_compute; reflexivity].
  exists (Ex.get ex3 (dev_constant exdict Cdf ex3)). split; [apply get_ok; vm_compute; reflexivity|].
  split; apply cell_eqb_eq; vm_compute; reflexivity.
Qed.
(** One dictionary per row; the second leaves out age 24. *)
Definition exrows : patterns := PRows (fun k a => if a =? 12 then Some (qc 2) else if key_leb k ["a"]%string then Some (qc 3) else None).
Definition ex_2rows : tri := Tri [["a"]; ["b"]]%string ["lob"]%string ["paid"]%string [y 2001; y 2002; y 2003] (Ages [12; 24; 36])
  (Arr 2 1 3 3 (fun i _ o d => if (3 <=? o + d)%nat then None else Some (qc (Z.of_nat (1 + i + 10 * o + 100 * d))))) (dec 2003) (Some true) false GY GY.
Example C40_rows : wf ex_2rows /\ all_given exrows ex_2rows (fun k a => if a =? 12 then qc 2 else if key_leb k ["a"]%string then qc 3 else 1%Qc) /\
  exists l, dev_constant exrows Ldf ex_2rows = Ok l /\ cel l 0 0 0 1 = Some (qc 3) /\ cel l 1 0 0 1 = Some 1%Qc.
Proof.
  split; [apply wfb_ok; vm_compute; reflexivity|]. split.
  { intros k a Hk Ha. cbn in Ha, Hk. cbn [given exrows]. split.
    - exists ["a"]%string. destruct Ha as [<- | [<- | []]]; eexists; (split; [left; reflexivity|reflexivity]).
    - destruct Ha as [<- | [<- | []]]; destruct Hk as [<- | [<- | []]]; vm_compute; auto. }
  exists (Ex.get ex3 (dev_constant exrows Ldf ex_2rows)). split; [apply get_ok; vm_compute; reflexivity|].
  split; apply cell_eqb_eq; vm_compute; reflexivity.
Qed.
