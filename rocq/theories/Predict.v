(** Applying a fitted method to another triangle: the reserving methods' [predict]
    (methods/base.py, chainladder.py, benktander.py).  Definitions only. *)
From Verif Require Export View Methods.
Local Open Scope Z_scope.

(** methods/base.py 114: the ages of the fitted triangle are added to the new one.
    [m] is the fitted triangle, in development view.  [sum(2)] is a plain number if
    the fitted triangle has a single age; that case is not modelled. *)
Definition add_model_ages (m t : tri) : result tri :=
  do a <- iloc_first m;
  do z <- mul_arr (sum_axis a AxOrigin) (scalar_arr 0%Qc);
  tri_op OAdd t z.

(** The entries of an index key under the given key labels. *)
Definition key_part (labels key common : list string) : list string :=
  map (fun c => match find_str c labels with Ok n => nth n key EmptyString | Err _ => EmptyString end) common.
(** Rows of [a] whose key, read under the common labels, is one of those of [b]. *)
Definition shared_rows (common : list string) (a b : tri) : list nat :=
  filter (fun i => existsb (fun j => strs_eqb (key_part (key_labels a) (row_key a i) common) (key_part (key_labels b) (row_key b j) common))
                           (seq 0 (List.length (kdims b))))
         (seq 0 (List.length (kdims a))).
(** methods/base.py 122-138 [intersection]: the index rows shared by the two, each in
    its own order.  Sets of labels and keys are modelled as lists; their order does
    not matter to the result. *)
Definition intersection (a b : tri) : result (tri * tri) :=
  let one t := (List.length (kdims t) =? 1)%nat in
  let common := common_labels a b in
  if one a && one b then Ok (a, b)
  else match common with
  | [] => Ok (a, b)
  | _ =>
    if (one a || one b) && match shared_rows common a b with [] => true | _ => false end then Ok (a, b)
    else do b' <- iloc_rows b (shared_rows common b a);
         do a' <- iloc_rows a (shared_rows common a b);
         Ok (a', b')
  end.

(** methods/base.py 92-120 [predict]: the new triangle with the ages of the fitted one,
    and the fitted factors of its rows.  [l] are the fitted factors. *)
Definition predict_input (m l t : tri) : result (tri * tri) :=
  do t' <- val_to_dev t;
  if existsb (fun a => zmaxl (dlist (ddims l)) (hd 0 (dlist (ddims l))) <? a) (dlist (ddims t')) then Err ValueError
  else do x <- add_model_ages m t'; intersection x l.

(** methods/chainladder.py 53-67 [predict]: the triangle returned and its ultimate. *)
Definition cl_predict (m l t : tri) : result (tri * tri) :=
  do p <- predict_input m l t;
  do u <- cl_ultimate (fst p) (snd p);
  Ok (fst p, u).

(** methods/benktander.py 70-90 [predict] with [apriori_sigma = 0]; BornhuetterFerguson is
    the case of one iteration. *)
Definition benktander_predict (n_iters : nat) (apriori : Qc) (m l t sw : tri) : result (tri * tri) :=
  do p <- predict_input m l t;
  do u <- benktander n_iters apriori (fst p) (snd p) sw;
  Ok (fst p, u).
