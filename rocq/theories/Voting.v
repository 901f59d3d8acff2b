(** Voting between methods (workflow/voting.py).  Definitions only. *)
From Verif Require Export Arith.
Local Open Scope Z_scope.

(** A numpy array of weights; the last axis runs over the estimators. *)
Inductive warr :=
| W2 (no ne : nat) (f : nat -> nat -> Qc)                            (* origin, estimator *)
| W3 (nc no ne : nat) (f : nat -> nat -> nat -> Qc)                  (* column, origin, estimator *)
| W4 (ni nc no ne : nat) (f : nat -> nat -> nat -> nat -> Qc).       (* index, column, origin, estimator *)
(** The [weights] parameter: nothing, an array (or nested list), a mapping from origins
    or a function of the origin. *)
Inductive wspec :=
| WNone
| WArr (w : warr)
| WMap (m : list (Z * list Qc))
| WFun (f : Z -> list Qc).

(** [np.array] of a list of rows; rows of different lengths raise. *)
Definition rows_arr (rows : list (list Qc)) : result warr :=
  let ne := List.length (hd [] rows) in
  if forallb (fun r => (List.length r =? ne)%nat) rows
  then Ok (W2 (List.length rows) ne (fun o e => nth e (nth o rows []) 0%Qc)) else Err ValueError.
(** Python dict built from items: a later item wins. *)
Definition dict_get (m : list (Z * list Qc)) (k : Z) : option (list Qc) :=
  option_map snd (find (fun p => fst p =? k) (rev m)).
(** voting.py 50-92 [_coerce_assum_vector_to_array]; [dflt] is [default_weighting]. *)
Definition coerce_weights (t : tri) (dflt : list Qc) (s : wspec) : result warr :=
  match s with
  | WNone => Ok (W2 (ax3 (values t)) (List.length dflt) (fun _ e => nth e dflt 0%Qc))
  | WArr w => Ok w
  | WFun f => rows_arr (map f (odims t))
  | WMap m =>
    if forallb (fun p => existsb (Z.eqb (fst p)) (odims t)) m
    then rows_arr (map (fun o => match dict_get m o with Some r => r | None => dflt end) (odims t))
    else Err IndexError                        (* X.origin[X.origin == k][0] *)
  end.
Definition w_origins (w : warr) : nat := match w with W2 no _ _ | W3 _ no _ _ | W4 _ _ no _ _ => no end.
Definition w_estimators (w : warr) : nat := match w with W2 _ ne _ | W3 _ _ ne _ | W4 _ _ _ ne _ => ne end.
(** voting.py 104-124: the checks of [fit]; the checks of names and classes (25-42) and the
    fitting of the members are not modelled.  [dflt] = None is a one for each estimator. *)
Definition fit_weights (t : tri) (n_est : nat) (dflt : option (list Qc)) (s : wspec) : result warr :=
  if (n_est =? 0)%nat then Err ValueError else
  let dflt := match dflt with Some d => d | None => repeat 1%Qc n_est end in
  do w <- coerce_weights t dflt s;
  if negb (w_origins w =? ax2 (values t))%nat then Err ValueError else
  if negb (w_estimators w =? n_est)%nat then Err ValueError else Ok w.

(** voting.py 94-99, 325-345: the weights of estimator [e] as an array to multiply with;
    missing axes are repeated. *)
Definition weight_slice (t : tri) (w : warr) (e : nat) : arr :=
  match w with
  | W2 no _ f => Arr 1 (ax1 (values t)) no 1 (fun _ _ o _ => Some (f o e))
  | W3 nc no _ f => Arr (ax0 (values t)) nc no 1 (fun _ c o _ => Some (f c o e))
  | W4 ni nc no _ f => Arr ni nc no 1 (fun i c o _ => Some (f i c o e))
  end.
Definition weight_sum (t : tri) (w : warr) : arr :=
  match w with
  | W2 no ne f => Arr 1 (ax1 (values t)) no 1 (fun _ _ o _ => Some (sumn ne (fun e => f o e)))
  | W3 nc no ne f => Arr (ax0 (values t)) nc no 1 (fun _ c o _ => Some (sumn ne (fun e => f c o e)))
  | W4 ni nc no ne f => Arr ni nc no 1 (fun i c o _ => Some (sumn ne (fun e => f i c o e)))
  end.
Definition index_ok (t : tri) (w : warr) : bool :=
  match w with W4 ni nc _ _ _ => (ni =? ax0 (values t))%nat && (nc =? ax1 (values t))%nat | _ => true end.
(** [Triangle * array] for each member, numbered from [k]. *)
Fixpoint weigh (t : tri) (w : warr) (k : nat) (us : list tri) : result (list tri) :=
  match us with
  | [] => Ok []
  | u :: r => do x <- mul_arr u (weight_slice t w k); do l <- weigh t w (S k) r; Ok (x :: l)
  end.
(** voting.py 325-345 [_get_ultimate]: [members] are the ultimates the estimators predict,
    None for an estimator set to 'drop'; the others are numbered anew. *)
Fixpoint kept_members (l : list (option tri)) : list tri :=
  match l with [] => [] | Some u :: r => u :: kept_members r | None :: r => kept_members r end.
Definition vote (t : tri) (w : warr) (members : list (option tri)) : result tri :=
  if negb (index_ok t w) then Err ValueError else
  do xs <- weigh t w 0 (kept_members members);
  do s <- py_sum xs;
  div_arr s (weight_sum t w).
Definition voting (t : tri) (dflt : option (list Qc)) (s : wspec) (members : list (option tri)) : result tri :=
  do w <- fit_weights t (List.length members) dflt s;
  vote t w members.
