(** Property C44: grid search. *)
From Coq Require Import Lia.
From Verif Require Import SpecSearch P_Search.
Import ListNotations.
Local Open Scope nat_scope.
Local Open Scope string_scope.

(** C44. The grid: every combination of the listed values exactly once, keys in sorted
    order, the last key changing fastest. *)
Theorem C44_grid : forall V (p : list (string * list V)), NoDup (keys p) -> (forall x, In x p -> snd x <> []) ->
  exists sp g, Permutation p sp /\ StronglySorted (fun x y => String.compare (fst x) (fst y) = Lt) sp /\ parameter_grid [p] = Ok g /\
    List.length g = combos sp /\
    (forall ix, choice sp ix -> exists d, nth_error g (row_number sp ix) = Some d /\ chosen sp ix d) /\
    (forall n, n < combos sp -> exists ix, choice sp ix /\ row_number sp ix = n) /\
    (forall ix jx, choice sp ix -> choice sp jx -> row_number sp ix = row_number sp jx -> ix = jx).
Proof. exact @grid_one. Qed.
Print Assumptions C44_grid.
(** A list of grids is searched one grid after the other. *)
Theorem C44_several_grids : forall V (ps : list (list (string * list V))), (forall p x, In p ps -> In x p -> snd x <> []) ->
  exists gs, Forall2 (fun p g => parameter_grid [p] = Ok g) ps gs /\ parameter_grid ps = Ok (List.concat gs).
Proof. exact @grid_several. Qed.
Print Assumptions C44_several_grids.

(** C44. One row of results for each element of the grid, in its order. *)
Theorem C44_rows : forall V M (fit : list (string * V) -> result M) est ps s rows, (forall p, In p ps -> NoDup (keys p)) -> NoDup (keys s) ->
  grid_search fit est ps s = Ok rows -> exists g, parameter_grid ps = Ok g /\ Forall2 (row_of fit est s) g rows.
Proof. exact @search_rows. Qed.
Print Assumptions C44_rows.
Theorem C44_succeeds : forall V M (fit : list (string * V) -> result M) est ps s, (forall p, In p ps -> NoDup (keys p)) -> (forall p x, In p ps -> In x p -> snd x <> []) ->
  (forall p k, In p ps -> In k (keys p) -> In k (keys est)) ->
  (forall e, keys e = keys est -> exists m, fit e = Ok m /\ forall k f, In (k, f) s -> exists x, f m = Ok x) ->
  exists rows, grid_search fit est ps s = Ok rows.
Proof. exact @search_total. Qed.
Print Assumptions C44_succeeds.

(** C44. The order in which parallel jobs finish makes no difference. *)
Theorem C44_any_schedule : forall V M (fit : list (string * V) -> result M) est ps s g order, parameter_grid ps = Ok g -> Permutation order (seq 0 (List.length g)) ->
  forall rows, parallel_search fit est ps s order = Ok (map Some rows) <-> grid_search fit est ps s = Ok rows.
Proof. exact @search_schedule. Qed.
Print Assumptions C44_any_schedule.

(** C44. Unknown parameters and empty lists of values are rejected. *)
Theorem C44_unknown_parameter : forall V M (fit : list (string * V) -> result M) est p k s, NoDup (keys p) -> (forall x, In x p -> snd x <> []) ->
  In k (keys p) -> ~ In k (keys est) -> grid_search fit est [p] s = Err ValueError.
Proof. exact @search_unknown. Qed.
Print Assumptions C44_unknown_parameter.
Theorem C44_no_values : forall V M (fit : list (string * V) -> result M) est ps s p x, In p ps -> In x p -> snd x = [] -> grid_search fit est ps s = Err ValueError.
Proof. intros V M fit est ps s p x A B C. unfold grid_search. rewrite (grid_err ps p x); auto. Qed.
Print Assumptions C44_no_values.

(** C44. A scorer named like a parameter replaces that parameter in the table. *)
Theorem C44_scorer_named_as_parameter_refuted : exists (est : list (string * nat)) p (s : scorers nat nat) rows,
  NoDup (keys p) /\ NoDup (keys s) /\ grid_search (fun e => Ok (List.length e)) est [p] s = Ok rows /\
  parameter_grid [p] = Ok [[("n", 3)]; [("n", 4)]] /\ column rows "n" = [Some 1; Some 1].
Proof.
  exists [("n", 0)], [("n", [3; 4])], [("n", fun m : nat => Ok m)], [[("n", 1)]; [("n", 1)]].
  repeat split; try (repeat constructor; intros []). 
Qed.
Print Assumptions C44_scorer_named_as_parameter_refuted.

(** Two parameters given out of order, two scorers; jobs finishing in another order. *)
Definition exgrid : list (string * list nat) := [("b", [10; 20]); ("a", [1; 2; 3])].
Definition exest : list (string * nat) := [("a", 0); ("b", 0); ("c", 7)].
Definition exfit (e : list (string * nat)) : result nat :=
  Ok (match dget e "a", dget e "b", dget e "c" with Some a, Some b, Some c => a + b + c | _, _, _ => 0 end).
Definition exscore : scorers nat nat := [("x", fun m => Ok m); ("y", fun m => Ok (2 * m))].
Example C44_example : NoDup (keys exgrid) /\ NoDup (keys exscore) /\
  exists rows, grid_search exfit exest [exgrid] exscore = Ok rows /\
   column rows "a" = map Some [1; 1; 2; 2; 3; 3] /\ column rows "b" = map Some [10; 20; 10; 20; 10; 20] /\
   column rows "x" = map Some [18; 28; 19; 29; 20; 30] /\ column rows "y" = map Some [36; 56; 38; 58; 40; 60] /\
   parallel_search exfit exest [exgrid] exscore [3; 0; 5; 1; 4; 2] = Ok (map Some rows).
Proof.
  split; [repeat constructor; cbn; intuition discriminate|]. split; [repeat constructor; cbn; intuition discriminate|].
  eexists. split; [vm_compute; reflexivity|]. vm_compute. repeat split.
Qed.
