(** Saving estimators and pipelines as JSON and reading them back (core/io.py, workflow/gridsearch.py, utils/utility_functions.py).
    Definitions only. *)
From Coq Require Import List String ZArith DecimalString.
From Verif Require Export Num.
Import ListNotations.
Local Open Scope string_scope.

(** A JSON document as a tree.  [JDoc] is a text that is itself the document of an estimator: its class and parameters. *)
Inductive js :=
| JNull | JBool (b : bool) | JInt (z : Z) | JFloat (q : Qc) | JInf (positive : bool) | JText (s : string)
| JDoc (cls : string) (params : list (string * js))
| JArr (l : list js) | JObj (l : list (string * js)).
(** Keys of a Python dictionary. *)
Inductive dkey := DText (s : string) | DInt (z : Z) | DOther.
(** Values of parameters.  [PEst] is an estimator of this library, [PForeign] one of scikit-learn, [PObj] any other object: a function, a
    triangle, a data frame, a numpy number. *)
Inductive pv :=
| PNone | PBool (b : bool) | PInt (z : Z) | PFloat (q : Qc) | PInf (positive : bool) | PText (s : string)
| PDoc (cls : string) (params : list (string * js))
| PTuple (l : list pv) | PList (l : list pv) | PDict (l : list (dkey * pv))
| PEst (cls : string) (params : list (string * pv)) | PForeign | PObj.

Definition key_text (k : dkey) : result string :=
  match k with DText s => Ok s | DInt z => Ok (NilZero.string_of_int (Z.to_int z)) | DOther => Err TypeError end.
(** [json.dumps] of a value.  For a parameter ([top]) core/io.py 80-81 first replaces an estimator by its own document. *)
Fixpoint dump (top : bool) (v : pv) : result js :=
  let all := fix all (l : list pv) : result (list js) :=
    match l with [] => Ok [] | x :: r => do j <- dump false x; do js <- all r; Ok (j :: js) end in
  match v with
  | PNone => Ok JNull | PBool b => Ok (JBool b) | PInt z => Ok (JInt z) | PFloat q => Ok (JFloat q) | PInf p => Ok (JInf p)
  | PText s => Ok (JText s) | PDoc c ps => Ok (JDoc c ps)
  | PTuple l => do js <- all l; Ok (JArr js)
  | PList l => do js <- all l; Ok (JArr js)
  | PDict l =>
    do js <- (fix each (l : list (dkey * pv)) : result (list (string * js)) :=
      match l with [] => Ok [] | (k, x) :: r => do s <- key_text k; do j <- dump false x; do js <- each r; Ok ((s, j) :: js) end) l;
    Ok (JObj js)
  | PEst c ps =>
    if top then
      do js <- (fix each (l : list (string * pv)) : result (list (string * js)) :=
        match l with [] => Ok [] | (k, x) :: r => do j <- dump true x; do js <- each r; Ok ((k, j) :: js) end) ps;
      Ok (JDoc c js)
    else Err TypeError
  | PForeign => Err (if top then AttributeError else TypeError)
  | PObj => Err TypeError
  end.
(** core/io.py 71-82 [to_json] of an estimator. *)
Definition to_json (cls : string) (params : list (string * pv)) : result js := dump true (PEst cls params).

(** A Python dictionary from pairs: a repeated key keeps its place and takes the last value. *)
Fixpoint put {A} (k : string) (v : A) (l : list (string * A)) : list (string * A) :=
  match l with [] => [(k, v)] | (k', v') :: r => if String.eqb k k' then (k, v) :: r else (k', v') :: put k v r end.
Definition dict {A} (l : list (string * A)) : list (string * A) := fold_left (fun acc x => put (fst x) (snd x) acc) l [].
(** [json.loads]. *)
Fixpoint loads (j : js) : pv :=
  match j with
  | JNull => PNone | JBool b => PBool b | JInt z => PInt z | JFloat q => PFloat q | JInf p => PInf p | JText s => PText s
  | JDoc c ps => PDoc c ps
  | JArr l => PList (map loads l)
  | JObj l => PDict (map (fun x => (DText (fst x), snd x)) (dict (map (fun x => (fst x, loads (snd x))) l)))
  end.

(** The parameters of the classes, in alphabetical order as [get_params] gives them, with their defaults, from their constructors. *)
Definition half := PFloat (qcf 1 2).
Definition one := PFloat (qc 1).
Definition zero := PFloat (qc 0).
Definition classes : list (string * list (string * pv)) := [
  ("Chainladder", []); ("MackChainladder", []);
  ("Benktander", [("apriori", one); ("apriori_sigma", PInt 0); ("n_iters", PInt 1); ("random_state", PNone)]);
  ("BornhuetterFerguson", [("apriori", one); ("apriori_sigma", zero); ("random_state", PNone)]);
  ("ExpectedLoss", [("apriori", one); ("apriori_sigma", zero); ("random_state", PNone)]);
  ("CapeCod", [("apriori_sigma", zero); ("decay", PInt 1); ("groupby", PNone); ("n_iters", PInt 1); ("random_state", PNone); ("trend", PInt 0)]);
  ("Development", [("average", PText "volume"); ("drop", PNone); ("drop_above", PInf true); ("drop_below", zero); ("drop_high", PNone); ("drop_low", PNone);
    ("drop_valuation", PNone); ("fillna", PNone); ("groupby", PNone); ("n_periods", PInt (-1)); ("preserve", PInt 1); ("sigma_interpolation", PText "log-linear")]);
  ("IncrementalAdditive", [("average", PText "volume"); ("drop", PNone); ("drop_above", PInf true); ("drop_below", PInf false); ("drop_high", PNone); ("drop_low", PNone);
    ("drop_valuation", PNone); ("future_trend", PInt 0); ("n_periods", PInt (-1)); ("preserve", PInt 1); ("trend", zero)]);
  ("DevelopmentConstant", [("callable_axis", PInt 0); ("groupby", PNone); ("patterns", PNone); ("style", PText "ldf")]);
  ("MunichAdjustment", [("fillna", PBool false); ("paid_to_incurred", PNone)]);
  ("ClarkLDF", [("groupby", PNone); ("growth", PText "loglogistic")]);
  ("CaseOutstanding", [("case_n_periods", PInt (-1)); ("groupby", PNone); ("paid_n_periods", PInt (-1)); ("paid_to_incurred", PNone)]);
  ("DevelopmentML", [("autoregressive", PBool false); ("estimator_ml", PNone); ("fit_incrementals", PBool true); ("weight_ml", PNone); ("y_ml", PNone)]);
  ("TweedieGLM", [("alpha", one); ("design_matrix", PText "C(development) + C(origin)"); ("link", PText "log"); ("max_iter", PInt 100); ("power", one); ("response", PNone);
    ("tol", PFloat (qcf 1 10000)); ("verbose", PInt 0); ("warm_start", PBool false); ("weight", PNone)]);
  ("BarnettZehnwirth", [("formula", PText "origin + development + valuation"); ("response", PNone)]);
  ("TailConstant", [("attachment_age", PNone); ("decay", half); ("projection_period", PInt 12); ("tail", one)]);
  ("TailCurve", [("attachment_age", PNone); ("curve", PText "exponential"); ("errors", PText "ignore"); ("extrap_periods", PInt 100); ("fit_period", PTuple [PNone; PNone]);
    ("projection_period", PInt 12); ("reg_threshold", PTuple [PFloat (qcf 100001 100000); PNone])]);
  ("TailBondy", [("attachment_age", PNone); ("earliest_age", PNone); ("projection_period", PInt 12)]);
  ("TailClark", [("attachment_age", PNone); ("growth", PText "loglogistic"); ("projection_period", PInt 12); ("truncation_age", PNone)]);
  ("BootstrapODPSample", [("drop", PNone); ("drop_high", PNone); ("drop_low", PNone); ("drop_valuation", PNone); ("hat_adj", PBool true); ("n_periods", PInt (-1)); ("n_sims", PInt 1000);
    ("random_state", PNone)]);
  ("BerquistSherman", [("closed_count", PNone); ("incurred_amount", PNone); ("paid_amount", PNone); ("reported_count", PNone); ("reported_count_estimator", PNone); ("trend", zero)]);
  ("ParallelogramOLF", [("approximation_grain", PText "M"); ("change_col", PText ""); ("date_col", PText ""); ("rate_history", PNone); ("vertical_line", PBool false)]);
  ("Trend", [("axis", PText "origin"); ("dates", PNone); ("trends", zero)]);
  ("TrendConstant", [("axis", PText "origin"); ("base_trend", zero); ("trend_from", PText "mid"); ("trend_to_date", PNone)])].
Fixpoint find {A} (k : string) (l : list (string * A)) : option A :=
  match l with [] => None | (k', v) :: r => if String.eqb k k' then Some v else find k r end.
(** [cl.__dict__[name]()]: classes whose constructor needs an argument cannot be made without; other names are no classes. *)
Definition class_new (cls : string) : result (list (string * pv)) :=
  match find cls classes with
  | Some d => Ok d
  | None => if String.eqb cls "VotingChainladder" || String.eqb cls "GridSearch" || String.eqb cls "Pipeline" then Err TypeError else Err KeyError
  end.
(** scikit-learn's [set_params]: each name must be a parameter.  (Names of the form a__b, for parameters of nested estimators, are not
    modelled.) *)
Fixpoint set_params (cur new : list (string * pv)) : result (list (string * pv)) :=
  match new with
  | [] => Ok cur
  | (k, v) :: r => match find k cur with None => Err ValueError | Some _ => set_params (put k v cur) r end
  end.
Definition rce : string := "reported_count_estimator".
(** adjustments/berqsherm.py 213-220: a text given for the estimator is read as a document, and the parameter must be given. *)
Definition berq_set_params (read : string -> list (string * js) -> result pv) (cur new : list (string * pv)) : result (list (string * pv)) :=
  match find rce new with
  | None => Err KeyError
  | Some (PDoc c ps) => do e <- read c ps; set_params cur (put rce e new)
  | Some (PText _) => Err ValueError
  | Some _ => set_params cur new
  end.
(** utility_functions.py 91-99 and 149-152 for the document of an estimator. *)
Fixpoint read_est (j : js) : result pv :=
  match j with
  | JDoc cls ps =>
    do cur <- class_new cls;
    let new := map (fun x => (fst x, loads (snd x))) ps in
    do out <-
      (if String.eqb cls "BerquistSherman" then
        let nested := (fix nested (l : list (string * js)) : result pv :=
          match l with [] => Err KeyError | (k, j) :: r => if String.eqb k rce then read_est j else nested r end) ps in
        berq_set_params (fun _ _ => nested) cur new
      else set_params cur new);
    Ok (PEst cls out)
  | _ => Err TypeError
  end.

(** A pipeline: the names of its steps with their estimators; workflow/gridsearch.py 161-171, where parameters are not replaced by
    documents. *)
Definition step : Type := (string * (string * list (string * pv)))%type.
Definition jstep : Type := (string * (string * list (string * js)))%type.
Fixpoint mapr {A B} (f : A -> result B) (l : list A) : result (list B) :=
  match l with [] => Ok [] | x :: r => do y <- f x; do ys <- mapr f r; Ok (y :: ys) end.
Definition pipe_to_json (steps : list step) : result (list jstep) :=
  mapr (fun s => do ps <- mapr (fun x => do j <- dump false (snd x); Ok (fst x, j)) (snd (snd s)); Ok (fst s, (fst (snd s), ps))) steps.
(** utility_functions.py 100-111. *)
Definition read_pipe (d : list jstep) : result (list step) :=
  mapr (fun s => do e <- read_est (JDoc (fst (snd s)) (snd (snd s)));
                 match e with PEst c ps => Ok (fst s, (c, ps)) | _ => Err TypeError end) d.
