(** Summary of a fitted reserving method, [model_diagnostics] (utils/utility_functions.py).  Definitions only. *)
From Verif Require Export Methods Agg Select View.
Local Open Scope Z_scope.

(** [sum("development")]; a number has no index, columns or valuation date. *)
Definition diag_sum (t : tri) : result tri :=
  do s <- aggregate ASum (Some AxDev) false t;
  match s with AggTri u => Ok u | AggNum _ => Err AttributeError end.
(** [out[name] = v] *)
Definition diag_put (out : tri) (name : string) (v : newval) : result tri :=
  match setitem out name v with (u, None) => Ok u | (_, Some e) => Err e end.
(** utility_functions.py 479-486 and 490-493: [(X - X[val < cut]).sum("development")[col]]. *)
Definition diag_since (t : tri) (cut : Z) (col : string) : result tri :=
  do s <- getitem_valuation t (fun o d => valuation t o d <? cut);
  do x <- tri_op OSub t s;
  do y <- diag_sum x;
  getitem_cols y [col].
Definition quarter_start (v : Z) : Z := 3 * (v / 3).
Definition year_start (v : Z) : Z := 12 * (v / 12).
Definition first_valuation (t : tri) : Z := fold_right Z.min (valuation t 0 0) (valuations t).

(** utility_functions.py 458 with core/triangle.py 357-375: the label of a valuation, '2003', '2003Q1' or '2003-01', is compared as a text with
    '2002-12-31 23:59:59.999999999'.  A text sorts after its prefixes, and 'Q' after '-'. *)
Definition label_after (g : grain) (v vd : Z) : bool :=
  match g with
  | GY => vd / 12 <? v / 12
  | GM => vd <? v
  | GQ | GS => vd / 12 <=? v / 12
  end.
Definition run_offs (g : grain) : Z := match g with GM => 12 | GS => 6 | GQ => 4 | GY => 1 end.
(** 457-461: expected increments of the next valuations. *)
Definition diag_run_off (x ldf ult : tri) : result tri :=
  do fe <- full_expectation (cdf_of ldf) ult true;
  do r <- iloc_dev fe None (Some (-1));
  do r <- dev_to_val r;
  do r <- cum_to_incr r;
  do r <- getitem_dev r (map (fun v => label_after (dgrain r) v (vdate x)) (dlist (ddims r)));
  iloc_dev r None (Some (run_offs (dgrain x))).

(** "Run Off 1" and so on. *)
Definition run_off_names : list string :=
  ["Run Off 1"; "Run Off 2"; "Run Off 3"; "Run Off 4"; "Run Off 5"; "Run Off 6"; "Run Off 7"; "Run Off 8"; "Run Off 9"; "Run Off 10"; "Run Off 11"; "Run Off 12"]%string.
(** 500-501 *)
Fixpoint put_run_offs (out run : tri) (col : string) (i : Z) (names : list string) : result tri :=
  match names with
  | [] => Ok out
  | n :: ns =>
    do r <- getitem_cols run [col]; do r <- iloc_dev_int r i;
    do out <- diag_put out n (VTri r); put_run_offs out run col (i + 1) ns
  end.

(** 464-510: the rows of one column of the triangle; [lat], [ib], [run] are the sums, [ibnr_] and run-offs of all columns, [ex] is
    [expectation_], if there is one.  The index has no column named Measure or Model. *)
Definition diag_rows (name : string) (x lat ib ult run : tri) (ex : option tri) (col : string) : result tri :=
  do out <- getitem_cols lat [col];
  let out := set_vdims out ["Latest"%string] in
  do out <- match dgrain x with
            | GM => do m <- getitem_cols x [col]; do m <- getitem_valuation m (fun o d => valuation x o d =? vdate x); do m <- diag_sum m; diag_put out "Month Incremental" (VTri m)
            | _ => Ok out end;
  do out <- (if match dgrain x with GM | GQ => first_valuation x <? quarter_start (vdate out) | _ => false end
             then do q <- diag_since x (quarter_start (vdate out)) col; diag_put out "Quarter Incremental" (VTri q)
             else diag_put out "Quarter Incremental" (VNum 0%Qc));
  do out <- (if first_valuation x <? year_start (vdate out)
             then do q <- diag_since x (year_start (vdate x)) col; diag_put out "Year Incremental" (VTri q)
             else diag_put out "Year Incremental" (VNum 0%Qc));
  do b <- getitem_cols ib [col]; do out <- diag_put out "IBNR" (VTri b);
  do u <- getitem_cols ult [col]; do out <- diag_put out "Ultimate" (VTri u);
  do out <- put_run_offs out run col 0 (firstn (ax3 (values run)) run_off_names);
  do out <- match ex with
            | None => Ok out
            | Some e => do e <- (if (ax1 (values e) =? 1)%nat then Ok e else getitem_cols e [col]); diag_put out "Apriori" (VTri e) end;
  Ok (set_keys out (map (fun k => col :: name :: k) (kdims lat)) ("Measure" :: "Model" :: key_labels lat)%string).

(** 428-512 without [groupby]: [t] is the triangle the method was fitted to, [ldf] its factors, [ult] the ultimate. *)
Definition model_diagnostics (name : string) (t ldf ult : tri) (ex : option tri) : result tri :=
  let x := incr_to_cum t in
  do lat <- diag_sum x;
  do ib <- ibnr_of x ult;
  do run <- diag_run_off x ldf ult;
  do rows <- mapm (diag_rows name x lat ib ult run ex) (vdims ult);
  concat rows AxIndex.
