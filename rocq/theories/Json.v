(** Saving a triangle as JSON and reading it back (core/io.py 29-54, core/pandas.py 61-110,
    utils/utility_functions.py 91-151).  Definitions only. *)
From Coq Require Import Qround.
From Verif Require Export Build View Agg.
Local Open Scope Z_scope.

(** core/pandas.py 61-110: [to_frame(keepdims=True)], the rows in the order of [pivot_table]
    (which averages the cells of rows with equal keys).  A column without amounts is missing
    in every row.  Dates: origins on the first of a month, valuations on the last.  Virtual
    columns are not modelled. *)
Definition to_frame (t : tri) : result (list rec) :=
  do w <- val_to_dev t;
  let a := values w in
  Ok (flat_map (fun k => flat_map (fun o => flat_map (fun d =>
        let amounts := map (fun c => mean_of (present (map (fun i => av a i c o d) (rows_with w k)))) (seq 0 (ax1 a)) in
        if forallb is_nan amounts then []
        else [Rec k (Date (nth o (odims w) 0) true) (Date (valuation w o d) false) amounts])
      (seq 0 (ax3 a))) (seq 0 (ax2 a))) (group_index (kdims w))).

(** [DataFrame.to_json] writes ten digits after the decimal point. *)
Definition ten_digits (q : Qc) : Qc := (qc (Qfloor (this (q * qc (10 ^ 10) + 1 / qc 2)%Qc)) / qc (10 ^ 10))%Qc.

(** The JSON document: metadata, key labels and table.  Text is taken to be read as written
    ([read_json] turns keys that look like numbers or dates into such); attached triangles
    and frames are not modelled. *)
Record json := Json {
  js_val : bool; js_cumulative : option bool; js_pattern : bool; js_columns : list string;
  js_labels : list string; js_table : list rec }.

(** core/io.py 29-54. *)
Definition to_json (t : tri) : result json :=
  do i <- cum_to_incr t;
  do v <- dev_to_val i;
  do f <- to_frame v;
  Ok (Json (is_val_tri t) (is_cumulative t) (is_pattern t) (vdims t) (key_labels t)
        (map (fun r => Rec (r_key r) (r_o r) (r_d r) (map (fun x => Some (ten_digits (nz x))) (r_amt r))) f)).

(** utility_functions.py 111-149.  Patterns are not modelled. *)
Definition read_json (j : json) : result tri :=
  if js_pattern j then Err NotImplementedError else
  do t <- build true (js_labels j) (js_columns j) (Some false) (js_table j);
  do t <- (if js_val j then dev_to_val t else Ok t);
  let t := match js_cumulative j with Some true => incr_to_cum t | _ => t end in
  do t <- getitem_cols t (js_columns j);
  sort_index t.
