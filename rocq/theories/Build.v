(** Building a triangle from a table (core/triangle.py 108-262, core/base.py 52-205, 267-324).
    Definitions only. *)
From Verif Require Export Pandas Calendar.
Local Open Scope Z_scope.

(** A date of the table: its month, and whether it is the first day of the month.  Other
    days of a month are not told apart by the code below. *)
Record date := Date { dm : Z; dfirst : bool }.
(** A row of the table: the values of the index columns, the origin and development
    dates and the amounts of the value columns; None is a missing amount.  A table without
    index columns has the index value "Total" in every row (triangle.py 176-179). *)
Record rec := Rec { r_key : list string; r_o : date; r_d : date; r_amt : list cell }.

(** Sorted without repetition: np.sort of unique values. *)
Definition zsort (l : list Z) : list Z := fold_right zinsert [] l.

(** ** Grains (base.py 267-324) *)
Definition date_leb (a b : date) : bool := (dm a <? dm b) || (dm a =? dm b) && (dfirst a || negb (dfirst b)).
Definition date_min (l : list date) (d0 : date) : date := fold_right (fun a b => if date_leb a b then a else b) d0 l.
Definition date_max (l : list date) (d0 : date) : date := fold_right (fun a b => if date_leb a b then b else a) d0 l.
(** The month of the day before. *)
Definition day_before (d : date) : Z := if dfirst d then dm d - 1 else dm d.
(** 278-301: the grain from the calendar months that occur. *)
Definition grain_of_months (ms : list Z) : grain :=
  match ms with
  | [] | [_] => GY
  | _ => if forallb (Z.eqb 6) (zdiffs ms) then GS else if forallb (Z.eqb 3) (zdiffs ms) then GQ else GM
  end.
Inductive axis_kind := OriginDates | DevelopmentDates.
(** 302-323: the last calendar month of a period, 0 to 11; December unless [trailing]. *)
Definition closing (trailing : bool) (k : axis_kind) (g : grain) (ds : list date) (d0 : date) : Z :=
  if negb trailing then 11 else
  match k, g with
  | _, GM => 11
  | OriginDates, _ =>
    let e := day_before (date_min ds d0) mod 12 in
    match g with
    | GQ => if e mod 3 =? 2 then 11 else e
    | GS => if (e =? 5) || (e =? 11) then 11 else e
    | _ => e
    end
  | DevelopmentDates, _ =>
    if existsb (fun d => dfirst d && (dm d mod 3 =? 0)) ds then day_before (date_min ds d0) mod 12
    else dm (date_max ds d0) mod 12
  end.
Definition get_grain (trailing : bool) (k : axis_kind) (ds : list date) (d0 : date) : grain * Z :=
  let g := grain_of_months (zsort (map (fun d => dm d mod 12) ds)) in (g, closing trailing k g ds d0).

(** ** Periods (pandas to_period and to_timestamp) *)
(** Half-years are periods of two quarters that start with the quarter of the date. *)
Definition anchor_months (g : grain) : Z := match g with GY => 12 | GS | GQ => 3 | GM => 1 end.
Definition period_start (gc : grain * Z) (m : Z) : Z := m - (m - (snd gc + 1)) mod anchor_months (fst gc).
Definition period_end (gc : grain * Z) (m : Z) : Z := period_start gc m + step_months (fst gc) - 1.
(** [pd.period_range(start=a, end=b, freq)]: the starts of the periods from that of month
    [a] to that of month [b]. *)
Definition period_range (gc : grain * Z) (a b : Z) : list Z :=
  let s := period_start gc a in
  map (fun k => s + step_months (fst gc) * Z.of_nat k)
      (seq 0 (Z.to_nat ((period_start gc b - s) / step_months (fst gc) + 1))).

(** ** Aggregation (base.py 84-113) *)
Record arow := ARow { a_o : Z; a_d : Z; a_key : list string; a_amt : list Qc }.
Definition arow_key (x : arow) : Z * Z * list string := (a_o x, a_d x, a_key x).
Definition gkey := (Z * Z * list string)%type.
Definition gkey_eqb (x y : gkey) : bool :=
  let '(o, d, k) := x in let '(o', d', k') := y in (o =? o') && (d =? d') && strs_eqb k k'.
Definition gkey_leb (x y : gkey) : bool :=
  let '(o, d, k) := x in let '(o', d', k') := y in
  (o <? o') || (o =? o') && ((d <? d') || (d =? d') && key_leb k k').
(** [groupby([origin, development] + index).sum()]: the groups in ascending order. *)
Fixpoint gkey_insert (x : gkey) (l : list gkey) : list gkey :=
  match l with [] => [x] | y :: r => if gkey_eqb x y then l else if gkey_leb x y then x :: l else y :: gkey_insert x r end.
Definition group_of (og dg : grain * Z) (r : rec) : gkey := (period_start og (dm (r_o r)), period_end dg (dm (r_d r)), r_key r).
Definition group_sum (og dg : grain * Z) (rows : list rec) (g : gkey) (c : nat) : Qc :=
  qsum (map (fun r => nz (nth c (r_amt r) None)) (filter (fun r => gkey_eqb (group_of og dg r) g) rows)).
Definition aggregate (og dg : grain * Z) (ncols : nat) (rows : list rec) : list arow :=
  map (fun g => let '(o, d, k) := g in ARow o d k (map (group_sum og dg rows g) (seq 0 ncols)))
      (fold_right gkey_insert [] (map (group_of og dg) rows)).
(** 103-113: observations with development before origin start are removed. *)
Definition valid_row (x : arow) : bool := a_o x <=? a_d x.

(** ** Axes (base.py 116-205) *)
(** 116-121: [drop_duplicates] keeps first occurrences. *)
Fixpoint first_keys (l : list (list string)) (seen : list (list string)) : list (list string) :=
  match l with
  | [] => []
  | k :: r => if existsb (strs_eqb k) seen then first_keys r seen else k :: first_keys r (k :: seen)
  end.
(** 178-205: pairs of an origin and a later development.  The development grain is
    written "2Q-DEC" only if [trailing]. *)
Definition date_axes (trailing : bool) (og dg : grain * Z) (rows : list arow) (x0 : arow) : list (Z * Z) :=
  let o := period_range og (zminl (map a_o rows) (a_o x0)) (zmaxl (map a_o rows) (a_o x0)) in
  let d := map (fun s => s + step_months (fst dg) - 1) (period_range dg (zminl (map a_d rows) (a_d x0)) (zmaxl (map a_d rows) (a_d x0))) in
  let d := match trailing, dg with true, (GS, 11) => map (fun m => m - 3) d | _, _ => d end in
  filter (fun p => fst p <=? snd p) (flat_map (fun a => map (fun b => (a, b)) d) o).
(** 129-146.  [pd.DatetimeIndex] of one date when there is only one development. *)
Definition lag (p : Z * Z) : Z := development_lag 0 (fst p) (snd p).
Definition set_ddims_of (rows : list arow) (x0 : arow) (axes : list (Z * Z)) : ddim :=
  if (1 <? List.length (zsort (map snd axes)))%nat then Ages (zsort (map lag axes)) else Vals [zmaxl (map a_d rows) (a_d x0)].
(** The positions of the labels of a row; a label that is not on the axis becomes a
    meaningless integer, which is an error here. *)
Definition dev_label (d : ddim) (x : arow) : Z := match d with Ages _ => lag (a_o x, a_d x) | Vals l => nth 0 l 0 end.
Definition on_axes (os : list Z) (d : ddim) (x : arow) : bool :=
  existsb (Z.eqb (a_o x)) os && existsb (Z.eqb (dev_label d x)) (dlist d).

Definition finer (g h : grain) : grain := if step_months g <? step_months h then g else h.
(** The table as a triangle: [columns] and [labels] are the names of the value and index
    columns.  Without ultimates (280-300) and with pattern=False. *)
Definition build (trailing : bool) (labels columns : list string) (cumulative : option bool) (table : list rec) : result tri :=
  match table with
  | [] => Err ValueError
  | r0 :: _ =>
    if forallb (fun r => dm (r_d r) / 12 =? 1970) table then Err ValueError else
    let og := get_grain trailing OriginDates (map r_o table) (r_o r0) in
    let dg := get_grain trailing DevelopmentDates (map r_d table) (r_d r0) in
    let rows := filter valid_row (aggregate og dg (List.length columns) table) in
    match rows with
    | [] => Err ValueError
    | x0 :: _ =>
      let axes := date_axes trailing og dg rows x0 in
      let ks := first_keys (map a_key rows) [] in
      let os := zsort (map fst axes) in
      let dd := set_ddims_of rows x0 axes in
      let vd := zmaxl (map a_d rows) (a_d x0) in
      (** triangle.py 219-240: origins are those of the calendar up to the valuation date. *)
      let check := period_range (fst og, 11) (nth 0 os 0) vd in
      let os' := if negb (List.length check =? List.length os)%nat && negb (vd =? ULT_VAL) then check else os in
      if negb (forallb (on_axes os dd) rows) then Err OtherError else
      (** 243-258: one cell for each row and column, zeros are missing. *)
      let cellv := fun i c o d =>
        n2n (Some (qsum (map (fun x => nth c (a_amt x) 0%Qc)
          (filter (fun x => strs_eqb (a_key x) (nth i ks []) && (a_o x =? nth o os (a_o x - 1)) && (dev_label dd x =? nth d (dlist dd) 0)) rows)))) in
      Ok (Tri ks labels columns os' dd
            (Arr (List.length ks) (List.length columns) (List.length os') (List.length (dlist dd)) cellv)
            vd cumulative false (fst og) (finer (fst dg) (fst og)))
    end
  end.
