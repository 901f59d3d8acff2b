(** On-level factors (utils/utility_functions.py 155-263 and adjustments/parallelogram.py).
    Definitions only.  Dates are day numbers; day 0 is 1 January of year 0 in the proleptic
    Gregorian calendar of datetime64. *)
From Verif Require Export Arith Calendar.
Local Open Scope Z_scope.

(** The first day of a year and of a month (month [m] is month [m mod 12 + 1] of year [m / 12]). *)
Definition year_start (y : Z) : Z := 365 * y + (y + 3) / 4 - (y + 99) / 100 + (y + 399) / 400.
Definition first_day (m : Z) : Z := year_start (m / 12) + days_from (12 * (m / 12)) (Z.to_nat (m mod 12)).
(** The year and the month a day lies in ([DatetimeIndex.to_period]). *)
Definition year_of_day (d : Z) : Z :=
  let y := 400 * d / 146097 in
  if d <? year_start y then y - 1 else if year_start (y + 1) <=? d then y + 1 else y.
Definition month_of_day (d : Z) : Z :=
  let y := year_of_day d in
  12 * y + Z.of_nat (List.length (filter (fun k => first_day (12 * y + k) <=? d) [1; 2; 3; 4; 5; 6; 7; 8; 9; 10; 11])).

Inductive approximation := ByMonth | ByDay.

(** utility_functions.py 166-182: the dates of the series, for a start on the first of month
    [a] and an end on the last of month [b]: from one day and one year before the start.
    [DateOffset(years=1)] moves the 29th of February to the 28th. *)
Definition back_a_year (a : Z) : Z := first_day (a - 13) + Z.min (month_days (a - 1)) (month_days (a - 13)) - 1.
Definition index_len (ap : approximation) (a b : Z) : nat :=
  Z.to_nat (match ap with ByMonth => b - a + 13 | ByDay => first_day (b + 1) - back_a_year a end).
Definition index_at (ap : approximation) (a : Z) (i : nat) : Z :=
  match ap with ByMonth => first_day (a - 12 + Z.of_nat i) | ByDay => back_a_year a + Z.of_nat i end.

(** A rate history: dates and relative changes. *)
Definition history := list (Z * Qc).
Fixpoint change_at (ch : history) (d : Z) : Qc :=
  match ch with [] => 0%Qc | (e, r) :: t => if e =? d then r else change_at t d end.
(** 184-189: [reindex] with 0 for the other dates, then the cumulative product. *)
Definition level (ch : history) (idx : nat -> Z) (i : nat) : Qc := prodn (S i) (fun j => (1 + change_at ch (idx j))%Qc).

(** [rolling(w).mean()], and its average with itself shifted by one (200-214). *)
Definition rolling (w : nat) (f : nat -> Qc) (i : nat) : cell :=
  if (S i <? w)%nat then None else Some (sumn w (fun j => f (i - j)%nat) / qc (Z.of_nat w))%Qc.
Definition smoothed (w : nat) (f : nat -> Qc) (i : nat) : cell :=
  match i with
  | O => None
  | S k => cdiv (cadd (rolling w f i) (rolling w f k)) (Some (1 + 1)%Qc)
  end.

(** [groupby(index.to_period(grain)).mean()] of the positions from [k] on (227-243): the
    periods in order, and the mean of the known values of each. *)
Fixpoint runs (l : list Z) : list Z :=
  match l with
  | x :: ((y :: _) as r) => if x =? y then runs r else x :: runs r
  | _ => l
  end.
Definition known_of (l : list cell) : list Qc := flat_map (fun c => match c with Some q => [q] | None => [] end) l.
Definition mean_known (l : list cell) : cell :=
  match known_of l with [] => None | k => Some (qsum k / qc (Z.of_nat (List.length k)))%Qc end.
Definition period_means (per : nat -> Z) (f : nat -> cell) (k n : nat) : list (Z * cell) :=
  let ps := seq k (n - k) in
  map (fun p => (p, mean_known (map f (filter (fun i => per i =? p) ps)))) (runs (map per ps)).

Fixpoint distinct_dates (l : list Z) : bool :=
  match l with [] => true | x :: r => negb (existsb (Z.eqb x) r) && distinct_dates r end.

(** utility_functions.py 155-263 [parallelogram_olf] for month-aligned start and end dates.
    Periods of a yearly index are years, of a monthly one months.  The labels of other grains
    do not match the format of line 247 and raise ValueError ('Q' gives 2001Q1; 'S' means
    seconds).  Repeated dates raise in [reindex].  The factors for leap years are joined by
    row number (244). *)
Definition parallelogram_olf (ch : history) (a b : Z) (g : grain) (ap : approximation) (vertical_line : bool) : result (list (Z * cell)) :=
  if negb (distinct_dates (map fst ch)) then Err ValueError else
  match g with GQ | GS => Err ValueError | _ =>
    let idx := index_at ap a in
    let n := index_len ap a b in
    let lev := level ch idx in
    let crl := lev (n - 1)%nat in
    let per := fun i => match g with GY => year_of_day (idx i) | _ => month_of_day (idx i) end in
    let w := match ap with ByMonth => 12%nat | ByDay => 365%nat end in
    let drop := match ap with ByMonth => 12%nat | ByDay => 366%nat end in
    let plain := if vertical_line then fun i => Some (lev i) else smoothed w lev in
    let leaps := if vertical_line then fun i => Some (lev i) else smoothed (w + 1) lev in
    let factors := map (fun r => (fst r, cdiv (Some crl) (snd r))) in
    let f0 := factors (period_means per plain drop n) in
    let f1 := factors (period_means per leaps (drop + 1) n) in
    Ok (map (fun i => let r := nth i f0 (0, None) in
                      let is_leap := leap_year (match g with GY => fst r | _ => fst r / 12 end) in
                      (fst r, match ap with
                              | ByMonth => snd r
                              | ByDay => if is_leap then snd (nth i f1 (0, None)) else snd r
                              end)) (seq 0 (List.length f0)))
  end.

(** * adjustments/parallelogram.py *)

(** 102-105: changes on the same date are multiplied; dates in order. *)
Definition merged (ch : history) : history :=
  map (fun d => (d, (qprod (map (fun c => 1 + snd c) (filter (fun c => Z.eqb (fst c) d) ch)) - 1)%Qc)) (zunion (map fst ch) []).
Definition column_arr (l : list cell) : arr := Arr 1 1 (List.length l) 1 (fun _ _ o _ => nth o l None).
Definition origin_len (g : grain) : Z := match g with GY => 12 | GS => 6 | GQ => 3 | GM => 1 end.
(** 55-110 [ParallelogramOLF.fit] for a rate history without columns that name key labels:
    [olf_].  Rate histories by key label (75-100) are not modelled. *)
Definition fit_olf (ch : history) (t : tri) (ap : approximation) (vertical_line : bool) : result tri :=
  do f <- parallelogram_olf (merged ch) (nth 0 (odims t) 0) (last (odims t) 0 + origin_len (ograin t) - 1) (ograin t) ap vertical_line;
  do z <- mul_arr t (scalar_arr 0%Qc);
  do o <- add_arr z (scalar_arr 1%Qc);
  do m <- mul_arr o (column_arr (map snd f));
  latest_diagonal m.
