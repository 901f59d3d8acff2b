(** C20: triangles built from tables. *)
From Coq Require Import Lia.
From Verif Require Import SpecBuild P_Build2 P_Build3 Ex.
Local Open Scope Z_scope.

(** C20. Every cell holds the sum of the rows with its index values, origin period and
    development date; every row that counts belongs to exactly one cell; all origin
    periods up to the valuation date are present. *)
Theorem C20_cells : forall trailing labels columns cumulative table,
  table_ok (origin_grain_of trailing table) (dev_grain_of trailing table) table ->
  exists t, build trailing labels columns cumulative table = Ok t /\
    built (origin_grain_of trailing table) (dev_grain_of trailing table) columns table t /\
    is_cumulative t = cumulative /\ key_labels t = labels /\ ograin t = fst (origin_grain_of trailing table).
Proof. exact build_built. Qed.
Print Assumptions C20_cells.

(** C20. Nothing is lost or counted twice: a column of the triangle adds up to the same
    column of the table, over the rows that do not precede their origin. *)
Theorem C20_total : forall og dg columns table t c, built og dg columns table t -> (c < List.length columns)%nat ->
  total t c = column_sum c (filter (counts og dg) table).
Proof. exact built_total. Qed.
Print Assumptions C20_total.

(** C20. The order of the rows is irrelevant, for any table. *)
Theorem C20_row_order : forall trailing labels columns cumulative table table', Permutation table table' ->
  build trailing labels columns cumulative table = build trailing labels columns cumulative table'.
Proof. exact build_perm. Qed.
Print Assumptions C20_row_order.

(** C20. The development axis: if the rows have more than one development date, the ages in
    order at which an origin period between the first and last one with data meets a
    development period between the first and last one with data; otherwise that date. *)
Theorem C20_ages : forall trailing labels columns cumulative table t,
  let og := origin_grain_of trailing table in let dg := dev_grain_of trailing table in
  table_ok og dg table -> build trailing labels columns cumulative table = Ok t ->
  dgrain t = finer (fst dg) (fst og) /\
  ((exists l, ddims t = Ages l /\ StronglySorted Z.lt l /\
     forall a, In a l <-> exists o b, a = b + 1 - o /\ o <= b /\
       (first_month og o = o /\ (exists r, In r table /\ counts og dg r = true /\ first_month og (dm (r_o r)) <= o) /\
                                (exists r, In r table /\ counts og dg r = true /\ o <= first_month og (dm (r_o r)))) /\
       (first_month dg (b - months_in (fst dg) + 1) = b - months_in (fst dg) + 1 /\
        (exists r, In r table /\ counts og dg r = true /\ last_month dg (dm (r_d r)) <= b) /\
        (exists r, In r table /\ counts og dg r = true /\ b <= last_month dg (dm (r_d r))))) \/
   (ddims t = Vals [vdate t] /\ forall r, In r table -> counts og dg r = true -> last_month dg (dm (r_d r)) = vdate t)).
Proof. exact build_ages. Qed.
Print Assumptions C20_ages.

(** C20. A table without a row that counts is refused. *)
Theorem C20_no_rows : forall trailing labels columns cumulative table,
  fst (origin_grain_of trailing table) <> GS -> fst (dev_grain_of trailing table) <> GS ->
  (forall r, In r table -> counts (origin_grain_of trailing table) (dev_grain_of trailing table) r = false) ->
  build trailing labels columns cumulative table = Err ValueError.
Proof. exact build_none. Qed.
Print Assumptions C20_no_rows.

(** C20. So is one whose development dates all lie in 1970: ages read as dates. *)
Theorem C20_ages_as_dates : forall trailing labels columns cumulative table,
  (forall r, In r table -> dm (r_d r) / 12 = 1970) -> build trailing labels columns cumulative table = Err ValueError.
Proof. exact build_1970. Qed.
Print Assumptions C20_ages_as_dates.

(** C20. The grain that is read off the dates: one calendar month gives years, months six
    or three apart give half-years or quarters, and other distances months. *)
Theorem C20_grain : forall ds d0 trailing k a s n, (1 <= n)%nat -> 1 <= s -> months_spaced ds a s n ->
  fst (get_grain trailing k ds d0) = (if (n =? 1)%nat then GY else if s =? 6 then GS else if s =? 3 then GQ else GM).
Proof. exact grain_shape. Qed.
Print Assumptions C20_grain.

(** Two classes, two accident years given by dates within January, and development dates
    at year ends; the row of class b for 1982 comes twice, the last row is dated before its
    origin, and class c has no other row. *)
Definition jan (yr : Z) : date := Date (12 * yr) true.
Definition dec31 (yr : Z) : date := Date (12 * yr + 11) false.
Definition extable : list rec := [
  Rec ["b"]%string (jan 1982) (dec31 1982) [Some (qc 5); Some (qc 1)];
  Rec ["a"]%string (jan 1981) (dec31 1982) [Some (qc 7); None];
  Rec ["b"]%string (jan 1982) (dec31 1982) [Some (qc 6); Some (qc 2)];
  Rec ["a"]%string (jan 1981) (dec31 1981) [Some (qc 3); Some (qc 4)];
  Rec ["c"]%string (jan 1983) (dec31 1981) [Some (qc 9); Some (qc 9)]].
Definition exbuilt : tri := Ex.get ex3 (build true ["lob"]%string ["paid"; "open"]%string (Some false) extable).
Example C20_hyps : table_ok (origin_grain_of true extable) (dev_grain_of true extable) extable /\
  build true ["lob"]%string ["paid"; "open"]%string (Some false) extable = Ok exbuilt /\
  kdims exbuilt = [["a"]; ["b"]]%string /\ odims exbuilt = [12 * 1981; 12 * 1982] /\ ddims exbuilt = Ages [12; 24] /\ vdate exbuilt = 12 * 1982 + 11 /\
  cel exbuilt 0 0 0 1 = Some (qc 7) /\ cel exbuilt 1 0 1 0 = Some (qc 11) /\ cel exbuilt 0 1 0 1 = None /\ cel exbuilt 1 0 0 0 = None.
Proof.
  split.
  { constructor; try (vm_compute; congruence).
    - exists (Rec ["b"]%string (jan 1982) (dec31 1982) [Some (qc 5); Some (qc 1)]). split; [left; auto|reflexivity].
    - exists (Rec ["b"]%string (jan 1982) (dec31 1982) [Some (qc 5); Some (qc 1)]). split; [left; auto|vm_compute; congruence].
    - intros r H. cbn in H. repeat (destruct H as [<- | H]; [vm_compute; intuition congruence|]). destruct H. }
  split; [apply get_ok; vm_compute; reflexivity|].
  repeat split; try (vm_compute; reflexivity); apply cell_eqb_eq; vm_compute; reflexivity.
Qed.
(** Quarterly development dates, and an origin without data between two others. *)
Definition exquarters : list rec := [
  Rec ["x"]%string (jan 2001) (Date (12 * 2001 + 2) false) [Some (qc 1)];
  Rec ["x"]%string (jan 2001) (Date (12 * 2001 + 5) false) [Some (qc 2)];
  Rec ["x"]%string (jan 2003) (Date (12 * 2003 + 8) false) [Some (qc 3)]].
Example C20_quarters : table_ok (origin_grain_of true exquarters) (dev_grain_of true exquarters) exquarters /\
  origin_grain_of true exquarters = (GY, 11) /\ fst (dev_grain_of true exquarters) = GQ /\
  odims (Ex.get ex3 (build true ["lob"]%string ["paid"]%string None exquarters)) = [12 * 2001; 12 * 2002; 12 * 2003] /\
  months_spaced (map r_d exquarters) 2 3 3.
Proof.
  split.
  { constructor; try (vm_compute; congruence).
    - eexists. split; [left; reflexivity|reflexivity].
    - eexists. split; [left; reflexivity|vm_compute; congruence].
    - intros r H. cbn in H. repeat (destruct H as [<- | H]; [vm_compute; intuition congruence|]). destruct H. }
  split; [reflexivity|]. split; [reflexivity|]. split; [vm_compute; reflexivity|].
  intros m. split.
  - intros (d & H & <-). cbn in H. destruct H as [<- | [<- | [<- | []]]]; [exists 0%nat|exists 1%nat|exists 2%nat]; split; auto; vm_compute; reflexivity.
  - intros (k & L & ->). destruct k as [|[|[|k]]]; [| | |lia]; [exists (Date (12 * 2001 + 2) false)|exists (Date (12 * 2001 + 5) false)|exists (Date (12 * 2003 + 8) false)]; cbn [map r_d exquarters In]; split; auto; vm_compute; reflexivity.
Qed.

(** Fiscal years: origins July to June, valued at the end of June.  The table has two
    origins, the triangle three: calendar years, none of which is the origin of any row,
    and the amounts are shown at dates at which they were not yet known. *)
Definition jul (yr : Z) : date := Date (12 * yr + 6) true.
Definition jun30 (yr : Z) : date := Date (12 * yr + 5) false.
Definition exfiscal : list rec := [
  Rec ["Total"]%string (jul 1981) (jun30 1982) [Some (qc 10)];
  Rec ["Total"]%string (jul 1981) (jun30 1983) [Some (qc 20)];
  Rec ["Total"]%string (jul 1982) (jun30 1983) [Some (qc 30)]].
Theorem C20_fiscal_years_refuted : exists table t,
  origin_grain_of true table = (GY, 5) /\ dev_grain_of true table = (GY, 5) /\
  build true ["Total"]%string ["paid"]%string (Some true) table = Ok t /\
  (forall r, In r table -> ~ In (first_month (GY, 5) (dm (r_o r))) (odims t)) /\
  odims t = [12 * 1981; 12 * 1982; 12 * 1983] /\
  (exists r, In r table /\ dm (r_d r) = 12 * 1982 + 5 /\ cel t 0 0 0 0 = nth 0 (r_amt r) None /\ month_of t 0 0 = 12 * 1981 + 11).
Proof.
  exists exfiscal, (Ex.get ex3 (build true ["Total"]%string ["paid"]%string (Some true) exfiscal)).
  split; [reflexivity|]. split; [reflexivity|]. split; [apply get_ok; vm_compute; reflexivity|]. split.
  - intros r H I. cbn in H. destruct H as [<- | [<- | [<- | []]]]; vm_compute in I; destruct I as [I | [I | [I | []]]]; discriminate.
  - split; [vm_compute; reflexivity|]. eexists. split; [left; reflexivity|]. split; [reflexivity|]. split; [apply cell_eqb_eq; vm_compute; reflexivity|vm_compute; reflexivity].
Qed.
Print Assumptions C20_fiscal_years_refuted.

(** Half-yearly development dates: the end of June is shown as the end of September, and
    the valuation date is later than every date of the table. *)
Definition exhalf : list rec := [
  Rec ["Total"]%string (jan 2011) (jun30 2011) [Some (qc 10)];
  Rec ["Total"]%string (jan 2011) (dec31 2011) [Some (qc 20)];
  Rec ["Total"]%string (jan 2012) (jun30 2012) [Some (qc 30)];
  Rec ["Total"]%string (jan 2011) (dec31 2012) [Some (qc 40)]].
Theorem C20_half_years_refuted : exists table t,
  origin_grain_of true table = (GY, 11) /\ dev_grain_of true table = (GS, 11) /\
  build true ["Total"]%string ["paid"]%string (Some true) table = Ok t /\
  (forall r, In r table -> dm (r_d r) < vdate t) /\
  (exists r, In r table /\ dm (r_d r) = 12 * 2011 + 5 /\ cel t 0 0 0 1 = nth 0 (r_amt r) None /\ month_of t 0 1 = 12 * 2011 + 8).
Proof.
  exists exhalf, (Ex.get ex3 (build true ["Total"]%string ["paid"]%string (Some true) exhalf)).
  split; [reflexivity|]. split; [reflexivity|]. split; [apply get_ok; vm_compute; reflexivity|]. split.
  - intros r H. cbn in H. destruct H as [<- | [<- | [<- | [<- | []]]]]; vm_compute; reflexivity.
  - eexists. split; [left; reflexivity|]. split; [reflexivity|]. split; [apply cell_eqb_eq; vm_compute; reflexivity|vm_compute; reflexivity].
Qed.
Print Assumptions C20_half_years_refuted.
