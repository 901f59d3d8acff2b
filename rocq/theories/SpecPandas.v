(** Specification of grouping, sorting, shifting and trimming. *)
From Coq Require Export Permutation.
From Verif Require Export Spec SpecLabel Pandas.
Local Open Scope Z_scope.

(** * Grouping *)

(** Lexicographic order of keys. *)
Fixpoint key_lt (a b : list string) : Prop :=
  match a, b with
  | _, [] => False
  | [], _ :: _ => True
  | x :: a, y :: b => String.compare x y = Lt \/ (x = y /\ key_lt a b)
  end.
(** Total of a group in a cell: the sum over exactly the rows whose key is [g]. *)
Definition group_total (t : tri) (keys : list (list string)) (g : list string) (c o d : nat) : Qc :=
  sumn (ax0 (values t)) (fun i => if key_dec (nth i keys []) g then amount t i c o d else 0%Qc).
(** Rest of the frame. *)
Record same_but_rows (t u : tri) : Prop := {
  sb_v : vdims u = vdims t; sb_o : odims u = odims t; sb_d : ddims u = ddims t;
  sb_cum : is_cumulative u = is_cumulative t; sb_pat : is_pattern u = is_pattern t;
  sb_og : ograin u = ograin t; sb_dg : dgrain u = dgrain t;
  sb_1 : ax1 (values u) = ax1 (values t); sb_2 : ax2 (values u) = ax2 (values t); sb_3 : ax3 (values u) = ax3 (values t);
  (** the same cells lie in the future *)
  sb_fut : forall o d, (o < ax2 (values t))%nat -> (d < ax3 (values t))%nat -> (future u o d <-> future t o d) }.
Record grouped (t : tri) (keys : list (list string)) (labels : list string) (u : tri) : Prop := {
  gr_rows : forall g, In g (kdims u) <-> In g keys;
  gr_sorted : StronglySorted key_lt (kdims u);
  gr_labels : key_labels u = labels;
  gr_0 : ax0 (values u) = List.length (kdims u);
  gr_frame : same_but_rows t u;
  gr_cell : forall p c o d, in_range u p c o d -> stores (cel u p c o d) (group_total t keys (nth p (kdims u) []) c o d) }.

(** * Sorting *)

(** The cells of [u] are those of [t] at the positions [p] of one axis. *)
Record reordered (ax : axis) (t u : tri) (p : list nat) : Prop := {
  rr_perm : Permutation p (seq 0 (axn (axis_num ax) (values t)));
  rr_0 : ax0 (values u) = ax0 (values t); rr_1 : ax1 (values u) = ax1 (values t);
  rr_2 : ax2 (values u) = ax2 (values t); rr_3 : ax3 (values u) = ax3 (values t);
  rr_cell : forall i c o d, in_range t i c o d ->
    cel u i c o d = match ax with
                    | AxIndex => cel t (nth i p 0%nat) c o d
                    | AxColumn => cel t i (nth c p 0%nat) o d
                    | AxOrigin => cel t i c (nth o p 0%nat) d
                    | AxDev => cel t i c o (nth d p 0%nat) end;
  rr_k : kdims u = match ax with AxIndex => map (fun i => nth i (kdims t) []) p | _ => kdims t end;
  rr_v : vdims u = match ax with AxColumn => map (fun i => nth i (vdims t) EmptyString) p | _ => vdims t end;
  rr_o : odims u = match ax with AxOrigin => map (fun i => nth i (odims t) 0) p | _ => odims t end;
  rr_d : dlist (ddims u) = match ax with AxDev => map (fun i => nth i (dlist (ddims t)) 0) p | _ => dlist (ddims t) end;
  rr_vt : is_val_tri u = is_val_tri t; rr_kl : key_labels u = key_labels t;
  rr_cum : is_cumulative u = is_cumulative t; rr_pat : is_pattern u = is_pattern t;
  rr_og : ograin u = ograin t; rr_dg : dgrain u = dgrain t }.
Definition str_le (a b : string) : Prop := a = b \/ String.compare a b = Lt.
Definition key_le (a b : list string) : Prop := a = b \/ key_lt a b.
Definition in_order (ax : axis) (u : tri) : Prop :=
  match ax with
  | AxIndex => StronglySorted key_le (kdims u)
  | AxColumn => StronglySorted str_le (vdims u)
  | AxOrigin => StronglySorted Z.le (odims u)
  | AxDev => StronglySorted Z.le (dlist (ddims u))
  end.
(** Label lists as long as the axes. *)
Definition labelled (t : tri) : Prop :=
  ax0 (values t) = List.length (kdims t) /\ ax1 (values t) = List.length (vdims t) /\
  ax2 (values t) = List.length (odims t) /\ ax3 (values t) = List.length (dlist (ddims t)).

(** * Shifting *)

(** The cell k positions further on along the axis, if there is one. *)
Definition ahead (ax : axis) (t : tri) (k : Z) (i c o d : nat) : option (nat * nat) :=
  match ax with
  | AxOrigin => if (0 <=? Z.of_nat o + k) && (Z.of_nat o + k <? Z.of_nat (ax2 (values t)))
                then Some (Z.to_nat (Z.of_nat o + k), d) else None
  | _ => if (0 <=? Z.of_nat d + k) && (Z.of_nat d + k <? Z.of_nat (ax3 (values t)))
         then Some (o, Z.to_nat (Z.of_nat d + k)) else None
  end.
Record same_labels (t u : tri) : Prop := {
  sm_k : kdims u = kdims t; sm_kl : key_labels u = key_labels t; sm_v : vdims u = vdims t;
  sm_o : odims u = odims t; sm_d : ddims u = ddims t; sm_cum : is_cumulative u = is_cumulative t;
  sm_pat : is_pattern u = is_pattern t; sm_og : ograin u = ograin t; sm_dg : dgrain u = dgrain t;
  sm_0 : ax0 (values u) = ax0 (values t); sm_1 : ax1 (values u) = ax1 (values t);
  sm_2 : ax2 (values u) = ax2 (values t); sm_3 : ax3 (values u) = ax3 (values t) }.

(** Every cell comes from [k] positions further on; where there is none it is empty. *)
Definition moved (ax : axis) (t u : tri) (k : Z) : Prop :=
  same_labels t u /\ vdate u <= vdate t /\
  forall i c o d, in_range t i c o d ->
    match ahead ax t k i c o d with
    | Some (o', d') => cel u i c o d = cel t i c o' d'
    | None => amount u i c o d = 0%Qc
    end.
(** At least two positions on the axis; ages (not valuation dates, not patterns) when
    the development axis is shifted. *)
Definition shiftable (ax : axis) (t : tri) : Prop :=
  labelled t /\ (1 <= ax0 (values t) /\ 1 <= ax1 (values t) /\ 1 <= ax2 (values t) /\ 1 <= ax3 (values t))%nat /\
  match ax with
  | AxOrigin => (2 <= ax2 (values t))%nat /\ NoDup (odims t)
  | AxDev => (2 <= ax3 (values t))%nat /\ NoDup (dlist (ddims t)) /\ is_val_tri t = false /\ is_pattern t = false
  | _ => False
  end.

(** * dropna *)

Definition origin_total (t : tri) (o : nat) : Qc :=
  sumn (ax0 (values t)) (fun i => sumn (ax1 (values t)) (fun c => sumn (ax3 (values t)) (fun d => amount t i c o d))).
Definition age_total (t : tri) (d : nat) : Qc :=
  sumn (ax0 (values t)) (fun i => sumn (ax1 (values t)) (fun c => sumn (ax2 (values t)) (fun o => amount t i c o d))).
(** [n] positions starting at [lo]; the total is not zero at both ends of the range
    and zero outside it. *)
Definition trims (total : nat -> Qc) (len lo n : nat) : Prop :=
  (1 <= n /\ lo + n <= len)%nat /\ total lo <> 0%Qc /\ total (lo + n - 1)%nat <> 0%Qc /\
  forall k, (k < len)%nat -> (k < lo \/ lo + n <= k)%nat -> total k = 0%Qc.
(** [u] is the block of [t] with [no] origins from [lo] and [nd] ages from [dlo]. *)
Record block_of (t u : tri) (lo no dlo nd : nat) : Prop := {
  bo_cell : forall i c o d, in_range u i c o d -> cel u i c o d = cel t i c (lo + o)%nat (dlo + d)%nat;
  bo_0 : ax0 (values u) = ax0 (values t); bo_1 : ax1 (values u) = ax1 (values t);
  bo_2 : ax2 (values u) = no; bo_3 : ax3 (values u) = nd;
  bo_k : kdims u = kdims t; bo_kl : key_labels u = key_labels t; bo_v : vdims u = vdims t;
  bo_o : odims u = firstn no (skipn lo (odims t));
  bo_d : ddims u = dmap (fun l => firstn nd (skipn dlo l)) (ddims t);
  bo_vd : vdate u = vdate t;
  bo_cum : is_cumulative u = is_cumulative t; bo_pat : is_pattern u = is_pattern t;
  bo_og : ograin u = ograin t; bo_dg : dgrain u = dgrain t }.
Definition nonnegative (t : tri) : Prop := forall i c o d, in_range t i c o d -> (0 <= amount t i c o d)%Qc.
