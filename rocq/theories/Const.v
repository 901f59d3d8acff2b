(** External development patterns (development/constant.py).  Definitions only. *)
From Verif Require Export View Loc.
Local Open Scope Z_scope.

(** The [patterns] parameter: a dictionary from ages, or a function that returns one for
    each index row (callable_axis 1). *)
Inductive patterns :=
| PDict (f : Z -> option Qc)
| PRows (f : list string -> Z -> option Qc).
Inductive style := Ldf | Cdf.

Definition of_key (x : option Qc) : result Qc := match x with Some q => Ok q | None => Err KeyError end.
(** constant.py 59-68: the given numbers, one row of ages for all or for each index row; an
    age missing for some rows only counts as 1. *)
Definition pattern_arr (p : patterns) (ks : list (list string)) (ages : list Z) : result arr :=
  match p with
  | PDict f => do l <- mapm (fun a => of_key (f a)) ages;
               Ok (Arr 1 1 1 (List.length ages) (fun _ _ _ d => Some (nth d l 0%Qc)))
  | PRows f => if forallb (fun a => existsb (fun k => match f k a with Some _ => true | None => false end) ks) ages
               then Ok (Arr (List.length ks) 1 1 (List.length ages)
                         (fun i _ _ d => Some (match f (nth i ks []) (nth d ages 0) with Some q => q | None => 1%Qc end)))
               else Err KeyError
  end.
(** constant.py 69-70: cdfs are turned into age-to-age factors. *)
Definition style_arr (s : style) (a : arr) : arr :=
  match s with
  | Ldf => a
  | Cdf => Arr (ax0 a) (ax1 a) (ax2 a) (ax3 a)
             (fun i c o d => if (d <? ax3 a - 1)%nat then cdiv (av a i c o d) (av a i c o (S d)) else av a i c o d)
  end.
(** constant.py 42-78 without groupby. *)
Definition dev_constant (p : patterns) (s : style) (t : tri) : result tri :=
  do x <- val_to_dev (match is_cumulative t with Some false => incr_to_cum t | _ => t end);
  do a <- iloc x (KSlice None None None) (KSlice None None None) (KSlice None (Some 1) None) (KSlice None (Some (-1)) None);
  do z <- mul_arr a (scalar_arr 0%Qc);
  do o <- add_arr z (scalar_arr 1%Qc);
  do v <- pattern_arr p (kdims o) (dlist (ddims o));
  do l <- mul_arr o (style_arr s v);
  Ok (set_vdate (set_cumulative (set_pattern l true) (Some false)) ULT_VAL).
