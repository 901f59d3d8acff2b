(** Specification vocabulary for applying a fitted method to new data. *)
From Verif Require Export SpecMethods SpecLabel.
Local Open Scope Z_scope.

(** New data [t] for a method fitted to [m] with factors [l]: triangles with the same key
    labels, columns and grains; the factors cover every age of [t]; [t] is valued no
    earlier than [m]; the ages of [m] are dates that can be represented for every
    origin of [t].  Unless the ages are the same, both have two ages or more, and
    [t] has two origins or more or the first origin of [m]. *)
Record new_data (m l t : tri) : Prop := {
  nd_m : method_input m; nd_t : method_input t; nd_l : factors_over m l;
  nd_kl : key_labels t = key_labels m; nd_v : vdims l = vdims t;
  nd_og : ograin t = ograin m; nd_dg : dgrain t = dgrain m;
  nd_d : exists xs more, ddims t = Ages xs /\ ddims l = Ages (xs ++ more);
  nd_vd : vdate m <= vdate t;
  nd_room : forall o a, In o (odims t) -> In a (dlist (ddims m)) -> a <> 9999 -> o + a - 1 < ULT_VAL;
  nd_two : ddims t = ddims m \/
    ((2 <= ax3 (values t))%nat /\ (2 <= ax3 (values m))%nat /\ ((2 <= ax2 (values t))%nat \/ odims t = [nth 0 (odims m) 0])) }.

(** The keys of [ks] that are among [ls], in the order of [ks]. *)
Definition known_keys (ks ls : list (list string)) : list (list string) :=
  filter (fun k => if in_dec (list_eq_dec string_dec) k ls then true else false) ks.
(** The rows of the two are identified by their keys, some are shared, and the
    shared ones come in the same order. *)
Record matched (t l : tri) : Prop := {
  mt_labels : NoDup (key_labels t) /\ key_labels l = key_labels t;
  mt_t : NoDup (kdims t) /\ full_keys t; mt_l : NoDup (kdims l) /\ full_keys l;
  mt_order : known_keys (kdims t) (kdims l) = known_keys (kdims l) (kdims t);
  mt_some : known_keys (kdims t) (kdims l) <> [] }.
