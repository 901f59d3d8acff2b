(** Example triangles with several rows and columns, and boolean versions of
    the label conditions. *)
From Coq Require Import Lia.
From Verif Require Export Ex SpecLabel CatFacts.
Local Open Scope Z_scope.
Local Open Scope string_scope.
Local Notation N := (@None Z).

(** cells: index, column, origin, age *)
Definition arr4 (rows : list (list (list (list (option Z))))) : arr :=
  Arr (List.length rows) (List.length (hd [] rows)) (List.length (hd [] (hd [] rows))) (List.length (hd [] (hd [] (hd [] rows))))
    (fun i c o d => option_map qc (nth d (nth o (nth c (nth i rows []) []) []) None)).
Definition tri4 (ks : list (list string)) (kl vs : list string) (os : list Z) (dd : ddim) (v : Z) rows : tri :=
  Tri ks kl vs os dd (arr4 rows) v (Some true) false GY GY.

Definition uniqb (t : tri) : bool := nodup_keysb (kdims t) && nodup_strb (vdims t).
Lemma uniqb_ok t : uniqb t = true -> uniq_labels t.
Proof. unfold uniqb. rewrite andb_true_iff. intros [A B]. split; [apply nodup_keysb_NoDup|apply nodup_strb_NoDup]; auto. Qed.
Definition full_keysb (t : tri) : bool := forallb (fun k => Nat.eqb (List.length k) (List.length (key_labels t))) (kdims t).
Lemma full_keysb_ok t : full_keysb t = true -> full_keys t.
Proof. unfold full_keysb. rewrite forallb_forall. intros H k Hk. apply Nat.eqb_eq. auto. Qed.

(** Two business lines each. *)
Definition rowsA : tri := tri4 [["b"]; ["a"]] ["lob"] ["paid"] [y 2001; y 2002] (Ages [12; 24]) (dec 2002)
  [[[[Some 100; Some 150]; [Some 120; N]]]; [[[Some 7; Some 8]; [Some 9; N]]]].
Definition rowsB : tri := tri4 [["c"]; ["b"]] ["lob"] ["paid"] [y 2001; y 2002] (Ages [12; 24]) (dec 2002)
  [[[[Some 1; Some 2]; [Some 3; N]]]; [[[Some 10; Some 20]; [Some 30; N]]]].
(** Two columns each. *)
Definition colsA : tri := tri4 [["t"]] ["lob"] ["paid"; "incurred"] [y 2001; y 2002] (Ages [12; 24]) (dec 2002)
  [[[[Some 100; Some 150]; [Some 120; N]]; [[Some 200; Some 250]; [Some 220; N]]]].
Definition colsB : tri := tri4 [["t"]] ["lob"] ["incurred"; "case"] [y 2001; y 2002] (Ages [12; 24]) (dec 2002)
  [[[[Some 1; Some 2]; [Some 3; N]]; [[Some 4; Some 5]; [Some 6; N]]]].
Definition colsAr : tri := tri4 [["u"]] ["lob"] ["incurred"; "paid"] [y 2001; y 2002] (Ages [12; 24]) (dec 2002)
  [[[[Some 1; Some 2]; [Some 3; N]]; [[Some 4; Some 5]; [Some 6; N]]]].
(** One more, and one later, origin. *)
Definition ageA : tri := tri_of [[Some 100; Some 150]; [Some 120; N]] [y 2001; y 2002] (Ages [12; 24]) (dec 2002) (Some true) false.
Definition ageB : tri := tri_of [[Some 1; Some 2; Some 3]; [Some 4; Some 5; N]] [y 2002; y 2003] (Ages [12; 24; 36]) (dec 2004) (Some true) false.
(** Origins with a gap. *)
Definition gapA : tri := tri_of [[Some 1; Some 1]; [Some 1; Some 1]; [Some 1; Some 1]] [y 2001; y 2002; y 2004] (Ages [12; 24]) (dec 2005) (Some true) false.
Definition gapB : tri := tri_of [[Some 10; Some 10]; [Some 10; Some 10]; [Some 10; Some 10]] [y 2001; y 2003; y 2004] (Ages [12; 24]) (dec 2005) (Some true) false.

Ltac by_wfb := apply wfb_ok; vm_compute; reflexivity.
Ltac by_blankb := apply blank_futureb_ok; vm_compute; reflexivity.
Ltac by_uniqb := apply uniqb_ok; vm_compute; reflexivity.
Ltac by_fullb := apply full_keysb_ok; vm_compute; reflexivity.
