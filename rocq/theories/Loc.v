(** Positional indexing on all four axes.  Definitions only. *)
From Verif Require Export Tri.
Local Open Scope Z_scope.

(** An indexer of one axis: an integer, a slice or a list of positions. *)
Inductive pkey := KInt (z : Z) | KSlice (a b s : option Z) | KList (l : list Z).

(** sparse's [normalize_index]: negative positions count from the end, positions
    outside the axis raise IndexError. *)
Definition posify (n : nat) (z : Z) : result Z :=
  let N := Z.of_nat n in
  if (z <? - N) || (N <=? z) then Err IndexError else Ok (if z <? 0 then z + N else z).
Fixpoint posify_all (n : nat) (l : list Z) : result (list Z) :=
  match l with
  | [] => Ok []
  | z :: r => do p <- posify n z; do ps <- posify_all n r; Ok (p :: ps)
  end.
(** core/slice.py 68-81 [_normalize_index] followed by 35-56 [_contig_slice] on one
    axis of length n. *)
Definition norm_key (k : pkey) (n : nat) : result slicer :=
  match k with
  | KInt z => do p <- posify n z; contig_slice [p]
  | KSlice a b s => normalize_slice a b s n
  | KList l => do ps <- posify_all n l; contig_slice ps
  end.
(** core/slice.py 170-171 [iloc[k0, k1, k2, k3]]. *)
Definition iloc (t : tri) (k0 k1 k2 k3 : pkey) : result tri :=
  do s0 <- norm_key k0 (ax0 (values t));
  do s1 <- norm_key k1 (ax1 (values t));
  do s2 <- norm_key k2 (ax2 (values t));
  do s3 <- norm_key k3 (ax3 (values t));
  get_idx t s0 s1 s2 s3.
