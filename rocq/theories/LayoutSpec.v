(** Independent specification for the layout properties (C01-C05). *)
From Verif Require Import Base PySpec.

(** Consecutive half-open intervals [a, b) that visit 0, 1, ..., n-1 in this order,
    each exactly once: no overlap, no hole, rank order = index order. *)
Definition tiles (ivs : list (nat * nat)) (n : nat) : Prop :=
  concat (map (fun iv => seq (fst iv) (snd iv - fst iv)) ivs) = seq 0 n.

(** NumPy's rule: extents aligned from the right, missing extents count as 1. *)
Definition ext (s : list nat) (k : nat) : nat := nth k (rev s) 1.   (* k-th extent from the right *)
Definition compatible (a b : list nat) : Prop :=
  forall k, ext a k = ext b k \/ ext a k = 1 \/ ext b k = 1.
Definition is_broadcast (a b c : list nat) : Prop :=
  length c = Nat.max (length a) (length b) /\
  forall k, ext c k = if Nat.eqb (ext a k) 1 then ext b k else ext a k.
