(** Repeating and tiling, element by element (numpy.repeat, numpy.tile).  Nothing here refers
    to Heat's code. *)
From Verif Require Import Base TensorSpec NdSpec.
Open Scope Z_scope.

(** [G'] is [G] (of shape [gsh]) with the i-th slab along [axis] repeated [nth i reps 0] times,
    copies of a slab next to each other, slabs in order *)
Definition repeated_along {A} (axis : nat) (reps : list Z) (gsh : list Z) (G G' : list Z -> A) : Prop :=
  forall idx j, in_bounds gsh idx ->
    let i := Z.to_nat (nth axis idx 0) in
    0 <= j < nth i reps 0 -> G' (upd idx axis (zsum (firstn i reps) + j)) = G idx.

(** shape and repetitions of numpy.tile, brought to the same length with ones in front *)
Definition ones (n : nat) (l : list Z) : list Z := repeat 1 (n - length l) ++ l.
Definition times (l m : list Z) : list Z := map (fun p => fst p * snd p) (combine l m).
Definition modulo_idx (idx sh : list Z) : list Z := map (fun p => fst p mod snd p) (combine idx sh).
