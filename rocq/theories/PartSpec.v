(** Descriptions of a distributed array by boxes: what a reader of the [__partitioned__] protocol
    expects.  Nothing here refers to Heat's code. *)
From Verif Require Import Base TensorSpec NdSpec.
Open Scope Z_scope.
(** the global index [idx] lies in the box that starts at [start] and has extents [shape] *)
Definition in_box (start shape idx : list Z) : Prop :=
  length start = length idx /\ length shape = length idx /\
  forall k, (k < length idx)%nat -> nth k start 0 <= nth k idx 0 < nth k start 0 + nth k shape 0.
(** [t] holds the elements of [G] in that box *)
Definition holds_box {A} (G : list Z -> A) (start shape : list Z) (t : arr A) : Prop :=
  ash t = shape /\ forall i, in_bounds shape i -> adat t i = G (zadd start i).
(** positions with a nonzero entry *)
Definition differ_at (a b : list Z) (k : nat) : Prop := (k < length a)%nat /\ nth k a 0 <> nth k b 0.
