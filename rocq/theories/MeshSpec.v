(** Coordinate grids.  Nothing here refers to Heat's code. *)
From Verif Require Import Base.
(** the axis of the grids that vector [k] of [n] runs along: axis k for indexing="ij"; for
    indexing="xy" the first two are exchanged *)
Definition mesh_axis (xy : bool) (n k : nat) : nat :=
  if xy then match n, k with O, _ | S O, _ => k | _, O => 1 | _, S O => 0 | _, _ => k end else k.
