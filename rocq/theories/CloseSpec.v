(** What ht.equal, ht.allclose and ht.isclose promise, on global arrays (shape and elements).
    Nothing here refers to Heat's code. *)
From Verif Require Import Base TensorSpec NdSpec.
Open Scope Z_scope.

(** arrays of the same shape whose elements are all related by [r] *)
Definition same_elements {A} (r : A -> A -> bool) (sh1 sh2 : list Z) (G1 G2 : list Z -> A) : Prop :=
  sh1 = sh2 /\ forall idx, in_bounds sh1 idx -> r (G1 idx) (G2 idx) = true.
(** the index of the only element of a one-element array *)
Definition origin (sh : list Z) : list Z := map (fun _ => 0) sh.
