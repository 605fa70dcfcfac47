(** Broadcasting several global arrays of one dimension to a common shape.  Nothing here refers to
    Heat's code. *)
From Verif Require Import Base TensorSpec NdSpec.
Open Scope Z_scope.
(** the shapes [gs] broadcast jointly to [o]: on every axis each extent is one or that of [o], and
    the extent of [o] is one or that of some shape *)
Definition jointly (gs : list (list Z)) (o : list Z) : Prop :=
  (forall g, In g gs -> length g = length o) /\
  forall i, (i < length o)%nat -> (forall g, In g gs -> nth i g 0 = nth i o 0 \/ nth i g 0 = 1) /\ (nth i o 0 = 1 \/ exists g, In g gs /\ nth i g 0 = nth i o 0).
