(** The range of a collection of floating point numbers.  [None] is NaN.  Nothing here refers to
    Heat's code. *)
From Verif Require Import Base TensorSpec NdSpec.
Open Scope Z_scope.

(** [r] is max - min of the values [l]; NaN if one of them is NaN *)
Definition range_of (l : list (option Z)) (r : option Z) : Prop :=
  (In None l /\ r = None) \/
  (exists lo hi, In (Some lo) l /\ In (Some hi) l /\ r = Some (hi - lo) /\ forall v, In v l -> exists z, v = Some z /\ lo <= z <= hi).
(** the values on the line through [idx] along axis [a] of an array of shape [sh] *)
Definition line {A} (G : list Z -> A) (sh : list Z) (a : nat) (idx : list Z) : list A := map (fun j => G (upd idx a j)) (zr (nth a sh 0)).
