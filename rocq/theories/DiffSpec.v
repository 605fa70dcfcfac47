(** The n-th discrete difference of an array along an axis.  Nothing here refers to Heat's code. *)
From Verif Require Import Base TensorSpec NdSpec.
Open Scope Z_scope.

(** first difference: element i is a[i+1] - a[i] along [axis] *)
Definition difference {A} (minus : A -> A -> A) (axis : nat) (G : list Z -> A) (idx : list Z) : A :=
  minus (G (move_axis_idx axis 1 idx)) (G idx).
Fixpoint differences {A} (minus : A -> A -> A) (axis : nat) (n : nat) (G : list Z -> A) : list Z -> A :=
  match n with O => G | S k => difference minus axis (differences minus axis k G) end.

(** layouts (extents per process along the split axis) for which one element from the next process
    is enough: along the split axis no empty process stands before a non-empty one, otherwise
    no process holds less than the next one.  Balanced layouts are of both kinds. *)
Definition smooth (cnts : list Z) (split axis : nat) : Prop :=
  if Nat.eqb axis split then forall r, (S r < length cnts)%nat -> nth r cnts 0 = 0 -> nth (S r) cnts 0 = 0
  else forall r, (S r < length cnts)%nat -> nth (S r) cnts 0 <= nth r cnts 0.
