(** What concatenation means, element by element.  Nothing here refers to Heat's code. *)
From Verif Require Import Base TensorSpec NdSpec.
Open Scope Z_scope.

(** [G0] of extent [n0] along [axis], followed by [G1] *)
Definition glue {A} (axis : nat) (n0 : Z) (G0 G1 : list Z -> A) (idx : list Z) : A :=
  if nth axis idx 0 <? n0 then G0 idx else G1 (upd idx axis (nth axis idx 0 - n0)).
(** shapes that may be concatenated along [axis] *)
Definition cat_shapes (axis : nat) (sh0 sh1 : list Z) : Prop :=
  length sh0 = length sh1 /\ (axis < length sh0)%nat /\
  forall k, (k < length sh0)%nat -> k <> axis -> nth k sh0 0 = nth k sh1 0.
Definition cat_shape (axis : nat) (sh0 sh1 : list Z) : list Z := upd sh0 axis (nth axis sh0 0 + nth axis sh1 0).
(** several arrays one after the other: [(n, G)] of extent [n], then the [rest] *)
Fixpoint glue_all {A} (axis : nat) (n : Z) (G : list Z -> A) (rest : list (Z * (list Z -> A))) : list Z -> A :=
  match rest with
  | [] => G
  | (m, H) :: rest' => glue axis n G (glue_all axis m H rest')
  end.
