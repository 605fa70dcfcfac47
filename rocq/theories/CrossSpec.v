(** Specification for C97: the cross product of two arrays of vectors, in terms of elements. *)
From Verif Require Import Base NdSpec ShapeSpec.
Open Scope Z_scope.

(** a list without its [k]-th entry; with [v] put in at position [k] *)
Definition without {A} (k : nat) (l : list A) : list A := firstn k l ++ skipn (S k) l.
Definition with_at {A} (k : nat) (v : A) (l : list A) : list A := firstn k l ++ v :: skipn k l.
(** component [k] of the vector at the other indices [o]: the vector lies along [axis] and has [d] components; a plane vector
    has the third component zero *)
Definition component {V} (zero : V) (G : list Z -> V) (axis : nat) (d : Z) (o : list Z) (k : Z) : V :=
  if (d =? 2) && (k =? 2) then zero else G (with_at axis k o).
(** component [i] of u x v *)
Definition cross3 {V} (sub mul : V -> V -> V) (u v : Z -> V) (i : Z) : V :=
  sub (mul (u ((i + 1) mod 3)) (v ((i + 2) mod 3))) (mul (u ((i + 2) mod 3)) (v ((i + 1) mod 3))).
(** the axes the four arguments mean for arrays of [n] dimensions: [axis] overrides the others unless it is -1 *)
Definition vector_axes (n : nat) (axisa axisb axisc axis : Z) (aa ab ac : nat) : Prop :=
  if (axis =? -1) && negb ((axisa =? -1) && (axisb =? -1) && (axisc =? -1))
  then valid_axis n axisa /\ valid_axis n axisb /\ valid_axis n axisc /\ aa = norm n axisa /\ ab = norm n axisb /\ ac = norm n axisc
  else valid_axis n axis /\ aa = norm n axis /\ ab = aa /\ ac = aa.
