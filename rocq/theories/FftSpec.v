(** Specification for C92: a one-dimensional transform applied to every lane along an axis. *)
From Verif Require Import Base NdSpec TensorSpec.
Open Scope Z_scope.
(** the elements of G along [axis] through [idx] *)
Definition lane {A} (G : list Z -> A) (sh : list Z) (axis : nat) (idx : list Z) : list A := map (fun j => G (upd idx axis j)) (zr (nth axis sh 0)).
Definition transformed {A B} (db : B) (f : list A -> list B) (sh : list Z) (axis : nat) (G : list Z -> A) (idx : list Z) : B :=
  nth (Z.to_nat (nth axis idx 0)) (f (lane G sh axis idx)) db.
