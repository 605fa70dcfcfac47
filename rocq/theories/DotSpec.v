(** Inner products of sequences. *)
From Verif Require Import Base NdSpec TensorSpec.
Open Scope Z_scope.
(** x_0 y_0 + x_1 y_1 + ... *)
Definition inner {V} (zero : V) (add mul : V -> V -> V) (xs ys : list V) : V :=
  big add zero (map (fun p => mul (fst p) (snd p)) (combine xs ys)).
(** the elements of a global array in row-major order *)
Definition elements {V} (G : list Z -> V) (sh : list Z) : list V := map G (row_major sh).
