(** Specification for C91: NumPy's boolean masks. *)
From Verif Require Import Base NdSpec TensorSpec.
Open Scope Z_scope.
(** coordinates of the selected elements, in row-major order *)
Definition selected (gsh : list Z) (M : list Z -> bool) : list (list Z) := filter M (row_major gsh).
(** the vector of the elements of [G] at the coordinates [ks] *)
Definition at_coords {A} (G : list Z -> A) (ks : list (list Z)) (idx : list Z) : A := G (nth (Z.to_nat (nth 0 idx 0)) ks []).
