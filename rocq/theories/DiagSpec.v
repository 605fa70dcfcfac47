(** What the diagonal / triangle operations mean on the global array. *)
From Verif Require Import Base TensorSpec NdSpec.
Open Scope Z_scope.

(** tril keeps j - i <= k, triu keeps j - i >= k; i, j are the last two coordinates *)
Definition in_triangle (lower : bool) (k i j : Z) : Prop := if lower then j - i <= k else k <= j - i.
Definition tri_spec {A} (zero : A) (lower : bool) (k : Z) (n : nat) (G H : list Z -> A) : Prop :=
  forall idx, let i := nth (n - 2) idx 0 in let j := nth (n - 1) idx 0 in
    (in_triangle lower k i j -> H idx = G idx) /\ (~ in_triangle lower k i j -> H idx = zero).
(** the matrix with the vector G on its diagonal [off] *)
Definition diag_spec {A} (zero : A) (off : Z) (G H : list Z -> A) : Prop :=
  forall i j, H [i; j] = if j - i =? off then G [if off <? 0 then j else i] else zero.
(** number of elements of diagonal [off] of an n1 x n2 matrix *)
Definition diag_len (n1 n2 off : Z) : Z := Z.max 0 (Z.min (n1 - Z.max 0 (- off)) (n2 - Z.max 0 off)).
