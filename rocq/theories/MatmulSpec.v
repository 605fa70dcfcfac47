(** The product of two (stacks of) matrices, element by element.  Nothing here refers to
    Heat's code. *)
From Verif Require Import Base TensorSpec NdSpec.
Open Scope Z_scope.

(** element [..., i, j] of A @ B: the sum over k of A[..., i, k] * B[..., k, j] *)
Definition product {V} (zero : V) (add mul : V -> V -> V) (K : Z) (A B : list Z -> V) (idx : list Z) : V :=
  let n := length idx in
  fold_right add zero (map (fun k => mul (A (upd idx (n - 1) k)) (B (upd idx (n - 2) k))) (zr K)).

(** vectors are matrices of one row (left) or one column (right) *)
Definition row_of {V} (A : list Z -> V) (idx : list Z) : V := A (skipn 1 idx).
Definition col_of {V} (B : list Z -> V) (idx : list Z) : V := B (firstn 1 idx).

(** addition is associative and has a zero (true of integers, not of floating point numbers) *)
Definition sums {V} (zero : V) (add : V -> V -> V) : Prop :=
  (forall x y z, add x (add y z) = add (add x y) z) /\ (forall x, add zero x = x) /\ (forall x, add x zero = x).
