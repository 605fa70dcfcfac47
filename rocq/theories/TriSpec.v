(** Upper triangular systems (C80). *)
From Coq Require Import List Arith Field_theory.
Import ListNotations.
(** arithmetic of a field with operations f0 f1 + * - opp / inv *)
Section Spec.
Context {F : Type}.
Variables (f0 : F) (fadd fmul : F -> F -> F).
Definition fsum (l : list F) : F := fold_right fadd f0 l.
(** x solves T x = b with T the upper triangular part of the n x n matrix A and k right-hand
    sides: for every row i and column c, sum over j = i..n-1 of A i j * x j c = b i c *)
Definition solves (n k : nat) (A b x : nat -> nat -> F) : Prop :=
  forall i c, i < n -> c < k -> fsum (map (fun j => fmul (A i j) (x j c)) (seq i (n - i))) = b i c.
(** the same with the whole matrix *)
Definition solves_full (n k : nat) (A b x : nat -> nat -> F) : Prop :=
  forall i c, i < n -> c < k -> fsum (map (fun j => fmul (A i j) (x j c)) (seq 0 n)) = b i c.
Definition upper (n : nat) (A : nat -> nat -> F) : Prop := forall i j, i < n -> j < i -> A i j = f0.
End Spec.
