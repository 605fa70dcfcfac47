(** The discrete linear convolution of two finite sequences.  Nothing here refers to Heat's code. *)
From Verif Require Import Base.

Inductive conv_mode := Full | Same | Valid.

Section Conv.
Context {V : Type} (zero : V) (add mul : V -> V -> V).
Definition total (l : list V) : V := fold_right add zero l.
(** element i of a * v: the sum over j of a[i - j] * v[j], absent elements being zero *)
Definition conv_at (a v : list V) (i : nat) : V :=
  total (map (fun j => mul (if j <=? i then nth (i - j) a zero else zero) (nth j v zero)) (seq 0 (length v))).
(** the positions a mode reports: the first one and their number *)
Definition first_pos (m : conv_mode) (M : nat) : nat := match m with Full => 0 | Same => M / 2 | Valid => M - 1 end.
Definition num_pos (m : conv_mode) (N M : nat) : nat := match m with Full => N + M - 1 | Same => N | Valid => N - M + 1 end.
(** every stride-th of them *)
Definition convolution (m : conv_mode) (stride : nat) (a v : list V) : list V :=
  map (fun k => conv_at a v (first_pos m (length v) + k * stride)) (seq 0 ((num_pos m (length a) (length v) - 1) / stride + 1)).

(** a commutative monoid with an absorbing zero for multiplication (true of integers, not of
    floating point numbers) *)
Definition conv_laws : Prop :=
  (forall x y z, add x (add y z) = add (add x y) z) /\ (forall x y, add x y = add y x) /\ (forall x, add zero x = x) /\ (forall x, mul zero x = zero) /\ (forall x, mul x zero = zero).
End Conv.
