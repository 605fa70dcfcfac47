(** Specification vocabulary for strided tensors in memory: multi-indices, their
    row-major enumeration, the address of an element, and memory as a function.
    Nothing here refers to Heat's code. *)
From Verif Require Import Base.
Open Scope Z_scope.

(** 0, 1, ..., n-1 *)
Definition zr (n : Z) : list Z := map Z.of_nat (seq 0 (Z.to_nat n)).

(** all multi-indices of a shape, last index fastest (C / row-major order) *)
Fixpoint row_major (shape : list Z) : list (list Z) :=
  match shape with
  | [] => [[]]
  | n :: sh => flat_map (fun i => map (cons i) (row_major sh)) (zr n)
  end.

(** element offset of a multi-index for given strides *)
Fixpoint dot (idx st : list Z) : Z :=
  match idx, st with i :: idx', s :: st' => i * s + dot idx' st' | _, _ => 0 end.

Fixpoint zadd (a b : list Z) : list Z :=
  match a, b with x :: a', y :: b' => (x + y) :: zadd a' b' | _, _ => [] end.

Definition in_bounds (shape idx : list Z) : Prop :=
  Forall2 (fun n i => 0 <= i < n) shape idx.

Fixpoint zprod (l : list Z) : Z := match l with [] => 1 | n :: t => n * zprod t end.

(** strides of a C-contiguous tensor *)
Fixpoint cstrides (shape : list Z) : list Z :=
  match shape with [] => [] | _ :: sh => zprod sh :: cstrides sh end.

(** One memory per process; an element is addressed by its first byte. *)
Definition mem (V : Type) := Z -> V.
(** Element [idx] of a tensor of element size [w] with the given strides whose
    first element is at address 0. *)
Definition read {V} (m : mem V) (w : Z) (st idx : list Z) : V := m (w * dot idx st).

(** Delivering a message = performing its writes (address, value), in some order. *)
Definition write {V} (m : mem V) (x : Z * V) : mem V :=
  fun a => if a =? fst x then snd x else m a.
Definition writes {V} (m : mem V) (l : list (Z * V)) : mem V := fold_left write l m.
