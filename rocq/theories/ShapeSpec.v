(** Specification vocabulary for operations on shapes: axis numbers, permutations of
    axes, exchanged positions.  Nothing here refers to Heat's code. *)
From Verif Require Import Base TensorSpec NdSpec LayoutModel.
Open Scope Z_scope.

(** a Python axis number, possibly negative, of an n-dimensional array *)
Definition norm (n : nat) (a : Z) : nat := Z.to_nat (if a <? 0 then a + Z.of_nat n else a).
Definition valid_axis (n : nat) (a : Z) : Prop := - Z.of_nat n <= a < Z.of_nat n.

(** [axes] lists every axis of an n-dimensional array exactly once *)
Definition perm_axes (n : nat) (axes : list nat) : Prop :=
  length axes = n /\ NoDup axes /\ forall k, In k axes <-> (k < n)%nat.

(** exchange two positions *)
Definition swap_list {A} (d : A) (p1 p2 : nat) (l : list A) : list A := upd (upd l p1 (nth p2 l d)) p2 (nth p1 l d).

(** where axis [s] is after a new axis was inserted at [k] *)
Definition bump (k s : nat) : nat := if (k <=? s)%nat then S s else s.

(** the axes of extent one that squeeze(axis) has to remove *)
Definition squeeze_axes (gsh : list Z) (axis : axis_arg) (axes : list nat) : Prop :=
  match axis with
  | AxNone => axes = filter (fun i => nth i gsh 0 =? 1) (seq 0 (length gsh))
  | AxInt a => - Z.of_nat (length gsh) <= a < Z.of_nat (length gsh) /\ axes = [norm (length gsh) a] /\ nth (norm (length gsh) a) gsh 0 = 1
  | AxTuple l => (forall a, In a l -> - Z.of_nat (length gsh) <= a < Z.of_nat (length gsh) /\ nth (norm (length gsh) a) gsh 0 = 1)
                 /\ axes = map (norm (length gsh)) l
  | AxOther => False
  end.
