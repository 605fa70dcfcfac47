(** Mapping a function over slices, on global arrays.  Nothing here refers to Heat's code. *)
From Verif Require Import Base TensorSpec NdSpec.
Open Scope Z_scope.

(** remove / insert one axis of a shape or one entry of an index *)
Definition del {A} (k : nat) (l : list A) : list A := firstn k l ++ skipn (S k) l.
Definition ins {A} (k : nat) (v : A) (l : list A) : list A := firstn k l ++ v :: skipn k l.
(** the i-th slice of the array [G] of shape [sh] along axis s; without an axis: all of it *)
Definition slice_of {A} (sh : list Z) (G : list Z -> A) (ax : option nat) (i : Z) : arr A :=
  match ax with
  | None => mk_arr sh G
  | Some s => mk_arr (del s sh) (fun idx => G (ins s i idx))
  end.
(** the same shape and the same elements *)
Definition same_tensor {A} (t t' : arr A) : Prop := ash t = ash t' /\ forall idx, in_bounds (ash t) idx -> adat t idx = adat t' idx.
(** a function from tensors to tensors that can be vectorised: the outputs depend on the inputs'
    shapes and elements only, and the outputs' shapes only on the inputs' shapes *)
Definition vectorisable {A B} (f : list (arr A) -> list (arr B)) (shapes : list (list Z) -> list (list Z)) : Prop :=
  (forall l, map ash (f l) = shapes (map ash l)) /\
  (forall l l', Forall2 same_tensor l l' -> Forall2 same_tensor (f l) (f l')).
