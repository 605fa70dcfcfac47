(** What unique elements are. *)
From Verif Require Import Base NdSpec TensorSpec.
Open Scope Z_scope.

(** [Y] lists, at the positions 0 .. k-1, every element of [G] exactly once *)
Definition distinct_elements {V} (G : list Z -> V) (sh : list Z) (k : Z) (Y : list Z -> V) : Prop :=
  (forall j, 0 <= j < k -> exists idx, in_bounds sh idx /\ Y [j] = G idx) /\
  (forall idx, in_bounds sh idx -> exists j, 0 <= j < k /\ Y [j] = G idx) /\
  (forall j j', 0 <= j < k -> 0 <= j' < k -> Y [j] = Y [j'] -> j = j').
(** slice j of [Y] along [ax] equals slice i of [G] *)
Definition same_slice {V} (sh : list Z) (ax : nat) (Y G : list Z -> V) (j i : Z) : Prop :=
  forall idx, in_bounds (upd sh ax 1) idx -> Y (upd idx ax j) = G (upd idx ax i).
Definition distinct_slices {V} (G : list Z -> V) (sh : list Z) (ax : nat) (k : Z) (Y : list Z -> V) : Prop :=
  (forall j, 0 <= j < k -> exists i, 0 <= i < nth ax sh 0 /\ same_slice sh ax Y G j i) /\
  (forall i, 0 <= i < nth ax sh 0 -> exists j, 0 <= j < k /\ same_slice sh ax Y G j i) /\
  (forall j j', 0 <= j < k -> 0 <= j' < k -> same_slice sh ax Y Y j j' -> j = j').
(** torch.unique keeps every key exactly once *)
Definition keeps_unique {V} (reps : list (list V) -> list nat) : Prop :=
  forall l, (forall p, In p (reps l) -> (p < length l)%nat) /\ NoDup (map (fun p => nth p l []) (reps l)) /\
            forall k, In k l -> In k (map (fun p => nth p l []) (reps l)).
