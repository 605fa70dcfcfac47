(** What sorting means.  [lt] is the strict comparison of the elements. *)
From Coq Require Import Permutation Sorted.
From Verif Require Import Base.

Definition weak_order {V} (lt : V -> V -> bool) : Prop :=
  (forall x y, lt x y = true -> lt y x = false) /\ (forall x y z, lt x y = false -> lt y z = false -> lt x z = false).
(** no element is followed by one that should come before it *)
Definition in_order {V} (lt : V -> V -> bool) (desc : bool) (l : list V) : Prop :=
  StronglySorted (fun x y => (if desc then lt x y else lt y x) = false) l.
(** torch.sort: [ts desc l] are indices into l that put it in order *)
Definition sorts {V} (dv : V) (lt : V -> V -> bool) (ts : bool -> list V -> list nat) : Prop :=
  forall desc l, Permutation (ts desc l) (seq 0 (length l)) /\ in_order lt desc (map (fun i => nth i l dv) (ts desc l)).

(** the elements of [F] along axis [ax] through [idx] *)
From Verif Require Import TensorSpec.
Definition lane {B} (F : list Z -> B) (ax : nat) (n : Z) (idx : list Z) : list B := map (fun i => F (upd idx ax i)) (zr n).
(** [H] holds (value, index) pairs: along [ax] the values are in order, the indices are a
    permutation of 0 .. n-1, and every value is the element of [G] at its index *)
Definition sorted_along {V} (lt : V -> V -> bool) (desc : bool) (ax : nat) (sh : list Z) (G : list Z -> V) (H : list Z -> V * Z) : Prop :=
  forall idx, in_bounds sh idx ->
    let n := nth ax sh 0%Z in
    in_order lt desc (map fst (lane H ax n idx)) /\
    Permutation (map snd (lane H ax n idx)) (zr n) /\
    fst (H idx) = G (upd idx ax (snd (H idx))).
