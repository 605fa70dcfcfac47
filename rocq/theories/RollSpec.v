(** What roll, flip and rot90 mean, element by element.  Nothing here refers to Heat's code. *)
From Verif Require Import Base TensorSpec NdSpec.
Open Scope Z_scope.

(** [sas]: pairs (shift, axis).  An axis may be named several times: its shifts add up. *)
Definition total_shift (sas : list (Z * nat)) (k : nat) : Z :=
  zsum (map fst (filter (fun p => Nat.eqb (snd p) k) sas)).
(** the index whose element a roll puts at [idx]: every index minus the shift of its axis,
    around the end *)
Definition roll_src (gsh : list Z) (sas : list (Z * nat)) (idx : list Z) : list Z :=
  map (fun k => (nth k idx 0 - total_shift sas k) mod nth k gsh 0) (seq 0 (length gsh)).
(** the index mirrored along every axis listed in [axes] *)
Definition flip_src (gsh : list Z) (axes : list nat) (idx : list Z) : list Z :=
  map (fun k => if in_dec Nat.eq_dec k axes then nth k gsh 0 - 1 - nth k idx 0 else nth k idx 0) (seq 0 (length gsh)).

(** an array as shape and elements; one quarter turn from axis [p0] towards axis [p1]:
    new[.., i, .., j, ..] = old[.., j, .., n1 - 1 - i, ..] *)
Definition turn {A} (p0 p1 : nat) (m : list Z * (list Z -> A)) : list Z * (list Z -> A) :=
  let (sh, G) := m in
  (upd (upd sh p0 (nth p1 sh 0)) p1 (nth p0 sh 0),
   fun idx => G (upd (upd idx p0 (nth p1 idx 0)) p1 (nth p1 sh 0 - 1 - nth p0 idx 0))).
Fixpoint turns {A} (k : nat) (p0 p1 : nat) (m : list Z * (list Z -> A)) : list Z * (list Z -> A) :=
  match k with O => m | S k' => turn p0 p1 (turns k' p0 p1 m) end.
