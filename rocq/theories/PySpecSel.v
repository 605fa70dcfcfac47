(** More specification vocabulary: picking elements by position. *)
From Verif Require Import Base PySpec.

(** the elements of [l] at positions [idx], in the order of [idx] *)
Definition sel {A} (l : list A) (idx : list Z) : list A :=
  flat_map (fun i => match nth_error l (Z.to_nat i) with Some x => [x] | None => [] end) idx.
