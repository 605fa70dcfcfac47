(** Shuffling rows: what a user expects.  Nothing here refers to Heat's code. *)
From Coq Require Import List Permutation.
Import ListNotations.

(** [p] lists each of 0 .. n-1 once (a result of torch.randperm(n)) *)
Definition is_perm (n : nat) (p : list nat) : Prop := Permutation p (seq 0 n).
(** the rows [l] in the order [p]: row k of the result is row p[k] of [l] *)
Definition reordered {A} (d : A) (l : list A) (p : list nat) : list A := map (fun k => nth k l d) p.
(** two lists of equal length, row by row *)
Definition pairs {A B} (l : list A) (m : list B) : list (A * B) := combine l m.
