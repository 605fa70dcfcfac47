(** Sums along diagonals, on global arrays.  Nothing here refers to Heat's code. *)
From Verif Require Import Base TensorSpec NdSpec VmapSpec.
Open Scope Z_scope.
(** sum of F i (i + k) over all i with 0 <= i < n and 0 <= i + k < m *)
Definition diag_sum (F : Z -> Z -> Z) (n m k : Z) : Z :=
  zsum (map (fun i => if (0 <=? i + k) && (i + k <? m) then F i (i + k) else 0) (zr n)).
(** the index with i at axis a1, j at axis a2 and idx elsewhere *)
Definition at_axes (a1 a2 : nat) (i j : Z) (idx : list Z) : list Z :=
  if (a1 <? a2)%nat then ins a2 j (ins a1 i idx) else ins a1 i (ins a2 j idx).
(** the shape without the axes a1 and a2 *)
Definition without (a1 a2 : nat) (sh : list Z) : list Z :=
  if (a1 <? a2)%nat then del a1 (del a2 sh) else del a2 (del a1 sh).
(** trace of the array G of shape sh *)
Definition trace_of (sh : list Z) (G : list Z -> Z) (k : Z) (a1 a2 : nat) (idx : list Z) : Z :=
  diag_sum (fun i j => G (at_axes a1 a2 i j idx)) (nth a1 sh 0) (nth a2 sh 0) k.
(** a axis number, possibly negative, of an n-dimensional array *)
Definition names_axis (n : nat) (a : Z) (b : nat) : Prop := (b < n)%nat /\ (a = Z.of_nat b \/ a = Z.of_nat b - Z.of_nat n).
