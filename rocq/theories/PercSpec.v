(** Specification of percentiles (NumPy's definition) over exact rationals.  Nothing here
    refers to Heat's code. *)
From Coq Require Import QArith Qround Permutation Sorted.
From Verif Require Import Base TensorSpec NdSpec.
Open Scope Z_scope.

Inductive interp := Linear | Lower | Higher | Midpoint | Nearest.

(** [s] is the data [l] in non-decreasing order *)
Definition sorted_version (l s : list Q) : Prop := Permutation s l /\ StronglySorted (fun a b => Qle a b) s.
(** the order statistic at position k *)
Definition at_pos (s : list Q) (k : Z) : Q := nth (Z.to_nat k) s 0%Q.
(** [v] is the value at the fractional position [h] of the sorted data [s] *)
Definition interp_at (m : interp) (s : list Q) (h v : Q) : Prop :=
  let i := at_pos s (Qfloor h) in let j := at_pos s (Qceiling h) in
  match m with
  | Linear => Qeq v (i + (j - i) * (h - inject_Z (Qfloor h)))
  | Lower => Qeq v i
  | Higher => Qeq v j
  | Midpoint => Qeq v ((i + j) * (1 # 2))
  | Nearest => exists k, Qle (h - inject_Z k) (1 # 2) /\ Qle (inject_Z k - h) (1 # 2) /\ Qeq v (at_pos s k)
  end.
(** the position of the q-th percentile among n data *)
Definition position (q : Q) (n : Z) : Q := (q / inject_Z 100 * inject_Z (n - 1))%Q.
(** [v] is a q-th percentile of the data [l] *)
Definition is_percentile (m : interp) (q : Q) (l : list Q) (v : Q) : Prop :=
  exists s, sorted_version l s /\ interp_at m s (position q (Z.of_nat (length l))) v.
