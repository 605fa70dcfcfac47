(** Sample mean and variance of a list of rationals; counting. *)
From Coq Require Import QArith List ZArith.
Import ListNotations.
Open Scope Q_scope.
Definition qsum (l : list Q) : Q := fold_right Qplus 0 l.
Definition qlen (l : list Q) : Q := inject_Z (Z.of_nat (length l)).
Definition mean_of (l : list Q) : Q := qsum l / qlen l.
(** divisor n - ddof, ddof = 1 if [c] *)
Definition var_of (c : bool) (l : list Q) : Q :=
  qsum (map (fun x => (x - mean_of l) * (x - mean_of l)) l) / (qlen l - (if c then 1 else 0)).
(** total weight of the occurrences of [b] *)
Definition weight_of (b : nat) (l : list (nat * Z)) : Z :=
  fold_right Z.add 0%Z (map snd (filter (fun p => Nat.eqb (fst p) b) l)).
Definition max_plus_one (l : list (nat * Z)) : nat := fold_right Nat.max 0%nat (map (fun p => S (fst p)) l).
