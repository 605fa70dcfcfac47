(** Which bucket a value belongs to, as documented; nothing here refers to Heat's code. *)
From Coq Require Import QArith.
From Verif Require Import Base.
Open Scope Z_scope.

Definition increasing (b : list Q) : Prop := forall i j, (i <= j < length b)%nat -> (nth i b 0 <= nth j b 0)%Q.
Definition decreasing (b : list Q) : Prop := forall i j, (i <= j < length b)%nat -> (nth j b 0 <= nth i b 0)%Q.
(** the relations at the left and the right end of bucket [i] = (b[i-1], b[i]); a missing
    end is no condition *)
Definition between (lo hi : Q -> Q -> Prop) (b : list Q) (x : Q) (i : Z) : Prop :=
  0 <= i <= Z.of_nat (length b) /\
  (0 < i -> lo (nth (Z.to_nat (i - 1)) b 0%Q) x) /\ (i < Z.of_nat (length b) -> hi x (nth (Z.to_nat i) b 0%Q)).
Definition Qgt' (a b : Q) : Prop := (b < a)%Q.
Definition Qge' (a b : Q) : Prop := (b <= a)%Q.
(** table of bucketize *)
Definition bucket_table (right : bool) : list Q -> Q -> Z -> Prop :=
  if right then between Qle Qlt else between Qlt Qle.
(** table of digitize *)
Definition digitize_table (right incr : bool) : list Q -> Q -> Z -> Prop :=
  match right, incr with
  | false, true => between Qle Qlt | true, true => between Qlt Qle
  | false, false => between Qgt' Qge' | true, false => between Qge' Qgt'
  end.
