(** Histograms with n equal bins between lo and hi; nothing here refers to Heat's code. *)
From Coq Require Import QArith.
From Verif Require Import Base.
Open Scope Z_scope.

Definition edge (lo hi : Q) (n k : Z) : Q := (lo + inject_Z k * ((hi - lo) / inject_Z n))%Q.
(** bin k is [edge k, edge (k+1)); the last one contains its right end hi as well *)
Definition in_bin (lo hi : Q) (n k : Z) (x : Q) : bool :=
  Qle_bool (edge lo hi n k) x &&
  (if k =? n - 1 then Qle_bool x hi else negb (Qle_bool (edge lo hi n (k + 1)) x)).
Definition count {A} (p : A -> bool) (l : list A) : Z := Z.of_nat (length (filter p l)).
Definition is_min (m : Q) (l : list Q) : Prop := In m l /\ forall x, In x l -> (m <= x)%Q.
Definition is_max (m : Q) (l : list Q) : Prop := In m l /\ forall x, In x l -> (x <= m)%Q.
(** the range of the histogram: the given one, or the extrema of the data if both ends are
    equal (widened by 1 on either side if all data are equal).  [cast] is the conversion to
    the element type, which represents the data themselves exactly. *)
Definition hist_range (cast : Q -> Q) (data : list Q) (mn mx lo hi : Q) : Prop :=
  (~ mn == mx /\ lo == cast mn /\ hi == cast mx /\ cast mn < cast mx)%Q \/
  ((mn == mx)%Q /\ (forall x, In x data -> cast x == x)%Q /\
   exists a b, is_min a data /\ is_max b data /\
     ((a < b /\ lo == a /\ hi == b) \/ (a == b /\ lo == a - 1 /\ hi == b + 1))%Q).
