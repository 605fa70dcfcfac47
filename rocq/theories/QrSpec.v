(** Specification for C93 and C94: matrices over any ring with an involution, products, Q^H Q = 1, triangular R. *)
From Verif Require Import Base.
Record mat (V : Type) := Mat { mr : nat; mc : nat; me : nat -> nat -> V }.
Arguments Mat {V}. Arguments mr {V}. Arguments mc {V}. Arguments me {V}.
Section Spec.
Context {V : Type} (zero one : V) (add mul : V -> V -> V) (conj : V -> V).
(** f 0 + ... + f (n-1) *)
Definition msum (n : nat) (f : nat -> V) : V := fold_right add zero (map f (seq 0 n)).
Definition mmul (a b : mat V) : mat V := Mat (mr a) (mc b) (fun i j => msum (mc a) (fun k => mul (me a i k) (me b k j))).
(** the blocks on top of each other, all n columns wide *)
Fixpoint vstack (n : nat) (l : list (mat V)) : mat V :=
  match l with
  | [] => Mat 0 n (fun _ _ => zero)
  | a :: l => let b := vstack n l in Mat (mr a + mr b) n (fun i j => if i <? mr a then me a i j else me b (i - mr a) j)
  end.
Definition meq (a b : mat V) : Prop := mr a = mr b /\ mc a = mc b /\ forall i j, i < mr a -> j < mc a -> me a i j = me b i j.
(** the columns are orthonormal *)
Definition orthonormal (q : mat V) : Prop := forall a b, a < mc q -> b < mc q -> msum (mr q) (fun i => mul (conj (me q i a)) (me q i b)) = if a =? b then one else zero.
Definition upper (r : mat V) : Prop := forall i j, i < mr r -> j < mc r -> j < i -> me r i j = zero.
(** (q, r) is a reduced QR factorization of a *)
Definition is_qr (a q r : mat V) : Prop :=
  mr q = mr a /\ mc q = Nat.min (mr a) (mc a) /\ mr r = Nat.min (mr a) (mc a) /\ mc r = mc a /\ orthonormal q /\ upper r /\ meq (mmul q r) a.
End Spec.
(** C94: blocks of columns side by side *)
Section SpecCols.
Context {V : Type} (zero : V).
Fixpoint hstack (m : nat) (l : list (mat V)) : mat V :=
  match l with
  | [] => Mat m 0 (fun _ _ => zero)
  | a :: l => let b := hstack m l in Mat m (mc a + mc b) (fun i j => if j <? mc a then me a i j else me b i (j - mc a))
  end.
End SpecCols.
