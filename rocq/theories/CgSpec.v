(** Vectors and matrices of rationals. *)
From Coq Require Import QArith Qcanon.
From Verif Require Import Base.
(** x_0 y_0 + x_1 y_1 + ... *)
Fixpoint qdot (x y : list Qc) : Qc := match x, y with a :: x', b :: y' => Qcplus (Qcmult a b) (qdot x' y') | _, _ => Q2Qc 0 end.
(** A x, for a matrix given by its rows *)
Definition mv (A : list (list Qc)) (x : list Qc) : list Qc := map (fun row => qdot row x) A.
Fixpoint vsub (x y : list Qc) : list Qc := match x, y with a :: x', b :: y' => Qcminus a b :: vsub x' y' | _, _ => [] end.
Fixpoint vadd (x y : list Qc) : list Qc := match x, y with a :: x', b :: y' => Qcplus a b :: vadd x' y' | _, _ => [] end.
Definition vscale (a : Qc) (x : list Qc) : list Qc := map (Qcmult a) x.
