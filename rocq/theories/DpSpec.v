(** Data-parallel training: what a user expects.  Nothing here refers to Heat's code. *)
From Coq Require Import List QArith ZArith.
Import ListNotations.
Open Scope nat_scope.

Section S.
Variable PS : Type.                          (* a parameter together with the optimizer's state for it *)
(** one mini-batch: the layers run by the forward pass, in order; the parameters that get a gradient, in order; and the
    gradient of parameter i on the data of process r, for the parameter values the forward pass used *)
Record batch := mk_batch { run_layers : list nat; used : list nat; gradient : nat -> nat -> (nat -> PS) -> Q }.
Variable opt : PS -> Q -> PS.                (* one step of the optimizer on one parameter *)
Definition mean_grad (P : nat) (b : batch) (ps : nat -> PS) (i : nat) : Q :=
  fold_right Qplus 0%Q (map (fun r => gradient b r i ps) (seq 0 P)) / inject_Z (Z.of_nat P).
(** sequential training: one process, the mean of the gradients *)
Definition one_batch (P : nat) (ps : nat -> PS) (b : batch) : nat -> PS := fun i => opt (ps i) (mean_grad P b ps i).
Definition sequential (P : nat) (ps : nat -> PS) (bs : list batch) : nat -> PS := fold_left (one_batch P) bs ps.
End S.
Arguments mk_batch {PS}. Arguments run_layers {PS}. Arguments used {PS}. Arguments gradient {PS}.
Arguments mean_grad {PS}. Arguments one_batch {PS}. Arguments sequential {PS}.
