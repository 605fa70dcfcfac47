(** Delayed synchronisation: what a user expects.  Nothing here refers to Heat's code. *)
From Coq Require Import List QArith ZArith Bool.
Import ListNotations.
Open Scope nat_scope.

(** the batches of an epoch (0 .. last) on which parameters are exchanged between the nodes: every one when the skip is 0,
    otherwise the multiples of the skip, and always the last one *)
Definition exchange_batch (skip last b : nat) : bool := (b =? last) || (skip =? 0) || (b mod skip =? 0).
Definition exchange_batches (skip last : nat) : list nat := filter (exchange_batch skip last) (seq 0 (last + 1)).
(** the GPU groups take turns: exchange number i of an epoch is done by group i mod gpus *)
Definition turns (gpus : nat) (bs : list nat) : list (nat * nat) := combine (map (fun i => i mod gpus) (seq 0 (length bs))) bs.
(** mean over the nodes *)
Definition mean (n : nat) (f : nat -> Q) : Q := fold_right Qplus 0%Q (map f (seq 0 n)) / inject_Z (Z.of_nat n).
Definition within (lo hi : Q) (nodes gpus : nat) (p : nat -> nat -> Q) : Prop := forall n g, n < nodes -> g < gpus -> (lo <= p n g <= hi)%Q.
