(** Specification of the counter-based random stream and of permuting rows.
    Nothing here refers to Heat's code. *)
From Verif Require Import Base TensorSpec NdSpec.
Open Scope Z_scope.

(** the value of the low [b] bits of [z] read as a signed two's complement word *)
Definition sword (b z : Z) : Z := (z + 2 ^ (b - 1)) mod 2 ^ b - 2 ^ (b - 1).
Definition is_word (b z : Z) : Prop := - 2 ^ (b - 1) <= z < 2 ^ (b - 1).

(** A counter is a number of 2b bits, split into a high and a low word. *)
Definition hi_word (b n : Z) : Z := sword b (n / 2 ^ b).
Definition lo_word (b n : Z) : Z := sword b n.

(** The random stream started at counter [c]: the block function [F] (a cipher with
    a fixed key) turns counter c+k into the two values at positions 2k and 2k+1. *)
Definition stream (b : Z) (F : Z -> Z -> Z * Z) (c p : Z) : Z :=
  let n := c + p / 2 in
  let y := F (hi_word b n) (lo_word b n) in
  if Z.even p then fst y else snd y.

(** Rank r of an array cut along [split] into pieces of extents [cnts] uses the stream
    up to this position (exclusive). *)
Definition share_end (shape : list Z) (split : option nat) (cnts : list Z) (r : nat) : Z :=
  match split with None => zprod shape | Some s => zprod (upd shape s 1) * zsum (firstn (S r) cnts) end.

(** bijection between pairs of words *)
Definition word_pair (b : Z) (p : Z * Z) : Prop := is_word b (fst p) /\ is_word b (snd p).
Definition bijective_on {X} (D : X -> Prop) (f : X -> X) : Prop :=
  (forall x, D x -> D (f x)) /\
  (forall x y, D x -> D y -> f x = f y -> x = y) /\
  (forall y, D y -> exists x, D x /\ f x = y).

(** [p] lists every position below [n] exactly once *)
Definition is_permutation (n : nat) (p : list nat) : Prop :=
  length p = n /\ NoDup p /\ forall k, In k p -> (k < n)%nat.
