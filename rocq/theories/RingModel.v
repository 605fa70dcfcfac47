(** A ring of processes: in every round each process sends to its right neighbour, then
    receives from its left neighbour (blocking Send, then Recv), heat/core/linalg/basics.py
    L1449-1479.  Programs and executions are those of SchedModel.v. *)
From Verif Require Import Base SchedModel.
Set Implicit Arguments.

Section Ring.
Variables (S M : Type) (P : nat).
(** L1451, L1453 *)
Definition right (r : nat) : nat := if Nat.eqb r (P - 1) then 0 else r + 1.
Definition left (r : nat) : nat := if Nat.eqb r 0 then P - 1 else r - 1.
(** what process [r] sends in round [p], and its state after receiving *)
Variables (out : nat -> nat -> S -> M) (inc : nat -> nat -> S -> M -> S).
Definition ring_prog (n r : nat) : list (act S M) :=
  flat_map (fun p => [ASend (right r) 0 (fun s => (out r p s, s)); ARecv (left r) 0 (inc r p)]) (seq 0 n).
Definition ring_start (n : nat) (s0 : list S) : config S M :=
  Config (map (ring_prog n) (seq 0 P)) s0 [].
(** Specification: the rounds one after the other, all processes at the same time *)
Definition ring_round (d : S) (p : nat) (s : list S) : list S :=
  map (fun r => inc r p (nth r s d) (out (left r) p (nth (left r) s d))) (seq 0 P).
Fixpoint ring_rounds (d : S) (n : nat) (s0 : list S) : list S :=
  match n with O => s0 | Datatypes.S p => ring_round d p (ring_rounds d p s0) end.
End Ring.
