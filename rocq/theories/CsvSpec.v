(** Specification vocabulary for C46: what a CSV file is.  Nothing here refers to the code. *)
From Coq Require Import List Arith ZArith.
Import ListNotations.

(** fields joined by the separator; lines joined by the line terminator *)
Fixpoint join {A} (glue : list A) (parts : list (list A)) : list A :=
  match parts with
  | [] => []
  | p :: ps => match ps with [] => p | _ => p ++ glue ++ join glue ps end
  end.
(** the bytes of a file with these lines, the last one terminated or not *)
Definition file_of {A} (eol : list A) (terminated : bool) (lines : list (list A)) : list A :=
  join eol (lines ++ if terminated then [[]] else []).
(** where the lines begin in that file *)
Fixpoint begins (k pos : nat) (lens : list nat) : list nat :=
  match lens with [] => [] | n :: t => pos :: begins k (pos + n + k) t end.
(** the two-dimensional table with these rows *)
Definition table {V} (dv : V) (rows : list (list V)) : list Z -> V :=
  fun idx => nth (Z.to_nat (nth 1 idx 0%Z)) (nth (Z.to_nat (nth 0 idx 0%Z)) rows []) dv.
(** text that stays on one line: no \n and no \r *)
Definition one_line (l : list nat) : Prop := ~ In 10 l /\ ~ In 13 l.
(** [tbl]: rows of fields (as text), [vals]: the numbers they denote, [c] columns.  [denotes]
    says which text is which number. *)
Definition is_table {V} (denotes : list nat -> V -> Prop) (sep c : nat) (tbl : list (list (list nat))) (vals : list (list V)) : Prop :=
  Forall2 (fun fields v => length fields = c /\ Forall2 denotes fields v /\ forall f, In f fields -> ~ In sep f /\ one_line f) tbl vals.
(** rows that are not blank lines *)
Definition rows_of {A} (tbl : list (list A)) : list (list A) := filter (fun r => match r with [] => false | _ => true end) tbl.
(** first byte of process [r]'s share when [n] bytes are dealt out evenly, the first n mod P
    processes getting one more *)
Definition share_start (n r P : nat) : nat := r * (n / P) + Nat.min r (n mod P).
