(** Specification vocabulary for C47: numbers as decimal text and what a set of file writes
    leaves in a file.  Nothing here refers to the code. *)
From Coq Require Import List Arith ZArith NArith QArith Permutation.
From Verif Require Import CsvSpec.
Import ListNotations.
Open Scope nat_scope.

(** decimal digits (ASCII) of a natural number, most significant first, at least one *)
Fixpoint digits_fuel (fuel : nat) (n : N) : list nat :=
  match fuel with
  | O => []
  | S k => if (n <? 10)%N then [48 + N.to_nat n]
           else digits_fuel k (n / 10) ++ [48 + N.to_nat (n mod 10)]
  end.
Definition digits (n : N) : list nat := digits_fuel (S (N.size_nat n)) n.
(** exactly [k] digits, with leading zeros *)
Fixpoint digits_fixed (k : nat) (n : N) : list nat :=
  match k with O => [] | S j => digits_fixed j (n / 10) ++ [48 + N.to_nat (n mod 10)] end.

Definition minus : nat := 45.
Definition point : nat := 46.
Definition blank : nat := 32.
(** an integer *)
Definition int_text (z : Z) : list nat := (if (z <? 0)%Z then [minus] else []) ++ digits (Z.abs_N z).
(** a finite floating point number: sign bit (so that -0.0 exists) and magnitude *)
Record fnum := { neg : bool; mag : Q }.
(** its value *)
Definition fval (v : fnum) : Q := if neg v then Qopp (mag v) else mag v.
(** nearest integer, ties to even *)
Definition round_even (q : Q) : N :=
  let n := Z.to_N (Qnum q) in let d := Npos (Qden q) in
  let r := (2 * (n mod d))%N in
  if (d <? r)%N || ((r =? d)%N && N.odd (n / d)) then (n / d + 1)%N else (n / d)%N.
(** [decimals] places after the point *)
Definition scaled (decimals : nat) (v : fnum) : N := round_even (mag v * inject_Z (10 ^ Z.of_nat decimals)).
Definition fixed_text (decimals : nat) (v : fnum) : list nat :=
  (if neg v then [minus] else []) ++
  digits (scaled decimals v / 10 ^ N.of_nat decimals) ++
  (match decimals with O => [] | _ => point :: digits_fixed decimals (scaled decimals v mod 10 ^ N.of_nat decimals) end).
(** right justified in a column of [w] characters *)
Definition justify (w : nat) (t : list nat) : list nat := repeat blank (w - length t) ++ t.

(** a write of [snd w] at byte [fst w]; a gap behind the end of the file is filled with zeros *)
Definition write (f : list nat) (w : nat * list nat) : list nat :=
  let padded := f ++ repeat 0 (fst w - length f) in
  match snd w with
  | [] => f
  | _ => firstn (fst w) padded ++ snd w ++ skipn (fst w + length (snd w)) f
  end.
(** [f] is a possible content after the processes have done their writes, in whatever order *)
Definition outcome (old : list nat) (writes : list (list (nat * list nat))) (f : list nat) : Prop :=
  exists order, Permutation (concat writes) order /\ f = fold_left write order old.
(** a header line with its line break *)
Definition with_newline (l : list nat) : list nat := match rev l with 10 :: _ => l | _ => l ++ [10] end.
(** [lg] is int(log10(x)), allowing for a floating point log10 that rounds up to the next power *)
Definition log10_ok (lg : Q -> Z) : Prop :=
  (forall p q, (p == q)%Q -> lg p = lg q) /\
  forall q, ((11 # 100) <= q)%Q -> (0 <= lg q)%Z /\ (q < inject_Z (10 ^ (lg q + 1)))%Q.
(** the rows of a 1-D or 2-D array *)
Definition array_rows {V} (gsh : list Z) (G : list Z -> V) : list (list V) :=
  match gsh with
  | [n] => map (fun i => [G [Z.of_nat i]]) (seq 0 (Z.to_nat n))
  | [n; c] => map (fun i => map (fun j => G [Z.of_nat i; Z.of_nat j]) (seq 0 (Z.to_nat c))) (seq 0 (Z.to_nat n))
  | _ => []
  end.
(** the file: header lines, then the rows, every number right justified in [w] columns *)
Definition csv_text {V} (enc : list nat -> list nat) (head : list (list nat)) (sep w : nat) (text : V -> list nat) (rows : list (list V)) : list nat :=
  concat (map (fun l => enc (with_newline l)) head) ++
  file_of [10] true (map (fun r => join [sep] (map (fun v => justify w (text v)) r)) rows).
