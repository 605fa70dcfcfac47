(** Moments and bincount: heat/core/statistics.py, in exact rational arithmetic. *)
From Coq Require Import QArith List ZArith Bool.
From Verif Require Import Base.
Import ListNotations.
Open Scope Q_scope.

(** A number or NaN.  Simplification: exact rationals instead of floats; a division by
    zero (inf or NaN) is NaN. *)
Definition num := option Q.
Definition lift2 (f : Q -> Q -> Q) (a b : num) : num := match a, b with Some x, Some y => Some (f x y) | _, _ => None end.
Definition nadd := lift2 Qplus. Definition nsub := lift2 Qminus. Definition nmul := lift2 Qmult.
Definition ndiv (a b : num) : num := match a, b with Some x, Some y => if Qeq_bool y 0 then None else Some (x / y) | _, _ => None end.
Definition of_nat (n : nat) : Q := inject_Z (Z.of_nat n).
Definition nnat (n : nat) : num := Some (of_nat n).

(** torch.mean and torch.var (correction c) of a local piece: NaN when empty / when n - c = 0 *)
Definition nsum (l : list num) : num := fold_right nadd (Some 0) l.
Definition torch_mean (l : list num) : num := ndiv (nsum l) (nnat (length l)).
Definition torch_var (c : bool) (l : list num) : num :=
  let m := torch_mean l in
  ndiv (nsum (map (fun x => nmul (nsub x m) (nsub x m)) l)) (nsub (nnat (length l)) (Some (if c then 1 else 0))).

(** L1094-1137 __merge_moments: pairs (mean, n), triples (var, mean, n) *)
Definition merge_mean (m1 m2 : num * num) : num * num :=
  let '(mu1, n1) := m1 in let '(mu2, n2) := m2 in
  let n := nadd n1 n2 in                                                  (* L1124 *)
  let delta := nsub mu2 mu1 in
  (nadd mu1 (nmul n2 (ndiv delta n)), n).                                 (* L1126-1128 *)
Definition merge_var (c : bool) (m1 m2 : num * num * num) : num * num * num :=
  let '(var1, mu1, n1) := m1 in let '(var2, mu2, n2) := m2 in
  let n := nadd n1 n2 in
  let delta := nsub mu2 mu1 in
  let mu := nadd mu1 (nmul n2 (ndiv delta n)) in
  let one := Some 1 in
  let cross := ndiv (nmul (nmul (nmul delta delta) n1) n2) n in
  let var_m := if c
    then ndiv (nadd (nadd (nmul var1 (nsub n1 one)) (nmul var2 (nsub n2 one))) cross) (nsub n one)   (* L1132 *)
    else ndiv (nadd (nadd (nmul var1 n1) (nmul var2 n2)) cross) n in                                 (* L1134 *)
  (var_m, mu, n).

(** torch.isnan(x) -> 0.0 (L1026-1027, L2228-2231) *)
Definition nan_to_zero (x : num) : num := match x with None => Some 0 | _ => x end.

(** every rank learns the triples of all ranks (Allreduce of zero-padded rows), then folds
    them into row 0: for i in range(1, size) *)
Definition fold_rows {S} (merge : S -> S -> S) (rows : list S) (d : S) : S :=
  fold_left merge (tl rows) (hd d rows).

(** mean, axis=None, distributed: L1025-1038 *)
Definition mean_flat (data : list (list num)) : num :=
  fst (fold_rows merge_mean (map (fun l => (nan_to_zero (torch_mean l), nnat (length l))) data) (None, None)).
(** mean along the split axis, one lane: L981-999 *)
Definition mean_axis (data : list (list num)) : num :=
  fst (fold_rows merge_mean (map (fun l => (if Nat.eqb (length l) 0 then Some 0 else torch_mean l, nnat (length l))) data) (None, None)).
(** var, axis=None, distributed: L2225-2245 *)
Definition var_flat (c : bool) (data : list (list num)) : num :=
  fst (fst (fold_rows (merge_var c)
    (map (fun l => (nan_to_zero (torch_var c l), nan_to_zero (torch_mean l), nnat (length l))) data) (None, None, None))).
(** var along the split axis, one lane: L2193-2214 *)
Definition var_axis (c : bool) (data : list (list num)) : num :=
  fst (fst (fold_rows (merge_var c)
    (map (fun l => (if Nat.eqb (length l) 0 then Some 0 else torch_var c l,
                    if Nat.eqb (length l) 0 then Some 0 else torch_mean l, nnat (length l))) data) (None, None, None))).

(** L1277-1386 __moment_w_axis: the split axis reported when the reduced axes do not contain
    the split axis: a single int (L1336), a tuple (L1382) *)
Definition moment_split_int (split axis : nat) : nat := if Nat.ltb split axis then split else (split - 1)%nat.
Definition moment_split_tuple (ndim split : nat) (axes : list nat) : nat :=
  let out := (ndim - length axes)%nat in if Nat.ltb split out then split else (out - 1)%nat.

(** * bincount, L343-411 *)
(** torch.bincount on one rank: [vw] are the values with their weights (1 without weights) *)
Definition local_bincount (vw : list (nat * Z)) (minlength : nat) : list Z :=
  let size := Nat.max (fold_right Nat.max 0%nat (map (fun p => S (fst p)) vw)) minlength in
  map (fun b => fold_right Z.add 0%Z (map snd (filter (fun p => Nat.eqb (fst p) b) vw))) (seq 0 size).
Definition zip_add (a b : list Z) : list Z := map (fun p => (fst p + snd p)%Z) (combine a b).
(** split = 0: pad to the maximal length (L386-394), Allreduce SUM; split = None: local result *)
Definition bincount (split0 : bool) (data : list (list (nat * Z))) (minlength : nat) : list (list Z) :=
  let counts := map (fun vw => local_bincount vw minlength) data in
  let maxlength := fold_right Nat.max 0%nat (map (@length Z) counts) in
  let padded := map (fun c => c ++ repeat 0%Z (maxlength - length c)) counts in
  if split0 then map (fun _ => fold_right zip_add (repeat 0%Z maxlength) padded) data else padded.
(** element type of the buffer each rank hands to Allreduce: torch.bincount returns int64
    without weights, float32 for float32 weights, float64 for all other weights *)
Inductive wkind := NoWeights | W32 | WOther.
Inductive bdtype := BInt64 | BFloat32 | BFloat64.
Definition bincount_dtype (w : wkind) (vw : list (nat * Z)) (minlength : nat) : bdtype :=
  if Nat.eqb (length (local_bincount vw minlength)) 0
  then match w with NoWeights => BInt64 | _ => BFloat64 end                       (* L386-389 *)
  else match w with NoWeights => BInt64 | W32 => BFloat32 | WOther => BFloat64 end.
