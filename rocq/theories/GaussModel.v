(** Model of det and inv, heat/core/linalg/basics.py L276-352 and L407-515.
    Elements are in a type with exact operations (no rounding); [isclose x] models
    np.isclose(x, 0), that is |x| <= 1e-8.  dtypes are not modelled.  [tdet], [tinv] are
    torch.linalg.det and torch.inverse on one square matrix. *)
From Verif Require Import Base LayoutModel NdSpec TensorSpec OpsModel ShapeModel ReshapeModel.
Open Scope nat_scope.

Section Gauss.
Context {F : Type}.
Variables (f0 f1 : F) (fadd fmul fdiv : F -> F -> F) (fopp : F -> F) (isclose : F -> bool).
Variables (tdet : nat -> (nat -> nat -> F) -> F) (tinv : nat -> (nat -> nat -> F) -> res (nat -> nat -> F)).
Definition fsub (a b : F) : F := fadd a (fopp b).

(** One distributed square matrix: extents of the local pieces along the split axis and, per
    process, the local entries.  [rows]: the rows are distributed (else the columns). *)
Definition lmat := list (nat -> nat -> F).
Section Dist.
Variables (rows : bool) (n : nat) (cnts : list nat).
Definition P := length cnts.
Definition displ (r : nat) : nat := psum cnts r.
(** the process that has global index [i] on the split axis: the last one whose start is at
    most [i], heat/core/dndarray.py L1155 *)
Definition owner (i : nat) : nat := fold_left (fun acc r => if displ r <=? i then r else acc) (seq 0 P) 0.
Definition loc (M : lmat) (r : nat) : nat -> nat -> F := nth r M (fun _ _ => f0).
(** acopy[k, i, j].item(): the owner broadcasts *)
Definition get (M : lmat) (i j : nat) : F :=
  if rows then loc M (owner i) (i - displ (owner i)) j else loc M (owner j) i (j - displ (owner j)).
(** exchange of rows i and j, L325-331 *)
Definition set_row (M : lmat) (i : nat) (v : nat -> F) : lmat :=
  upd M (owner i) (fun a b => if Nat.eqb a (i - displ (owner i)) then v b else loc M (owner i) a b).
Definition swap (M : lmat) (i j : nat) : lmat :=
  if rows then let old_i := get M i in let old_j := get M j in set_row (set_row M i old_j) j old_i
  else map (fun L a b => L (if Nat.eqb a i then j else if Nat.eqb a j then i else a) b) M.
(** the search for a pivot, L320-323: the first row below i with an entry that is not close to 0 *)
Definition pivot (M : lmat) (i : nat) : option nat :=
  find (fun j => negb (isclose (get M j i))) (seq (i + 1) (n - (i + 1))).
(** X[k, lo:hi, :].larray -= z * X[k, i, :].larray with z one factor per local row (rows
    distributed) or per row (columns distributed).  The left-hand side is a view of X. *)
Definition in_slice (lo hi a : nat) : bool := (lo <=? a) && (a <? hi).
Definition sub_rows (lo hi : nat) (z : nat -> nat -> F) (i : nat) (X : lmat) : lmat :=
  map (fun r a b =>
         let g := if rows then displ r + a else a in
         let pivot_row := if rows then get X i b else loc X r i b in
         if in_slice lo hi g then fsub (loc X r a b) (fmul (z r a) pivot_row) else loc X r a b)
      (seq 0 P).
(** acopy[k, lo:, i, None].larray: the local part of column i, or all of it by broadcast *)
Definition column (M : lmat) (i : nat) (r a : nat) : F := if rows then loc M r a i else get M a i.

(** det, L314-345; [m] counts the exchanges *)
Fixpoint det_steps (is : list nat) (M : lmat) (d : F) (m : nat) : F * nat :=
  match is with
  | [] => (d, m)
  | i :: is =>
      let step M m :=
        let p := get M i i in
        det_steps is (sub_rows (i + 1) n (fun r a => fdiv (column M i r a) p) i M) (fmul d p) m in   (* L336-340 *)
      if isclose (get M i i) then
        match pivot M i with
        | Some j => step (swap M i j) (S m)
        | None => (f0, m)                                                                            (* L332-334 *)
        end
      else step M m
  end.
Definition det_one (M : lmat) : F :=
  let '(d, m) := det_steps (seq 0 n) M f1 0 in if Nat.even m then d else fopp d.                     (* L342-343 *)

(** inv, L457-510: acopy and ainv, and the process that scales (rows distributed) *)
Definition scale_row (X : lmat) (i rank : nat) (s : F) : res lmat :=
  if rows then
    let li := i - displ rank in
    if li <? nth rank cnts 0 then
      Ok (upd X rank (fun a b => if Nat.eqb a li then fdiv (loc X rank a b) s else loc X rank a b))   (* L489-494 *)
    else Err IndexError
  else Ok (map (fun L a b => if Nat.eqb a i then fdiv (L a b) s else L a b) X).                      (* L495-497 *)
Fixpoint inv_steps (is : list nat) (rank : nat) (A X : lmat) : res (lmat * lmat) :=
  match is with
  | [] => Ok (A, X)
  | i :: is =>
      let step A X :=
        let s := get A i i in                                                                        (* L485 *)
        let rank := if (rank <? P - 1) && (displ (rank + 1) <=? i) then rank + 1 else rank in        (* L489-490 *)
        do X <- scale_row X i rank s;
        do A <- scale_row A i rank s;
        let factor := column A i in                                                                  (* L499 *)
        inv_steps is rank (sub_rows (i + 1) n factor i A) (sub_rows (i + 1) n factor i X) in         (* L500-501 *)
      if isclose (get A i i) then
        match pivot A i with
        | Some j => step (swap A i j) (swap X i j)
        | None => Err RuntimeError                                                                   (* L482-483 *)
        end
      else step A X
  end.
(** L504-507; [is] is n-1, ..., 1 *)
Fixpoint inv_back (is : list nat) (A X : lmat) : lmat :=
  match is with
  | [] => X
  | i :: is => let factor := column A i in inv_back is (sub_rows 0 i factor i A) (sub_rows 0 i factor i X)
  end.
(** zeros_like(acopy), then ainv[:, i, i] = 1 for all i, L451-453 *)
Definition identity : lmat :=
  map (fun r a b => let '(i, j) := if rows then (displ r + a, b) else (a, displ r + b) in if Nat.eqb i j then f1 else f0) (seq 0 P).
Definition inv_one (M : lmat) : res lmat :=
  do AX <- inv_steps (seq 0 n) 0 M identity; Ok (inv_back (rev (seq 1 (n - 1))) (fst AX) (snd AX)).
End Dist.

(** the k-th matrix of a stack *)
Definition slice_of (t : arr F) (k : nat) (a b : nat) : F := adat t [Z.of_nat k; Z.of_nat a; Z.of_nat b].
Definition stack_counts (ax : nat) (x : dnd F) : list nat := map (fun t => Z.to_nat (nth ax (ash t) 0%Z)) (d_locals x).
Definition distributed (x : dnd F) : bool := match d_split x with None => false | Some _ => 1 <? length (d_locals x) end.
Definition lead (sh : list Z) : list Z := firstn (length sh - 2) sh.
Definition mat_at (t : arr F) (idx : list Z) (i j : nat) : F := adat t (idx ++ [Z.of_nat i; Z.of_nat j]).

(** L299-309 *)
Definition checked {B} (x : dnd F) (k : nat -> res B) : res B :=
  let nd := length (d_gshape x) in
  if nd <? 2 then Err RuntimeError else
  let m := nth (nd - 2) (d_gshape x) 0%Z in
  if negb (m =? nth (nd - 1) (d_gshape x) 0)%Z then Err RuntimeError else k (Z.to_nat m).
Definition det (x : dnd F) : res (dnd F) :=
  checked x (fun n =>
  let nd := length (d_gshape x) in
  match distributed x, d_split x with
  | true, Some s =>
      if s <? nd - 2 then                                                                            (* L312-323 *)
        Ok (mk_dnd (map (fun t => mk_arr (lead (ash t)) (fun i => tdet n (mat_at t i))) (d_locals x)) (lead (d_gshape x)) (Some s))
      else
        do yx <- reshape f0 x [-1; Z.of_nat n; Z.of_nat n]%Z (AxInt (Z.of_nat (s - (nd - 2) + 1)));  (* L326, on a copy *)
        let y := fst yx in
        let rows := Nat.eqb s (nd - 2) in
        let cn := stack_counts (s - (nd - 2) + 1) y in
        let K := Z.to_nat (nth 0 (d_gshape y) 0%Z) in
        let ds := map (fun k => det_one rows n cn (map (fun t => slice_of t k) (d_locals y))) (seq 0 K) in
        let adet := mk_dnd (map (fun _ => mk_arr [Z.of_nat K] (fun i => nth (Z.to_nat (nth 0 i 0%Z)) ds f1)) (d_locals y)) [Z.of_nat K] None in
        do zx <- reshape f0 adet (lead (d_gshape x)) AxNone;                                         (* L350 *)
        Ok (fst zx)
  | _, _ =>
      Ok (mk_dnd (map (fun t => mk_arr (lead (ash t)) (fun i => tdet n (mat_at t i))) (d_locals x)) (lead (d_gshape x)) None)
  end).

(** all matrices of one local stack inverted by torch; an exception counts for the whole call *)
Definition torch_inverse (n : nat) (t : arr F) : res (arr F) :=
  do xs <- all_ok (map (fun i => tinv n (mat_at t i)) (row_major (lead (ash t))));
  Ok (mk_arr (ash t) (fun idx => nth (Z.to_nat (ravel (lead (ash t)) (lead idx))) xs (fun _ _ => f0)
                                   (Z.to_nat (nth (length idx - 2) idx 0%Z)) (Z.to_nat (nth (length idx - 1) idx 0%Z)))).
Definition inv (x : dnd F) : res (dnd F) :=
  checked x (fun n =>
  let nd := length (d_gshape x) in
  match distributed x, d_split x with
  | true, Some s =>
      if s <? nd - 2 then
        do ls <- all_ok (map (torch_inverse n) (d_locals x)); Ok (mk_dnd ls (d_gshape x) (Some s))
      else
        do yx <- reshape f0 x [-1; Z.of_nat n; Z.of_nat n]%Z (AxInt (Z.of_nat (s - (nd - 2) + 1)));
        let y := fst yx in
        let rows := Nat.eqb s (nd - 2) in
        let cn := stack_counts (s - (nd - 2) + 1) y in
        let K := Z.to_nat (nth 0 (d_gshape y) 0%Z) in
        do xs <- all_ok (map (fun k => inv_one rows n cn (map (fun t => slice_of t k) (d_locals y))) (seq 0 K));
        let ainv := mk_dnd (map (fun p : nat * arr F => mk_arr (ash (snd p)) (fun i =>
                       loc (nth (Z.to_nat (nth 0 i 0%Z)) xs []) (fst p) (Z.to_nat (nth 1 i 0%Z)) (Z.to_nat (nth 2 i 0%Z))))
                     (combine (seq 0 (length (d_locals y))) (d_locals y))) (d_gshape y) (d_split y) in
        do zx <- reshape f0 ainv (d_gshape x) (AxInt (Z.of_nat s));                                  (* L512 *)
        Ok (fst zx)
  | _, sp =>
      do ls <- all_ok (map (torch_inverse n) (d_locals x)); Ok (mk_dnd ls (d_gshape x) sp)
  end).
End Gauss.
