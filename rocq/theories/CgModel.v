(** Model of heat/core/linalg/solver.py cg (L16-70) on the values of the global arrays: the distributed products and
    element-wise operations are C61, C45 and C99.  Elements are exact rationals.  A division by zero (L50, L60) makes every later
    value infinite or NaN and no later comparison true: the result [None]. *)
From Coq Require Import QArith Qcanon.
From Verif Require Import Base CgSpec.

(** L48-61, [k] iterations left; the flag tells whether L56-59 returned *)
Fixpoint cg_loop (A : list (list Qc)) (tol2 : Qc) (k : nat) (x r p : list Qc) (rsold : Qc) : option (list Qc * bool) :=
  match k with
  | O => Some (x, false)                                               (* L63-66 *)
  | S k' =>
      let Ap := mv A p in
      let d := qdot p Ap in
      if Qc_eq_bool d (Q2Qc 0) then None else
      let alpha := Qcdiv rsold d in
      let x' := vadd x (vscale alpha p) in
      let r' := vsub r (vscale alpha Ap) in
      let rsnew := qdot r' r' in
      if Qclt_le_dec rsnew tol2 then Some (x', true)                   (* L54-59: sqrt(rsnew) < 1e-10 *)
      else if Qc_eq_bool rsold (Q2Qc 0) then None
      else cg_loop A tol2 k' x' r' (vadd r' (vscale (Qcdiv rsnew rsold) p)) rsnew
  end.
(** [tol2] is the square of the tolerance; out is only rebound (L57, L64) *)
Definition cg (A : list (list Qc)) (b x0 : list Qc) (tol2 : Qc) : option (list Qc * bool) :=
  let r := vsub b (mv A x0) in cg_loop A tol2 (length b) x0 r r (qdot r r).
