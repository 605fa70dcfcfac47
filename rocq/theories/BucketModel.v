(** Model of bucketize and digitize, heat/core/statistics.py L414-484 and L562-634, on exact
    values (no NaN).  The boundaries are the list every process holds. *)
From Coq Require Import QArith.
From Verif Require Import Base NdSpec TensorSpec OpsModel ShapeModel LocalModel.
Open Scope Z_scope.

(** torch.bucketize on one value, ATen/native/Bucketization.cpp: cus_lower_bound for
    right=False, cus_upper_bound for right=True; [stop m] is !(m < v) resp. m > v *)
Fixpoint bsearch (fuel : nat) (stop : Q -> bool) (bd : list Q) (start end_ : nat) : nat :=
  match fuel with
  | O => start
  | S fuel => if (start <? end_)%nat then
                let mid := (start + (end_ - start) / 2)%nat in
                if stop (nth mid bd 0%Q) then bsearch fuel stop bd start mid else bsearch fuel stop bd (S mid) end_
              else start
  end.
Definition torch_bucketize (right : bool) (bd : list Q) (v : Q) : Z :=
  Z.of_nat (bsearch (S (length bd)) (fun m => if right then negb (Qle_bool m v) else Qle_bool v m) bd 0 (length bd)).
(** [bdist]: boundaries.is_distributed() *)
Definition bucketize (x : dnd Q) (bdist : bool) (bd : list Q) (right : bool) (out : option (dnd Z)) : res (dnd Z) :=
  if bdist then Err RuntimeError                                        (* L469-470 *)
  else local_op (torch_bucketize right bd) x out.                       (* L475-483 *)
Definition digitize (x : dnd Q) (bdist : bool) (bins : list Q) (right : bool) : res (dnd Z) :=
  if bdist then Err RuntimeError                                        (* L604-605 *)
  else match bins with
  | [] => Err IndexError                                                (* L612: bins[0] *)
  | _ =>
      let reverse := negb (Qle_bool (nth 0 bins 0%Q) (last bins 0%Q)) in      (* L612 *)
      let b := if reverse then rev bins else bins in                    (* L613-614 *)
      do y <- local_op (torch_bucketize (negb right) b) x None;         (* L616-624 *)
      if reverse then local_op (fun k => Z.of_nat (length b) - k) y None      (* L626-627; scalar - array: C45 *)
      else Ok y
  end.
