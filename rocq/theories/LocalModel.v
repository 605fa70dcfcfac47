(** Model of the element-wise functions: __local_op, heat/core/_operations.py L338-412 (behind
    exp, sqrt, sin, abs, ceil, isnan, bucketize, ...).  [f] is the torch operation composed
    with the cast of L375-381, applied to one element; dtypes are not modelled here (C32). *)
From Verif Require Import Base NdSpec TensorSpec OpsModel ShapeModel BinSpec BinModel.
Open Scope Z_scope.

Definition map_arr {A B} (f : A -> B) (t : arr A) : arr B := mk_arr (ash t) (fun i => f (adat t i)).
(** stride_tricks.broadcast_shape on two local shapes of any lengths (C04), L400 *)
Definition bshape_any (s1 s2 : list Z) : res (list Z) :=
  let n := Nat.max (length s1) (length s2) in bshape (padded n s1) (padded n s2).
(** L402: int(a / b) if b > 0 else 0 *)
Definition multiple (a b : Z) : Z := if 0 <? b then a / b else 0.
Fixpoint zip_with {A B C} (f : A -> B -> C) (l : list A) (l' : list B) : list C :=
  match l, l' with x :: l, y :: l' => f x y :: zip_with f l l' | _, _ => [] end.
(** torch.Tensor.repeat(multiples), as many multiples as dimensions or more *)
Definition torch_repeat {A} (m : list Z) (t : arr A) : arr A :=
  let psh := padded (length m) (ash t) in
  mk_arr (zip_with Z.mul m psh)
         (fun i => adat t (skipn (length m - length (ash t)) (zip_with Z.modulo i psh))).
(** L398-410 on one process: operation(casted.repeat(multiples), out=out.larray).  torch's
    out= gives the target the shape of the result, whatever it was before. *)
Definition write_out {A B} (f : A -> B) (t : arr A) (osh : list Z) : res (arr B) :=
  do b <- bshape_any (ash t) osh;                                            (* L400 *)
  let m := zip_with multiple b (padded (length b) (ash t)) in                (* L401-402 *)
  let t := if existsb (fun k => 1 <? k) m then torch_repeat m t else t in    (* L403, L407 *)
  Ok (map_arr f t).
(** an exception on one process counts as failure of the call *)
Definition local_op {A B} (f : A -> B) (x : dnd A) (out : option (dnd B)) : res (dnd B) :=
  match out with
  | None => Ok (mk_dnd (map (map_arr f) (d_locals x)) (d_gshape x) (d_split x))      (* L384-394 *)
  | Some o => do ls <- all_ok (zip_with (fun t u => write_out f t (ash u)) (d_locals x) (d_locals o));
              Ok (mk_dnd ls (d_gshape o) (d_split o))                                (* L410-412 *)
  end.
