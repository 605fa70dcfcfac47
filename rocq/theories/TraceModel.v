(** Model of heat/core/linalg/basics.py trace (L1524-1835) without out= and dtype=, elements are
    integers. *)
From Verif Require Import Base LayoutModel NdSpec TensorSpec VmapSpec OpsModel ShapeModel BinModel FactoryModel.
Open Scope Z_scope.

(** L1684-1707: the slice of the local matrix, torch.trace of it *)
Definition loc_trace (t : arr Z) (o : Z) : Z :=
  let l0 := nth 0 (ash t) 0 in let l1 := nth 1 (ash t) 0 in
  if 0 <? o then let o' := Z.min o l1 in zsum (map (fun i => adat t [i; i + o']) (zr (Z.min l0 (l1 - o'))))
  else if o <? 0 then let o' := Z.min (- o) l0 in zsum (map (fun i => adat t [i + o'; i]) (zr (Z.min (l0 - o') l1)))
  else zsum (map (fun i => adat t [i; i]) (zr (Z.min l0 l1))).
(** DNDarray.is_distributed *)
Definition is_dist {A} (x : dnd A) : bool := match d_split x with Some _ => (1 <? length (d_locals x))%nat | None => false end.
(** L1676-1682, L1755-1763: [b1]: the axis along which rows are counted *)
Definition moved_offset {A} (x : dnd A) (b1 r : nat) (k : Z) : Z :=
  if is_dist x then match d_split x with
                    | Some s => if (s =? b1)%nat then k + chunk_off (d_gshape x) (d_split x) r (length (d_locals x)) else k - chunk_off (d_gshape x) (d_split x) r (length (d_locals x))
                    | None => k end
  else k.
(** the 2-dimensional case, L1665-1714: the scalar every process returns *)
Definition trace2 (x : dnd Z) (k : Z) : list Z :=
  let P := length (d_locals x) in
  let parts := map (fun p => if (k <=? - nth 0 (d_gshape x) 0) || (nth 1 (d_gshape x) 0 <=? k) then 0 else loc_trace (snd p) (moved_offset x 0 (fst p) k)) (combine (seq 0 P) (d_locals x)) in
  if is_dist x then repeat (zsum parts) P else parts.

(** torch.diagonal(t, k, b1, b2): positions (row, column) of the diagonal *)
Definition diag_pos (n m k : Z) : list (Z * Z) :=
  map (fun i => (i + Z.max 0 (- k), i + Z.max 0 k)) (zr (Z.min (n - Z.max 0 (- k)) (m - Z.max 0 k))).
(** torch.sum(torch.diagonal(t, k, b1, b2), -1), b1 < b2 *)
Definition diag_sums (t : arr Z) (k : Z) (b1 b2 : nat) : arr Z :=
  mk_arr (del b1 (del b2 (ash t))) (fun idx => zsum (map (fun p => adat t (ins b2 (snd p) (ins b1 (fst p) idx))) (diag_pos (nth b1 (ash t) 0) (nth b2 (ash t) 0) k))).
(** L1765-1776: the local diagonal, reshaped to the shape without its last axis *)
Definition one_diag (t : arr Z) (k : Z) (b1 b2 : nat) : res (arr Z) :=
  let rest := del b1 (del b2 (ash t)) in
  let ps := diag_pos (nth b1 (ash t) 0) (nth b2 (ash t) 0) k in
  if (length ps =? 0)%nat || existsb (Z.eqb 0) rest then Ok (mk_arr (map (fun n => if n =? 0 then 1 else n) rest) (fun _ => 0))
  else match ps with
       | [p] => Ok (mk_arr rest (fun idx => adat t (ins b2 (snd p) (ins b1 (fst p) idx))))
       | _ => Err RuntimeError end.
(** Allreduce(SUM) of tensors of one shape *)
Definition sum_all (ts : list (arr Z)) : arr Z := mk_arr (ash (nth 0 ts (mk_arr [] (fun _ => 0)))) (fun idx => zsum (map (fun t => adat t idx) ts)).

Inductive trace_result := Scalar (vs : list Z) | Array (y : dnd Z).
Definition trace (x : dnd Z) (k a1 a2 : Z) : res trace_result :=
  let n := length (d_gshape x) in let P := length (d_locals x) in
  if (n <? 2)%nat then Err ValueError                                                          (* L1615-1616 *)
  else
  let c1 := if a1 <? 0 then a1 mod Z.of_nat n else a1 in                                       (* L1625-1628 *)
  let c2 := if a2 <? 0 then a2 mod Z.of_nat n else a2 in
  if (c1 =? c2) || (Z.of_nat n <=? c1) || (Z.of_nat n <=? c2) then Err ValueError              (* L1630-1635 *)
  else if (n =? 2)%nat then Ok (Scalar (trace2 x k))
  else
  let b1 := Z.to_nat (Z.min c1 c2) in let b2 := Z.to_nat (Z.max c1 c2) in                      (* L1721-1722 *)
  if is_dist x && match d_split x with Some s => (s =? b1)%nat || (s =? b2)%nat | None => false end
  then match d_split x with
       | Some s =>
         do ts <- all_ok (map (fun p => one_diag (snd p) (moved_offset x b1 (fst p) k) b1 b2) (combine (seq 0 P) (d_locals x)));
         do y <- array_split P (sum_all ts) (AxInt (Z.of_nat (Nat.min s (n - 3))));            (* L1788-1806 *)
         Ok (Array y)
       | None => Err RuntimeError end
  else
  let ys := map (fun t => diag_sums t k b1 b2) (d_locals x) in                                 (* L1730-1734 *)
  match d_split x with
  | Some s =>
      if is_dist x
      then let g := if (s <? b2)%nat then s else (s - 2)%nat in                                (* L1812-1821 *)
           do y <- array_is_split ys (Nat.min g (n - 3)); Ok (Array (fst y))
      else Ok (Array (mk_dnd ys (ash (nth 0 ys (mk_arr [] (fun _ => 0)))) (Some (Nat.min s (n - 3)))))   (* L1823-1834, one process *)
  | None => Ok (Array (mk_dnd ys (ash (nth 0 ys (mk_arr [] (fun _ => 0)))) None))
  end.
