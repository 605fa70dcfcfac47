(** Model of heat/core/statistics.py ptp (L1740-1903, without out=), the parts of __reduce_op
    (core/_operations.py L454-512) it uses with keepdims=True and neutral=None, and the reduction
    operator of core/communication.py _minmax_op (L928-980).  Floating point data, [None] is NaN.
    One list entry per rank. *)
From Verif Require Import Base LayoutModel NdSpec TensorSpec OpsModel ShapeModel.
Open Scope Z_scope.

(** torch.minimum / torch.maximum / subtraction propagate NaN *)
Definition omin (a b : option Z) : option Z := match a, b with Some x, Some y => Some (Z.min x y) | _, _ => None end.
Definition omax (a b : option Z) : option Z := match a, b with Some x, Some y => Some (Z.max x y) | _, _ => None end.
Definition osub (a b : option Z) : option Z := match a, b with Some x, Some y => Some (x - y) | _, _ => None end.
(** reduction of a non-empty list; torch.amin refuses an empty one (see [can_reduce]) *)
Definition big1 (op : option Z -> option Z -> option Z) (l : list (option Z)) : option Z :=
  match l with [] => None | x :: t => fold_left op t x end.
(** torch.amin / amax(t, dim=d, keepdim=True) *)
Definition red (op : option Z -> option Z -> option Z) (t : arr (option Z)) (d : nat) : arr (option Z) :=
  mk_arr (upd (ash t) d 1) (fun idx => big1 op (map (fun j => adat t (upd idx d j)) (zr (nth d (ash t) 0)))).
(** torch.cat((u, v), dim=0) of two tensors of one shape *)
Definition cat0 (u v : arr (option Z)) : arr (option Z) :=
  let h := nth 0 (ash u) 0 in
  mk_arr (upd (ash u) 0 (2 * h)) (fun idx => if nth 0 idx 0 <? h then adat u idx else adat v (upd idx 0 (nth 0 idx 0 - h))).
(** local_minmax, L1778-1787; dim=None: over all elements, made one-dimensional *)
Definition local_minmax (t : arr (option Z)) (d : option nat) : arr (option Z) :=
  match d with
  | Some d => cat0 (red omin t d) (red omax t d)
  | None => cat0 (mk_arr [1] (fun _ => big1 omin (flat t))) (mk_arr [1] (fun _ => big1 omax (flat t)))
  end.
(** torch.amin / amax raise on a tensor without elements along the reduced dimension *)
Definition can_reduce (t : arr (option Z)) (d : option nat) : bool :=
  match d with Some d => 0 <? nth d (ash t) 0 | None => 0 <? zprod (ash t) end.
(** _operations.py L463-474: an empty local tensor is replaced by NaNs *)
Definition start (gsh : list Z) (split : option nat) (P : nat) (axis : option nat) (t : arr (option Z)) : arr (option Z) :=
  match split with
  | Some s => if (1 <? P)%nat && existsb (Z.eqb 0) (ash t) && (match axis with None => true | Some a => Nat.eqb a s end)
              then mk_arr (upd gsh s 1) (fun _ => None) else t
  | None => t
  end.
(** _minmax_op: the first half of the packed buffer by minimum, the second by maximum *)
Definition allreduce_minmax (ts : list (arr (option Z))) : list (arr (option Z)) :=
  map (fun t => mk_arr (ash t) (fun idx => big1 (if nth 0 idx 0 <? nth 0 (ash t) 0 / 2 then omin else omax) (map (fun u => adat u idx) ts))) ts.
(** L1836-1837: chunk(2, dim=0), then maxs - mins *)
Definition halves (t : arr (option Z)) : arr (option Z) :=
  let h := nth 0 (ash t) 0 / 2 in
  mk_arr (upd (ash t) 0 h) (fun idx => osub (adat t (upd idx 0 (nth 0 idx 0 + h))) (adat t idx)).

Record ptp_result := { p_locals : list (arr (option Z)); p_gshape : list Z; p_split : option Z }.
(** stride_tricks.sanitize_axis of None or an int *)
Definition norm_axis (n : nat) (axis : option Z) : res (option nat) :=
  match axis with
  | None => Ok None
  | Some a => let b := if a <? 0 then a + Z.of_nat n else a in
              if (b <? 0) || (Z.of_nat n <=? b) then Err ValueError else Ok (Some (Z.to_nat b))
  end.
Definition reduced_shape (sh : list Z) (a : option nat) : list Z := match a with None => map (fun _ => 1) sh | Some a => upd sh a 1 end.
(** y.reshape(()) and y.squeeze(axis), L1853-1860 *)
Definition drop_dim (y : arr (option Z)) (a : option nat) : arr (option Z) :=
  match a with
  | None => mk_arr [] (fun _ => adat y [0])
  | Some a => mk_arr (firstn a (ash y) ++ skipn (S a) (ash y)) (fun idx => adat y (firstn a idx ++ 0 :: skipn a idx))
  end.
Definition out_gshape (gsh : list Z) (a : option nat) (keepdims : bool) : list Z :=         (* L1863-1875 *)
  match a with
  | None => if keepdims then map (fun _ => 1) gsh else []
  | Some a => if keepdims then upd gsh a 1 else firstn a gsh ++ skipn (S a) gsh
  end.
(** ptp with axis=None or an int.  The split of the result is computed from the axis as given. *)
Definition ptp (x : dnd (option Z)) (axis : option Z) (keepdims : bool) : res ptp_result :=
  let gsh := d_gshape x in let n := length gsh in let P := length (d_locals x) in
  do a <- norm_axis n axis;                                                                  (* L1791 *)
  if existsb (fun t => zprod (reduced_shape (ash t) a) =? 0) (d_locals x) then Err RuntimeError  (* L1793-1808 *)
  else if (n =? 0)%nat then Err IndexError                                                   (* L1812 *)
  else
    let ts := map (start gsh (d_split x) P a) (d_locals x) in
    if existsb (fun t => negb (can_reduce t a)) ts then Err RuntimeError
    else
      let packed := map (fun t => local_minmax t a) ts in
      let reduced := match d_split x with
                     | Some s => if (1 <? P)%nat && (match a with None => true | Some a => Nat.eqb a s end) then allreduce_minmax packed else packed
                     | None => packed
                     end in
      let ys := map halves reduced in
      let split := match axis, d_split x with                                                (* L1840-1851 *)
                   | Some a, Some s => if a <? Z.of_nat s then Some (Z.of_nat s - 1) else if Z.of_nat s <? a then Some (Z.of_nat s) else None
                   | _, _ => None
                   end in
      Ok {| p_locals := if keepdims then ys else map (fun y => drop_dim y a) ys;
            p_gshape := out_gshape gsh a keepdims; p_split := split |}.
(** ptp with a tuple of axes, in one process: local_minmax once per axis (_operations.py L487-491),
    then the halves and the squeezes from the last axis to the first *)
Definition squeeze1 (y : arr (option Z)) (a : nat) : arr (option Z) := if nth a (ash y) 0 =? 1 then drop_dim y (Some a) else y.
Definition ptp_tuple1 (t : arr (option Z)) (axes : list nat) (desc : list nat) : arr (option Z) :=
  fold_left squeeze1 desc (halves (fold_left (fun t d => local_minmax t (Some d)) axes t)).
