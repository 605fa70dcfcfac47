(** argmax / argmin: heat/core/statistics.py L50-206, L1389-1458 and the parts of
    heat/core/_operations.py L415-545 (__reduce_op) they use. *)
From Verif Require Import Base LayoutModel.
Open Scope Z_scope.

(** Conversion of an integer to float64: round to nearest, ties to even, 53 bit significand. *)
Definition fl64_abs (z : Z) : Z :=
  if z <? 2 ^ 53 then z
  else let e := Z.log2 z - 52 in
       let q := z / 2 ^ e in
       let r := z mod 2 ^ e in
       let h := 2 ^ (e - 1) in
       (if r <? h then q else if h <? r then q + 1 else if Z.even q then q else q + 1) * 2 ^ e.
Definition to_double (z : Z) : Z := if z <? 0 then - fl64_abs (- z) else fl64_abs z.

(** [gt] is "greater" for argmax and "less" for argmin. *)
Definition greater (x y : Z) : bool := y <? x.
Definition less (x y : Z) : bool := x <? y.

(** torch.max / torch.min along a dimension (L97): value and index of the first extremum *)
Fixpoint first_best (gt : Z -> Z -> bool) (best : Z * Z) (i : Z) (l : list Z) : Z * Z :=
  match l with
  | [] => best
  | v :: t => first_best gt (if gt v (fst best) then (v, i) else best) (i + 1) t
  end.
Definition torch_best (gt : Z -> Z -> bool) (l : list Z) : Z * Z :=
  match l with [] => (0, 0) | v :: t => first_best gt (v, 0) 1 t end.

(** The state a rank contributes when the reduced axis is the split axis.  A "lane" is the
    column of values along that axis for one position of the other axes; [n] is the global
    extent.  Empty ranks are filled with the neutral element (_operations.py L463-472). *)
Definition local_arg (gt : Z -> Z -> bool) (neutral : Z) (n : Z) (rank P : nat) (lanes : list (list Z))
  : list (Z * Z) :=
  let offset := Z.of_nat (fst (chunk_1d (Z.to_nat n) rank P)) in              (* L101 *)
  map (fun lane => let '(v, i) := torch_best gt (match lane with [] => [neutral] | _ => lane end) in
                   (to_double v, i + offset)) lanes.                          (* L102, L108 *)

(** mpi_argmax L1389-1420 / mpi_argmin L1425-1456: the order of the operands is decided by
    the index in the first lane, for all lanes; torch.max over the two takes the first. *)
Definition mpi_arg (gt : Z -> Z -> bool) (a b : list (Z * Z)) : list (Z * Z) :=
  let pick (p : (Z * Z) * (Z * Z)) := if gt (fst (snd p)) (fst (fst p)) then snd p else fst p in
  if snd (hd (0, 0) a) <? snd (hd (0, 0) b)
  then map pick (combine a b) else map pick (combine b a).

(** Allreduce with a commutative operator: MPI may combine the contributions of the ranks
    in any tree, in any order (the operators are created with commute=True, L1422, L1458). *)
Inductive rtree := Leaf (r : nat) | Node (a b : rtree).
Fixpoint leaves (t : rtree) : list nat := match t with Leaf r => [r] | Node a b => leaves a ++ leaves b end.
Fixpoint reduce_tree {S} (op : S -> S -> S) (f : nat -> S) (t : rtree) : S :=
  match t with Leaf r => f r | Node a b => op (reduce_tree op f a) (reduce_tree op f b) end.

(** ht.argmax(x, axis=x.split) / ht.argmin: [data] holds the lanes of every rank *)
Definition arg_split (gt : Z -> Z -> bool) (neutral n : Z) (data : list (list (list Z))) (t : rtree) : list Z :=
  let P := length data in
  map snd (reduce_tree (mpi_arg gt) (fun r => local_arg gt neutral n r P (nth r data [])) t).  (* _operations.py L510, L520 *)

(** axis=None (L89-94): the flattened local array; the offset is that of the flattened
    global array, and only if the split axis is 0 *)
Definition arg_flat (gt : Z -> Z -> bool) (shape : list Z) (split : nat) (data : list (list Z)) (t : rtree) : Z :=
  let P := length data in
  let total := Z.to_nat (fold_right Z.mul 1 shape) in
  let state r := let '(v, i) := torch_best gt (nth r data []) in
                 [(to_double v, if Nat.eqb split 0 then i + Z.of_nat (fst (chunk_1d total r P)) else i)] in
  snd (hd (0, 0) (reduce_tree (mpi_arg gt) state t)).

(** Local shape of the result, one reduced axis that is not the split axis
    (_operations.py L485-503, L516-522; local_argmax concatenates along dimension 0, L108) *)
Definition drop_axis (a : nat) (l : list Z) : list Z := firstn a l ++ skipn (S a) l.
Definition arg_lshape (lshape : list Z) (axis : nat) (keepdims : bool) : list Z :=
  let p := upd lshape axis 1 in
  let p := upd p 0 (2 * nth 0 p 0) in                                          (* torch.cat([maxima, indices]) *)
  let p := if negb keepdims && negb (Nat.eqb (length p) 1) then
             let lose := drop_axis axis lshape in
             let lose := if Nat.eqb axis 0 && negb (nth 0 p 0 =? 1) then nth 0 p 0 :: lose else lose in    (* L498 *)
             if negb (Nat.eqb axis 0) && negb (nth 0 p 0 =? nth 0 lshape 0) then nth 0 p 0 :: tl lose else lose  (* L500 *)
           else p in
  let p := upd p 0 (nth 0 p 0 / 2) in                                          (* chunk(2)[-1], L520 *)
  if Nat.ltb 1 (length p) && (nth 0 p 0 =? 1) then tl p else p.                (* L521-522 *)
