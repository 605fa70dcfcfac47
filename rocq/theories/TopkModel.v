(** Model of ht.topk (heat/core/manipulations.py L4406-4564) and its reduction operator
    mpi_topk (L4567-4614); the reduction is _operations.py L415-545, of which only the
    branch for a one-dimensional packed buffer is used.  Lane by lane; one list entry per
    rank.  Not modelled: out=, k larger than the extent of the axis. *)
From Verif Require Import Base LayoutModel NdSpec TensorSpec NdLemmas OpsModel RedistModel HaloModel ShapeModel ShapeSpec BinModel FactoryModel ConcatModel DiagModel ReshapeModel SortModel SortNd ArgModel.
Open Scope Z_scope.

Section Topk.
Context {V : Type}.
Variables (dv : V) (tk : bool -> bool -> nat -> list V -> list nat) (dbl : V -> V) (neutral : V).
(** [tk largest sorted k l]: the indices torch.topk returns; [dbl]: an element converted to
    double and back (L4510-4513, L4541); [neutral]: L4459-4461 *)
Variables (largest sorted : bool) (k : nat).

Definition tk_pairs (m : nat) (l : list (V * Z)) : list (V * Z) :=
  map (fun i => nth i l (dv, 0)) (tk largest sorted m (map fst l)).
Definition numbered (l : list V) : list (V * Z) := combine l (zr (Z.of_nat (length l))).
Definition packed (l : list (V * Z)) : list (V * Z) := map (fun v => (dbl (fst v), snd v)) l.   (* L4509-4514 *)

(** local_topk when dim is the split axis, L4463-4515.  A part shorter than k is padded by
    ConstantPad1d with one number per dimension, L4470-4480: in two dimensions along axis 1
    these are the pair (0, k - n) for the last axis; an odd number of them is rejected by
    torch.  Simplification: in the other even-dimensional cases the padding changes
    another axis; the model raises. *)
Definition local_split (ndim dim r P : nat) (l : list V) : res (list (V * Z)) :=
  let n := length l in
  do p <- (if (n <? k)%nat
           then if Nat.eqb ndim 2 && Nat.eqb dim 1 then Ok (tk_pairs n (numbered l) ++ repeat (neutral, 0) (k - n)%nat) else Err RuntimeError
           else Ok (tk_pairs k (numbered l)));                                        (* L4482 *)
  let offset := Z.of_nat (fst (chunk_1d n r P)) * Z.of_nat r in                        (* L4486-4490 *)
  Ok (packed (map (fun v => (fst v, snd v + offset)) p)).
(** mpi_topk, L4567-4611 *)
Definition mpi_topk (a b : list (V * Z)) : list (V * Z) := tk_pairs k (a ++ b).
(** torch.topk(t, k, dim=ax), packed and unpacked *)
Definition local_other (ax : nat) (t : arr V) : arr (V * Z) :=
  mk_arr (upd (ash t) ax (Z.of_nat k)) (fun idx => nth (Z.to_nat (nth ax idx 0)) (packed (tk_pairs k (numbered (lane_of ax t idx)))) (dv, 0)).

(** [tree]: the order in which MPI combines the ranks' buffers *)
Definition topk_nd (x : dnd V) (dim : Z) (tree : rtree) : res (dnd (V * Z)) :=
  do dim <- sanitize_axis (length (d_gshape x)) (AxInt dim);                          (* L4457 *)
  match dim with
  | AxInt d =>
    let ax := Z.to_nat d in
    let P := length (d_locals x) in
    match d_split x with
    | Some s =>
      if Nat.eqb s ax then
        let lanes idx :=
          do ps <- all_ok (map (fun p => local_split (length (d_gshape x)) ax (fst p) P (lane_of ax (snd p) idx)) (ranked (d_locals x)));
          Ok (reduce_tree mpi_topk (fun r => nth r ps []) tree) in                    (* _operations.py L487 *)
        do _ <- all_ok (map lanes (row_major (upd (d_gshape x) ax 1)));
        let res := mk_arr (upd (d_gshape x) ax (Z.of_nat k)) (fun idx => match lanes idx with Ok l => nth (Z.to_nat (nth ax idx 0)) l (dv, 0) | Err _ => (dv, 0) end) in
        array_split P res (AxInt (Z.of_nat s))                                        (* L4531-4543 *)
      else if nth ax (d_gshape x) 0 <? Z.of_nat k then Err RuntimeError               (* not modelled *)
      else do y <- array_is_split (map (local_other ax) (d_locals x)) s; Ok (fst y)
    | None => if nth ax (d_gshape x) 0 <? Z.of_nat k then Err RuntimeError            (* not modelled *)
              else Ok (mk_dnd (map (local_other ax) (d_locals x)) (upd (d_gshape x) ax (Z.of_nat k)) None)
    end
  | _ => Err TypeError
  end.
End Topk.
