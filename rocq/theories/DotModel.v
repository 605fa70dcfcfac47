(** Model of heat/core/linalg/basics.py dot for two vectors (L388-411), vecdot (L2074-2108) and vdot (L2038-2071).  Promotion
    is not modelled; the other branches of dot are multiply (C45) and matmul (C61). *)
From Verif Require Import Base LayoutModel NdSpec TensorSpec OpsModel RedistModel ShapeModel BinModel ReshapeModel FactoryModel PrintSpec DotSpec.
Open Scope Z_scope.

Section Dot.
Context {V : Type} (zero : V) (add mul : V -> V -> V) (conj : V -> V).

(** t[lo:hi] of a 1-D local array, 0 <= lo *)
Definition py_vals (t : arr V) (lo hi : Z) : list V :=
  let n := nth 0 (ash t) 0 in map (fun i => adat t [i]) (range (Z.min lo n) (Z.min hi n)).
Definition torch_dot (x y : list V) : res V := if (length x =? length y)%nat then Ok (inner zero add mul x y) else Err RuntimeError.
(** rank [r] of [P]; L390-400.  Slices of a split array are taken relative to the start of the balanced chunk of [a]'s shape *)
Definition dot_local (sha : list Z) (spa spb : option nat) (P : nat) (p : nat * (arr V * arr V)) : res V :=
  let '(r, (ta, tb)) := p in
  match spa, spb with
  | None, None => torch_dot (py_vals ta 0 (nth 0 (ash ta) 0)) (py_vals tb 0 (nth 0 (ash tb) 0))
  | _, _ =>
      let s := match spa with Some s => s | None => match spb with Some s => s | None => 0%nat end end in
      let st := chunk_start sha s r P in
      let len := nth s (chunk_shape sha s r P) 0 in
      torch_dot (match spa with None => py_vals ta st (st + len) | Some _ => py_vals ta 0 len end)
                (match spb with None => py_vals tb st (st + len) | Some _ => py_vals tb 0 len end)
  end.
(** L388-408: one number per rank, and what is left in [out] - it is only rebound (L405-407) *)
Definition dot (a b : dnd V) (out : option (dnd V)) : res (list V * option (dnd V)) :=
  let P := length (d_locals a) in
  do ps <- all_ok (map (dot_local (d_gshape a) (d_split a) (d_split b) P) (combine (seq 0 P) (combine (d_locals a) (d_locals b))));
  let split := match d_split a, d_split b with None, None => false | _, _ => true end in
  Ok (if split && (1 <? P)%nat then map (fun _ => big add zero ps) ps else ps, out).
(** L2103-2108; sum is __reduce_op with neutral element 0 *)
Definition vecdot (x y : bnd V) (axis : option Z) (keepdims : bool) : res (reduced V) :=
  do m <- binary_op zero zero mul x y;
  let sh := d_gshape (b_arr m) in
  let axis := match axis with Some a => a | None => Z.of_nat (length sh) - 1 end in
  reduce_op add zero zero false sh (d_split (b_arr m)) (d_locals (b_arr m)) (AxInt axis) keepdims.
(** flatten returns a balanced 1-D array *)
Definition vec_of (d : dist V) (sp : option nat) (n : Z) : bnd V :=
  mk_bnd (mk_dnd (map (fun l => mk_arr [Z.of_nat (length l)] (fun i => nth (Z.to_nat (nth 0 i 0)) l zero)) d) [n] sp) (Some true).
Definition conjugate (x : bnd V) : bnd V :=
  mk_bnd (mk_dnd (map (fun t => mk_arr (ash t) (fun i => conj (adat t i))) (d_locals (b_arr x))) (d_gshape (b_arr x)) (d_split (b_arr x))) (b_flag x).
(** L2068-2071 *)
Definition vdot (x y : dnd V) : res (reduced V) :=
  do f <- flatten zero (length (d_locals x)) x;
  do g <- flatten zero (length (d_locals y)) y;
  do m <- binary_op zero zero mul (conjugate (vec_of (fst f) (snd f) (zprod (d_gshape x)))) (vec_of (fst g) (snd g) (zprod (d_gshape y)));
  reduce_op add zero zero false (d_gshape (b_arr m)) (d_split (b_arr m)) (d_locals (b_arr m)) AxNone false.
End Dot.
