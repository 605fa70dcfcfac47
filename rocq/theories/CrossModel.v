(** Model of heat/core/linalg/basics.py cross (L165-272).  One list entry per rank; [sub] and [mul]: the arithmetic of the
    promoted element type (promotion, devices and communicators are not modelled). *)
From Verif Require Import Base LayoutModel NdSpec TensorSpec OpsModel RedistModel ShapeModel BinModel BinOutModel ReshapeModel FactoryModel ConcatModel.
Open Scope Z_scope.

Section Cross.
Context {V : Type} (zero : V) (sub mul : V -> V -> V).
(** torch.cross(t1, t2, dim): equal numbers of dimensions, extent 3 along dim, the other extents are broadcast *)
Definition torch_cross (dim : nat) (t1 t2 : arr V) : res (arr V) :=
  match bshape (ash t1) (ash t2) with
  | Ok sh =>
      if (nth dim (ash t1) 0 =? 3) && (nth dim (ash t2) 0 =? 3)
      then Ok (mk_arr sh (fun idx =>
             let i := nth dim idx 0 in
             let u k := adat t1 (bclamp (ash t1) (upd idx dim k)) in let v k := adat t2 (bclamp (ash t2) (upd idx dim k)) in
             sub (mul (u ((i + 1) mod 3)) (v ((i + 2) mod 3))) (mul (u ((i + 2) mod 3)) (v ((i + 1) mod 3)))))
      else Err RuntimeError
  | Err _ => Err RuntimeError
  end.
(** stride_tricks.sanitize_axis for an integer; 0-dimensional arrays give None, which is no valid list index afterwards *)
Definition int_axis (n : nat) (axis : Z) : res nat :=
  match sanitize_axis n (AxInt axis) with Ok (AxInt a) => Ok (Z.to_nat a) | Ok _ => Err TypeError | Err e => Err e end.
(** L229-240: a third component of zeros (a replicated array) for plane vectors *)
Definition extend (x : dnd V) (axis : nat) : res (dnd V) :=
  if nth axis (d_gshape x) 0 =? 2
  then let sh := upd (d_gshape x) axis 1 in
       concat2 zero x (mk_dnd (map (fun _ => mk_arr sh (fun _ => zero)) (d_locals x)) sh None) (AxInt (Z.of_nat axis))
  else Ok x.
(** L242-246 *)
Definition move (x : dnd V) (src dst : nat) : res (dnd V) :=
  if (dst =? src)%nat then Ok x else moveaxis x [Z.of_nat src] [Z.of_nat dst].
(** ret[..., -1, ...] at position [axis] (L261-264) *)
Definition z_slice (axis : nat) (t : arr V) : arr V :=
  mk_arr (remove_at axis (ash t)) (fun o => adat t (py_insert o axis (nth axis (ash t) 0 - 1))).
Definition cross (a b : dnd V) (axisa axisb axisc axis : Z) : res (dnd V) :=
  let na := length (d_gshape a) in let nb := length (d_gshape b) in
  do p <- (if negb (axis =? -1) || ((axisa =? axis) && (axisb =? axis) && (axisc =? axis))             (* L211-217 *)
           then do x <- int_axis na axis; Ok (x, x, x)
           else do x <- int_axis na axisa; do y <- int_axis nb axisb; do z <- int_axis na axisc; Ok (x, y, z));
  let '(aa, ab, ac) := p in
  if opt_eqb (d_split a) (Some aa) || opt_eqb (d_split b) (Some ab) then Err ValueError               (* L219-222 *)
  else if (nb <=? ab)%nat then Err IndexError                                                         (* L225: del b_shape[axisb] *)
  else
  do osh <- match bshapes (remove_at aa (d_gshape a)) (remove_at ab (d_gshape b)) with Ok s => Ok s | Err _ => Err ValueError end;   (* L226 *)
  let a2 := nth aa (d_gshape a) 0 =? 2 in let b2 := nth ab (d_gshape b) 0 =? 2 in
  do a1 <- extend a aa; do b1 <- extend b ab;
  do am <- move a1 aa ac; do bm <- move b1 ab ac;
  if negb (opt_eqb (d_split am) (d_split bm)) then Err ValueError                                     (* L250-252 *)
  else
  (* L253: [not (a.is_balanced and b.is_balanced)] tests two methods without calling them: never true *)
  do ls <- all_ok (map (fun p => torch_cross ac (fst p) (snd p)) (combine (d_locals am) (d_locals bm)));   (* L258 *)
  if a2 && b2 then Ok (mk_dnd (map (z_slice ac) ls) osh (d_split am))                                  (* L261-264, L268 *)
  else Ok (mk_dnd ls (py_insert osh ac 3) (d_split am)).                                               (* L266-268 *)
End Cross.
