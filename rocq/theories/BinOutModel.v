(** Model of heat/core/_operations.py __binary_op with out= (L22-231), with and without where=,
    used by the in-place operations x += y (core/arithmetics.py L135-195 and its siblings, which
    pass out=t1); core/sanitation.py sanitize_out (L288-345) and sanitize_distribution (L67-155)
    towards out.  Dtype promotion and devices are not modelled. *)
From Verif Require Import Base LayoutModel NdSpec TensorSpec OpsModel RedistModel ShapeModel BinModel.
Open Scope Z_scope.

(** stride_tricks.broadcast_shape aligns the shapes on the right *)
Definition lpad (n : nat) (sh : list Z) : list Z := repeat 1 (n - length sh) ++ sh.
Definition bshapes (s1 s2 : list Z) : res (list Z) :=
  let n := Nat.max (length s1) (length s2) in bshape (lpad n s1) (lpad n s2).
Definition opt_eqb (a b : option nat) : bool := match a, b with Some x, Some y => Nat.eqb x y | None, None => true | _, _ => false end.
(** L173-194, the split axis of the result; with out= nothing is redistributed here (L166-169) *)
Definition out_split (osh sh1 sh2 : list Z) (s1 s2 : option nat) : option nat :=
  let dominant (sh : list Z) (s : option nat) := match s with Some k => nth k sh 0 =? nth k osh 0 | None => false end in
  if dominant sh1 s1 then s1 else if dominant sh2 s2 then s2 else match s1 with Some _ => s1 | None => s2 end.
(** sanitize_distribution(arg, target=out) *)
Definition sanitize_to {A C} (dflt : A) (arg : bnd A) (out : bnd C) : res (dnd A) :=
  let P := length (d_locals (b_arr out)) in
  if (P =? 1)%nat then Ok (b_arr arg)
  else match d_split (b_arr out) with
       | None => match d_split (b_arr arg) with None => Ok (b_arr arg) | Some _ => Err NotImplementedErr end
       | Some s => sanitize_dist dflt arg s (nth s (d_gshape (b_arr out)) 0) (lcounts (b_arr out) s) (is_bal out)
       end.
(** torch's t.copy_(v): v is broadcast to the shape of t *)
Definition copy_ {C} (t v : arr C) : res (arr C) :=
  match bshape (ash t) (ash v) with
  | Ok sh => if eqb_idx sh (ash t) then Ok (mk_arr (ash t) (fun idx => adat v (bclamp (ash v) idx))) else Err RuntimeError
  | Err e => Err RuntimeError
  end.
(** L228: torch.where(where.larray, result, out.larray) on one rank *)
Definition where_local {C} (v : arr C) (w : arr bool) (o : arr C) : res (arr C) :=
  do t <- bop (fun v b => (v, b)) v w; bop (fun (p : C * bool) o => if snd p then fst p else o) t o.
Definition where_step {C} (w : option (bnd bool)) (out : bnd C) (ls : list (arr C)) : res (list (arr C)) :=
  match w with
  | None => Ok ls
  | Some w => do z <- (if opt_eqb (d_split (b_arr w)) (d_split (b_arr out)) then Ok (b_arr w) else sanitize_to false w out);   (* L226-227 *)
              all_ok (map (fun p => where_local (fst (fst p)) (snd (fst p)) (snd p)) (combine (combine ls (d_locals z)) (d_locals (b_arr out))))
  end.
(** the whole: result, or exception.  Only the last step writes to out. *)
Definition binary_out {A B C} (da : A) (db : B) (f : A -> B -> C) (u1 : bnd A) (u2 : bnd B) (w : option (bnd bool)) (out : bnd C) : res (bnd C) :=
  let g1 := d_gshape (b_arr u1) in let g2 := d_gshape (b_arr u2) in
  do osh12 <- bshapes g1 g2;                                                                   (* L132 *)
  do osh <- match w with Some w => bshapes (d_gshape (b_arr w)) osh12 | None => Ok osh12 end;  (* L133-134 *)
  let n := length osh in
  do y1 <- pad_dims (n - length g1) (b_arr u1);                                                (* L139-142 *)
  do y2 <- pad_dims (n - length g2) (b_arr u2);
  do wp <- match w with
           | Some w => do y <- pad_dims (n - length (d_gshape (b_arr w))) (b_arr w); Ok (Some (mk_bnd y (b_flag w)))   (* L135-136 *)
           | None => Ok None
           end;
  if negb (eqb_idx osh (d_gshape (b_arr out))) then Err ValueError                             (* sanitize_out *)
  else if negb (opt_eqb (out_split osh (d_gshape y1) (d_gshape y2) (d_split y1) (d_split y2)) (d_split (b_arr out))) then Err ValueError
  else
    do z1 <- sanitize_to da (mk_bnd y1 (b_flag u1)) out;                                       (* L198 *)
    do z2 <- sanitize_to db (mk_bnd y2 (b_flag u2)) out;
    do ls <- all_ok (map (fun p => bop f (fst p) (snd p)) (combine (d_locals z1) (d_locals z2)));  (* L204 *)
    do vs <- where_step wp out ls;                                                             (* L217-228 *)
    do ws <- all_ok (map (fun p => copy_ (fst p) (snd p)) (combine (d_locals (b_arr out)) vs)); (* L230 *)
    Ok (mk_bnd (mk_dnd ws (d_gshape (b_arr out)) (d_split (b_arr out))) (b_flag out)).
(** x op= y: binary_op(op, x, y, out=x); a NotImplementedError becomes a ValueError *)
Definition inplace {A B} (da : A) (db : B) (f : A -> B -> A) (x : bnd A) (y : bnd B) : res (bnd A) :=
  match binary_out da db f x y None x with Err NotImplementedErr => Err ValueError | r => r end.
