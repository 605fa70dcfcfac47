(** Model of heat/core/manipulations.py broadcast_to (L234-301) and broadcast_arrays (L153-231). *)
From Verif Require Import Base LayoutModel NdSpec TensorSpec OpsModel RedistModel ShapeModel BinModel BinOutModel.
Open Scope Z_scope.

(** torch's t.broadcast_to(shape) *)
Definition expand {A} (t : arr A) (shape : list Z) : res (arr A) :=
  match bshapes (ash t) shape with
  | Ok sh => if eqb_idx sh shape then Ok (mk_arr shape (fun idx => adat t (bclamp (ash t) (skipn (length shape - length (ash t)) idx)))) else Err RuntimeError
  | Err e => Err RuntimeError
  end.
(** zeros(shape, split=s): balanced *)
Definition zeros_split {A} (z : A) (P : nat) (shape : list Z) (s : nat) : bnd A :=
  mk_bnd (mk_dnd (map (fun c => mk_arr (upd shape s c) (fun _ => z)) (zcounts (nth s shape 0) P)) shape (Some s)) (Some true).
(** [z], [add]: zero and addition of the dtype *)
Definition broadcast_to {A} (z : A) (add : A -> A -> A) (x : bnd A) (shape : list Z) : res (bnd A) :=
  let sh := d_gshape (b_arr x) in let P := length (d_locals (b_arr x)) in
  match bshapes sh shape with
  | Err _ => Err ValueError                                                                   (* L266-271 *)
  | Ok _ =>
      match d_split (b_arr x) with
      | Some s =>
          let so := (length shape - length sh + s)%nat in                                     (* L274-279 *)
          if (1 <? P)%nat
          then if (length shape <? length sh)%nat then Err ValueError                         (* refused by zeros or by += *)
               else inplace z z add (zeros_split z P shape so) x                              (* L294-298 *)
          else do ls <- all_ok (map (fun t => expand t shape) (d_locals (b_arr x)));          (* L281-291 *)
               Ok (mk_bnd (mk_dnd ls shape (Some so)) (Some true))
      | None => do ls <- all_ok (map (fun t => expand t shape) (d_locals (b_arr x)));
                Ok (mk_bnd (mk_dnd ls shape None) (Some true))
      end
  end.

(** broadcast_arrays: all arrays towards the first one.  sanitize_distribution compares
    arg.shape[target.split], the axes are not aligned on the right before.  [None] for an
    index that does not exist (IndexError). *)
Definition follow {A} (dflt : A) (first : bnd A) (x : bnd A) : res (dnd A) :=
  let P := length (d_locals (b_arr first)) in
  if (P =? 1)%nat then Ok (b_arr x)
  else match d_split (b_arr first) with
       | None => match d_split (b_arr x) with None => Ok (b_arr x) | Some _ => Err ValueError end   (* NotImplementedError -> ValueError, L196-197 *)
       | Some s => if (length (d_gshape (b_arr x)) <=? s)%nat then Err IndexError
                   else match sanitize_dist dflt x s (nth s (d_gshape (b_arr first)) 0) (lcounts (b_arr first) s) (is_bal first) with
                        | Err NotImplementedErr => Err ValueError | r => r end
       end.
Definition fold_shapes (shs : list (list Z)) : res (list Z) := fold_left (fun acc sh => do a <- acc; bshapes a sh) shs (Ok []).
(** torch.broadcast_tensors of the tensors of one rank *)
Definition expand_all {A} (ts : list (arr A)) : res (list (arr A)) :=
  do sh <- fold_shapes (map ash ts); all_ok (map (fun t => expand t sh) ts).
Definition nth_arr {A} (dflt : A) (ls : list (arr A)) (r : nat) : arr A := nth r ls (mk_arr [] (fun _ => dflt)).
Definition broadcast_arrays {A} (dflt : A) (xs : list (bnd A)) : res (list (bnd A)) :=
  match xs with
  | [] | [_] => Ok xs                                                                          (* L186-187 *)
  | first :: _ =>
      let P := length (d_locals (b_arr first)) in
      do ys <- all_ok (map (follow dflt first) xs);                                            (* L189-197 *)
      match fold_shapes (map d_gshape ys) with
      | Err _ => Err ValueError                                                                (* L209-214 *)
      | Ok osh =>
          do cols <- all_ok (map (fun r => expand_all (map (fun y => nth_arr dflt (d_locals y) r) ys)) (seq 0 P));   (* L217 *)
          Ok (map (fun k => mk_bnd (mk_dnd (map (fun col => nth_arr dflt col k) cols) osh (d_split (b_arr first))) (b_flag first)) (seq 0 (length xs)))
      end
  end.
