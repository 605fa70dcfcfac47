(** Model of the inverse indices of ht.unique with axis=None (heat/core/manipulations.py
    L3462-3478 for an array that is not distributed, L3529-3549 and L3553-3587 otherwise).
    [reps], [inv]: the two results of torch.unique(l, return_inverse=True), as in UniqueModel. *)
From Verif Require Import Base LayoutModel NdSpec TensorSpec NdLemmas OpsModel RollModel RedistModel HaloModel ShapeModel ShapeSpec BinModel ReshapeModel FactoryModel ConcatModel DiagModel UnfoldModel UniqueModel.
Open Scope Z_scope.

(** t.transpose(0, s) on index or shape lists *)
Definition swap0 (s : nat) (l : list Z) : list Z := upd (upd l 0 (nth s l 0)) s (nth 0 l 0).
(** the loop L3574-3580: cur_displ when element [num] is handled; [le] = local_elements
    without its final infinity *)
Definition displ_step (le : list Z) (cur num : nat) : nat :=
  match nth_error le cur with Some b => if b <=? Z.of_nat num then S cur else cur | None => cur end.
Definition displ_at (le : list Z) (num : nat) : nat := fold_left (displ_step le) (seq 0 (S num)) 0%nat.

Section Inverse.
Context {V : Type}.
Variables (dv : V) (reps inv : list (list V) -> list nat).

(** the inverse index of element [idx] of the global array.  Simplification: the layout is
    the canonical one the counts of L3530-3538 describe, so that Allgatherv delivers every
    rank's part at its place. *)
Definition inverse_none (x : dnd V) (idx : list Z) : nat :=
  if undistributed x then
    nth (Z.to_nat (dot idx (cstrides (d_gshape x)))) (inv (map single (flat (hd (vec1 dv []) (d_locals x))))) 0%nat
  else
    match d_split x with
    | None => 0%nat
    | Some s =>
      let gsh := d_gshape x in let P := length (d_locals x) in
      let cnts := zcounts (nth s gsh 0) P in                                          (* L3530-3535 *)
      let displs := map (fun r => zsum (firstn r cnts)) (seq 0 P) in
      let epl := zprod (upd gsh s 1) in                                               (* L3561-3564 *)
      let le := map (fun d => d * epl) (tl displs) in                                 (* L3567-3569 *)
      let inverse_pos r := inv (map single (flat (nth r (d_locals x) (vec1 dv [])))) in   (* L3504-3506 *)
      (* inverse_buf[idx]: the part of the rank that holds row idx[s] *)
      let r := fst (owner cnts (nth s idx 0)) in
      let lidx := move_axis_idx s (- zsum (firstn r cnts)) idx in
      let buf := nth (Z.to_nat (dot lidx (cstrides (upd gsh s (nth r cnts 0))))) (inverse_pos r) 0%nat in
      let num := Z.to_nat (dot (swap0 s idx) (cstrides (swap0 s gsh))) in             (* L3571-3573 *)
      let lres := map (lres_flat dv reps s) (d_locals x) in
      let index := (buf + psum (lens lres) (displ_at le num))%nat in                  (* L3578 *)
      nth index (inv (map single (concat lres))) 0%nat                                (* L3579 *)
    end.

(** axis = split, L3529-3551 and L3589-3595.  [parts]: every rank's inverse_pos (one
    number per local slice), [uniques]: how many slices every rank kept, [g_inverse]: the
    inverse of the second torch.unique.  L3537 indexes the one-dimensional inverse_pos's
    shape with the split axis. *)
Definition inverse_axis (s : nat) (parts : list (list nat)) (uniques : list nat) (g_inverse : list nat) : res (list nat) :=
  if (1 <=? s)%nat then Err IndexError else
  let buf := concat parts in                                                          (* L3544-3546 *)
  let displs := map (psum uniques) (seq 0 (length uniques)) in                        (* L3524 *)
  fold_left (fun acc i =>                                                             (* L3593-3597 *)
      do l <- acc;
      let b := nth i displs 0%nat in
      let e := nth (S i) displs (length buf) in
      fold_left (fun acc p => do l <- acc;
        if (b + fst p <? length l)%nat && (b + snd p <? length g_inverse)%nat then Ok (upd l (b + fst p) (nth (b + snd p) g_inverse 0%nat)) else Err IndexError)
        (combine (seq 0 (length (sub buf b (e - b)))) (sub buf b (e - b))) (Ok l))
    (seq 0 (length uniques)) (Ok (repeat 0%nat (length buf))).
End Inverse.
