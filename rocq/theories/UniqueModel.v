(** Model of ht.unique (heat/core/manipulations.py L3423-3645).  One list entry per rank.
    torch.unique is given by [reps]: which positions of a list of keys are kept, and [inv]:
    the position, among those kept, of every key. *)
From Verif Require Import Base LayoutModel NdSpec TensorSpec NdLemmas OpsModel RollModel RedistModel HaloModel ShapeModel ShapeSpec BinModel ReshapeModel FactoryModel ConcatModel DiagModel UnfoldModel.
Open Scope Z_scope.

Section Unique.
Context {V : Type}.
Variables (dv : V) (reps inv : list (list V) -> list nat).

(** torch.unique(l) for things compared by [key] *)
Definition pick {B} (d : B) (key : B -> list V) (l : list B) : list B := map (fun p => nth p l d) (reps (map key l)).
Definition single (v : V) : list V := [v].
Definition u_flat : list V -> list V := pick dv single.                               (* dim=None: flattened *)
Definition vec1 (l : list V) : arr V := mk_arr [Z.of_nat (length l)] (fun idx => nth (Z.to_nat (nth 0 idx 0)) l dv).
(** torch.unique(t, dim=ax): slices along ax, compared element by element *)
Definition skey (sh : list Z) (ax : nat) (f : list Z -> V) : list V := map f (row_major (upd sh ax 1)).
Definition u_slices (ax : nat) (t : arr V) : list (list Z -> V) := pick (fun _ => dv) (skey (ash t) ax) (slabs ax t).

(** the parts every rank computes before the exchange; an empty part is not handed to
    torch, L3489-3508 *)
Definition lres_flat (s : nat) (t : arr V) : list V := if nth s (ash t) 0 =? 0 then [] else u_flat (flat t).
Definition lres_slices (s ax : nat) (t : arr V) : list (list Z -> V) := if nth s (ash t) 0 =? 0 then [] else u_slices ax t.

Definition undistributed (x : dnd V) : bool := match d_split x with Some _ => Nat.eqb (length (d_locals x)) 1 | None => true end.

(** unique(x), axis=None *)
Definition unique_none (x : dnd V) : res (dnd V) :=
  match d_split x with
  | Some s =>
    if undistributed x then Ok (mk_dnd (map (fun t => vec1 (u_flat (flat t))) (d_locals x)) [Z.of_nat (length (u_flat (flat (hd (vec1 []) (d_locals x)))))] None)   (* L3457-3478 *)
    else
      let gres := u_flat (concat (map (lres_flat s) (d_locals x))) in                 (* L3516-3527, L3551 *)
      array_split (length (d_locals x)) (vec1 gres) (if (s <? 1)%nat then AxInt (Z.of_nat s) else AxNone)   (* L3623-3626 *)
  | None => Ok (mk_dnd (map (fun t => vec1 (u_flat (flat t))) (d_locals x)) [Z.of_nat (length (u_flat (flat (hd (vec1 []) (d_locals x)))))] None)
  end.

(** unique(x, axis=axis), sorted=False.  L3521 compares the axis as given, L3486 and L3618
    transpose with torch's normalised one. *)
Definition unique_axis (x : dnd V) (axis : Z) : res (dnd V) :=
  let ax := norm (length (d_gshape x)) axis in
  match d_split x with
  | None => let us t := of_slabs dv (ash t) ax (u_slices ax t) in
            Ok (mk_dnd (map us (d_locals x)) (ash (us (hd (mk_arr (d_gshape x) (fun _ => dv)) (d_locals x)))) None)
  | Some s =>
    if undistributed x then let us t := of_slabs dv (ash t) ax (u_slices ax t) in
            Ok (mk_dnd (map us (d_locals x)) (ash (us (hd (mk_arr (d_gshape x) (fun _ => dv)) (d_locals x)))) None)
    else if axis =? Z.of_nat s then
      let gres := pick (fun _ => dv) (skey (d_gshape x) s) (concat (map (lres_slices s s) (d_locals x))) in
      array_split (length (d_locals x)) (of_slabs dv (d_gshape x) s gres) (AxInt (Z.of_nat s))
    else                                                                              (* L3597-3617 *)
      let u := fold_right Nat.max 0%nat (map (fun t => length (lres_slices s ax t)) (d_locals x)) in
      (* L3605: the distinct inverse indices of the rank with the most uniques are 0 .. u-1 *)
      do y <- array_is_split (map (fun t => mk_arr (upd (ash t) ax (Z.of_nat u)) (adat t)) (d_locals x)) s;
      Ok (fst y)
  end.

End Unique.
