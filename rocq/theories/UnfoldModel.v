(** Model of ht.unfold (heat/core/manipulations.py L3692-3775): sliding windows along an
    axis.  One list entry per rank. *)
From Verif Require Import Base LayoutModel NdSpec TensorSpec NdLemmas OpsModel RedistModel HaloModel ShapeModel ShapeSpec BinModel ReshapeModel FactoryModel ConcatModel DiagModel.
Open Scope Z_scope.

(** torch.Tensor.unfold(axis, size, step): one window per start 0, step, ... that fits,
    the elements of a window along a new last axis *)
Definition torch_unfold {A} (axis : nat) (size step : Z) (t : arr A) : res (arr A) :=
  let n := nth axis (ash t) 0 in
  if (size <? 0) || (n <? size) || (step <=? 0) then Err RuntimeError
  else Ok (mk_arr (upd (ash t) axis ((n - size) / step + 1) ++ [size])
                  (fun idx => adat t (upd (removelast idx) axis (nth axis idx 0 * step + last idx 0)))).

(** a local array as the list of its slabs along an axis, and back: the view of the
    local data under which get_halo is modelled (HaloModel) *)
Definition slabs {A} (axis : nat) (t : arr A) : list (list Z -> A) :=
  map (fun i idx => adat t (upd idx axis i)) (zr (nth axis (ash t) 0)).
Definition of_slabs {A} (dflt : A) (sh : list Z) (axis : nat) (l : list (list Z -> A)) : arr A :=
  mk_arr (upd sh axis (Z.of_nat (length l))) (fun idx => nth (Z.to_nat (nth axis idx 0)) l (fun _ => dflt) idx).

(** rank r's part when unfolding along the split axis, L3753-3771; [st]: the halo
    attributes of the array before the call *)
Definition unfold_split {A} (dflt : A) (x : dnd A) (axis : nat) (size step : Z) (st : nat -> halo_st (list Z -> A)) (r : nat) (t : arr A) : res (arr A) :=
  let cnts := map (fun u => nth axis (ash u) 0) (d_locals x) in                       (* L3753, L3757 *)
  if existsb (fun c => c <? size - 1) cnts then Err RuntimeError                      (* L3753-3754 *)
  else
    let d := map (slabs axis) (d_locals x) in
    match get_halo d (size - 1) false true r (st r) with                              (* L3755 *)
    | HRaise e => Err e
    | HHang => Err OutOfFuel
    | HDone s =>
      let displ := zsum (firstn r cnts) in                                            (* L3757-3758 *)
      let min_index := ((displ - 1) / step + 1) * step - displ in                     (* L3761 *)
      let l := nth axis (ash t) 0 in
      if (l <=? min_index) || (Nat.eqb r (length (d_locals x) - 1) && (l <? min_index + size))   (* L3762-3764 *)
      then Ok (mk_arr (upd (ash t) axis 0 ++ [size]) (fun _ => dflt))                 (* L3765-3767 *)
      else torch_unfold axis size step                                                (* L3769-3771 *)
             (of_slabs dflt (ash t) axis (skipn (Z.to_nat min_index) (array_with_halos d r s)))
    end.

Definition unfold_arr {A} (dflt : A) (x : dnd A) (st : nat -> halo_st (list Z -> A)) (axis size step : Z) : res (dnd A) :=
  if step <? 1 then Err ValueError                                                    (* L3728-3729 *)
  else if size <=? 1 then Err ValueError                                              (* L3730-3731 *)
  else
  do a <- sanitize_axis (length (d_gshape x)) (AxInt axis);                           (* L3732 *)
  match a with
  | AxInt az =>
    let axis := Z.to_nat az in
    if nth axis (d_gshape x) 0 <? size then Err ValueError                            (* L3733-3736 *)
    else
      match d_split x with
      | None => do ls <- all_ok (map (torch_unfold axis size step) (d_locals x));     (* L3742-3747 *)
                Ok (mk_dnd ls (ash (hd (mk_arr [] (fun _ => dflt)) ls)) None)
      | Some s =>
          if Nat.eqb (length (d_locals x)) 1 || negb (Nat.eqb s axis)
          then do ls <- all_ok (map (torch_unfold axis size step) (d_locals x));
               do y <- array_is_split ls s; Ok (fst y)
          else do ls <- all_ok (map (fun p => unfold_split dflt x axis size step st (fst p) (snd p)) (ranked (d_locals x)));
               do y <- array_is_split ls axis; Ok (fst y)                             (* L3773 *)
      end
  | _ => Err TypeError
  end.
