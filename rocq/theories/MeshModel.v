(** Model of heat/core/factories.py meshgrid (L1346-1436). *)
From Verif Require Import Base LayoutModel NdSpec TensorSpec OpsModel ShapeModel BinModel BcModel.
Open Scope Z_scope.

(** the values of indexing= : "xy", "ij", anything else *)
Inductive indexing := XY | IJ | OtherIndexing.
Definition swap01 {X} (l : list X) : list X := match l with a :: b :: t => b :: a :: t | _ => l end.
(** torch.meshgrid of the vectors of one process; a tensor of more than one dimension is refused
    (0-dimensional tensors, which torch takes for vectors of length one, are not modelled) *)
Definition torch_meshgrid {A} (ts : list (arr A)) (xy : bool) : res (list (arr A)) :=
  if forallb (fun t => (length (ash t) =? 1)%nat) ts
  then let sh := map (fun t => nth 0 (ash t) 0) ts in
       let ij := map (fun p => mk_arr sh (fun idx => adat (snd p) [nth (fst p) idx 0])) (combine (seq 0 (length ts)) ts) in
       Ok (if xy then map (fun g => mk_arr (swap01 (ash g)) (fun idx => adat g (swap01 idx))) ij else ij)
  else Err RuntimeError.
(** L1409-1414 *)
Fixpoint find_split {A} (i : nat) (xs : list (bnd A)) (acc : option nat) : res (option nat) :=
  match xs with
  | [] => Ok acc
  | x :: xs' => match d_split (b_arr x) with
                | None => find_split (S i) xs' acc
                | Some _ => match acc with Some _ => Err ValueError | None => find_split (S i) xs' (Some i) end
                end
  end.
(** array.size: the product of the shape *)
Definition size_of (sh : list Z) : Z := fold_right Z.mul 1 sh.
Definition meshgrid {A} (dflt : A) (xs : list (bnd A)) (ix : indexing) : res (list (bnd A)) :=
  match ix with
  | OtherIndexing => Err ValueError                                                            (* L1401-1402 *)
  | _ =>
    let xy := match ix with XY => true | _ => false end in
    match xs with
    | [] => Ok []                                                                              (* L1404-1405 *)
    | first :: _ =>
        let P := length (d_locals (b_arr first)) in
        do sp <- find_split 0 xs None;
        do cols <- all_ok (map (fun r => torch_meshgrid (map (fun x => nth_arr dflt (d_locals (b_arr x)) r) xs) xy) (seq 0 P));   (* L1416 *)
        let shape := map (fun x => size_of (d_gshape (b_arr x))) xs in
        let swap := xy && (1 <? length shape)%nat in                                           (* L1419-1425 *)
        let gsh := if swap then swap01 shape else shape in
        let sp' := if swap then match sp with Some O => Some 1%nat | Some (S O) => Some 0%nat | s => s end else sp in
        Ok (map (fun k => mk_bnd (mk_dnd (map (fun col => nth_arr dflt col k) cols) gsh sp') (Some true)) (seq 0 (length xs)))    (* L1427-1436 *)
    end
  end.
