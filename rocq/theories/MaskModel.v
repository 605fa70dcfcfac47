(** Model of x[mask] and x[mask] = v (heat/core/dndarray.py __getitem__ L956-972, L1013-1054, L1070-1109,
    L1169-1177, __setitem__ L1676-1690, L1746-1793, L1896-1905, __setter L1913-1931) where the key is an
    array of booleans with as many axes as x and v is a scalar.  One list entry per rank. *)
From Verif Require Import Base LayoutModel NdSpec TensorSpec NdLemmas OpsModel RedistModel ShapeModel BinModel ReshapeModel FactoryModel DiagModel TraceModel.
Open Scope Z_scope.

(** L963-965 / L1681-1683: the key is gathered on every rank, then nonzero: the coordinates each rank works with *)
Definition mask_rows (m : dnd bool) : list (list (list Z)) :=
  nonzero_rows (fun b => b) (match d_split m with Some _ => resplit_none false m | None => m end).

(** self_proxy[key], L1032: torch's bounds check of the coordinates (they are not negative) *)
Definition coords_ok (gsh : list Z) (ks : list (list Z)) : bool :=
  forallb (fun k => forallb (fun p => fst p <? snd p) (combine k gsh)) ks.
(** L1025-1027: self_proxy[0, ..., key[i], ..., 0] needs an element along every other axis *)
Definition probes_ok (gsh : list Z) : bool := (length gsh <? 2)%nat || negb (existsb (Z.eqb 0) gsh).

(** torch advanced indexing t[k0, k1, ...] with one coordinate list *)
Definition take {A} (t : arr A) (ks : list (list Z)) : arr A :=
  mk_arr [Z.of_nat (length ks)] (fun idx => adat t (nth (Z.to_nat (nth 0 idx 0)) ks [])).
(** L1055-1060: this rank's range, from counts_displs(): the layout the array has *)
Definition real_start {A} (x : dnd A) (s r : nat) : Z := zsum (firstn r (lcounts x s)).
Definition in_range (s : nat) (lo hi : Z) (k : list Z) : bool := (lo <=? nth s k 0) && (nth s k 0 <? hi).

(** L1070-1109 on one rank; one selected element or none: the first test fails (len > 1), the key is neither a
    slice nor singular (the probe has one axis), so the empty tensor of L1053 is the result *)
Definition get_local {A} (x : dnd A) (s r : nat) (t : arr A) (ks : list (list Z)) : arr A :=
  let lo := real_start x s r in
  let hi := lo + nth r (lcounts x s) 0 in
  if (1 <? length ks)%nat
  then take t (map (fun k => upd k s (nth s k 0 - lo)) (filter (in_range s lo hi) ks))
  else take t [].

Definition mask_get {A} (x : dnd A) (m : dnd bool) : res (dnd A) :=
  let rows := mask_rows m in
  let ks := hd [] rows in
  if negb (probes_ok (d_gshape x)) then Err IndexError
  else if negb (coords_ok (d_gshape x) ks) then Err IndexError
  else
    let new_split := match d_split x with Some _ => Some 0%nat | None => None end in        (* L1034-1039 *)
    let locals := if is_dist x
      then match d_split x with
           | Some s => map (fun p => get_local x s (fst p) (snd p) (nth (fst p) rows [])) (ranked (d_locals x))
           | None => [] end
      else map (fun p => take (snd p) (nth (fst p) rows [])) (ranked (d_locals x)) in       (* L1046-1050 *)
    Ok (mk_dnd locals [Z.of_nat (length ks)] new_split).

(** torch's t[k0, k1, ...] = v: every coordinate must be inside, negative ones count from the end *)
Definition wrap (n i : Z) : Z := if i <? 0 then i + n else i.
Definition put {A} (v : A) (t : arr A) (ks : list (list Z)) : res (arr A) :=
  if forallb (fun k => forallb (fun p => (- snd p <=? fst p) && (fst p <? snd p)) (combine k (ash t))) ks
  then let ks' := map (fun k => map (fun p => wrap (snd p) (fst p)) (combine k (ash t))) ks in
       Ok (mk_arr (ash t) (fun idx => if existsb (eqb_idx idx) ks' then v else adat t idx))
  else Err IndexError.

Definition set_local {A} (v : A) (x : dnd A) (r : nat) (t : arr A) (ks : list (list Z)) : res (arr A) :=
  match d_split x with
  | None => put v t ks                                                                      (* L1778-1779 *)
  | Some s =>
      let lo := real_start x s r in let hi := lo + nth r (lcounts x s) 0 in
      let lo' := my_off x r in                                                              (* L1785-1793: comm.chunk *)
      let hi' := lo' + nth r (zcounts (nth s (d_gshape x) 0) (length (d_locals x))) 0 in
      match ks with
      | [k] =>                                                                              (* L1746-1750: .item() *)
          if is_dist x
          then if in_range s lo' hi' k                                                      (* L1902-1905 *)
               then put v t [upd k s (nth s k 0 - lo')] else Ok t
          else put v t [k]
      | _ =>
          let ks' := filter (in_range s lo hi) ks in                                        (* L1763-1773 *)
          if is_dist x then put v t (map (fun k => upd k s (nth s k 0 - lo')) ks')          (* L1896-1900 *)
          else put v t ks'
      end
  end.
Definition mask_set {A} (v : A) (x : dnd A) (m : dnd bool) : res (dnd A) :=
  let rows := mask_rows m in
  do ls <- all_ok (map (fun p => set_local v x (fst p) (snd p) (nth (fst p) rows [])) (ranked (d_locals x)));
  Ok (mk_dnd ls (d_gshape x) (d_split x)).
