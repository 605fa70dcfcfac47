(** Model of heat/core/relational.py equal (L87-187) and heat/core/logical.py allclose (L109-160),
    isclose (L229-284), __sanitize_close_input (L470-537).  Both operands are DNDarrays on one
    communicator of P ranks, one list entry per rank; type promotion is not modelled.
    [eqb] / [close]: the comparison of two elements (torch.equal; |a-b| <= atol + rtol*|b|). *)
From Verif Require Import Base LayoutModel NdSpec TensorSpec OpsModel RedistModel ShapeModel BinModel RollModel RepeatModel.
Open Scope Z_scope.

Definition first_arr {A} (dflt : A) (x : dnd A) : arr A := nth 0 (d_locals x) (mk_arr [] (fun _ => dflt)).
(** dndarray.py L1252-1269 item: gathered on every rank, then torch's item *)
Definition item {A} (dflt : A) (x : dnd A) : A :=
  let t := first_arr dflt (resplit_none dflt x) in adat t (map (fun _ => 0) (ash t)).

(** relational.py L182-187: torch.equal on the local tensors where the first one is not empty *)
Definition local_equal {A} (eqb : A -> A -> bool) (t1 t2 : arr A) : bool :=
  if zprod (ash t1) =? 0 then true
  else eqb_idx (ash t1) (ash t2) && forallb (fun idx => eqb (adat t1 idx) (adat t2 idx)) (row_major (ash t1)).

(** relational.py L112-187.  [py]: what a number goes through when it is turned into a Python
    number (item) and back into a tensor (factories.array, L113-114) *)
Definition ht_equal {A} (dflt : A) (py : A -> A) (eqb : A -> A -> bool) (u1 u2 : bnd A) : res bool :=
  let x := b_arr u1 in let y := b_arr u2 in let P := length (d_locals x) in
  if zprod (d_gshape x) =? 1                                                              (* L126-127, L120-123 *)
  then Ok (if zprod (d_gshape y) =? 1 then eqb (py (item dflt x)) (py (item dflt y)) else false)
  else if zprod (d_gshape y) =? 1 then Ok false                                           (* L128-129, L116-119 *)
  else if negb (eqb_idx (d_gshape x) (d_gshape y)) then Ok false                          (* L132-133 *)
  else
    do p <- match d_split x, d_split y with
            | None, None => Ok (x, y)                                                     (* L135-136 *)
            | None, Some s =>                                                             (* L137-153 *)
                Ok (cut_map x s (if is_bal u2 then zcounts (nth s (d_gshape x) 0) P else lcounts y s), y)
            | Some s, None =>                                                             (* L154-170 *)
                Ok (x, cut_map y s (if is_bal u1 then zcounts (nth s (d_gshape y) 0) P else lcounts x s))
            | Some s, Some t =>
                if negb (Nat.eqb s t) then Err ValueError                                 (* L171-174 *)
                else if negb (is_bal u1 && is_bal u2) && negb (eqb_idx (lcounts x s) (lcounts y s))
                then do x' <- balance_nd dflt x s; do y' <- balance_nd dflt y s; Ok (x', y')  (* L175-180 *)
                else Ok (x, y)
            end;
    Ok (forallb (fun q => local_equal eqb (fst q) (snd q)) (combine (d_locals (fst p)) (d_locals (snd p)))).

(** DNDarray.is_distributed *)
Definition distributed {A} (x : dnd A) : bool :=
  match d_split x with Some _ => (1 <? length (d_locals x))%nat | None => false end.
(** factories.array(tensor, split=s): every rank has the whole tensor and keeps its chunk;
    sanitize_axis rejects an axis the tensor does not have *)
Definition scatter {A} (y : dnd A) (s : nat) : res (bnd A) :=
  if (length (d_gshape y) <=? s)%nat then Err ValueError
  else Ok (mk_bnd (cut_map y s (zcounts (nth s (d_gshape y) 0) (length (d_locals y)))) (Some true)).
(** logical.py L515-537.  resplit of a 0-dimensional array: sanitize_axis turns any axis into None *)
Definition sanitize_close {A} (dflt : A) (u1 u2 : bnd A) : res (dnd A * dnd A) :=
  let x := b_arr u1 in let y := b_arr u2 in
  if distributed x && negb (distributed y) && (0 <? length (d_gshape y))%nat then          (* L516-519 *)
    match d_split x with
    | None => Ok (x, y)
    | Some s => do t2 <- scatter y s;
                do z <- sanitize_dist dflt t2 s (nth s (d_gshape x) 0) (lcounts x s) (is_bal u1); Ok (x, z)
    end
  else if distributed y && negb (distributed x) && (0 <? length (d_gshape x))%nat then     (* L522-525 *)
    match d_split y with
    | None => Ok (x, y)
    | Some s => do t1 <- scatter x s;
                do z <- sanitize_dist dflt t1 s (nth s (d_gshape y) 0) (lcounts y s) (is_bal u2); Ok (z, y)
    end
  else if oeqb (d_split x) (d_split y) then Ok (x, y)                                      (* L531-532 *)
  else match d_split x with                                                                (* L527-529 *)
       | None => Ok (x, to_split dflt y None)
       | Some s => if (length (d_gshape y) =? 0)%nat then Ok (x, y)
                   else if (length (d_gshape y) <=? s)%nat then Err ValueError
                   else Ok (x, to_split dflt y (Some s))
       end.

(** torch broadcasting of two local tensors of any dimensions *)
Definition pad_arr {A} (n : nat) (t : arr A) : arr A :=
  mk_arr (repeat 1 (n - length (ash t)) ++ ash t) (fun idx => adat t (skipn (n - length (ash t)) idx)).
Definition local_close {A} (close : A -> A -> bool) (t1 t2 : arr A) : res (arr bool) :=
  let n := Nat.max (length (ash t1)) (length (ash t2)) in bop close (pad_arr n t1) (pad_arr n t2).
(** logical.py L148-160: torch.allclose on every rank, then a logical AND over the ranks *)
Definition allclose {A} (dflt : A) (close : A -> A -> bool) (u1 u2 : bnd A) : res bool :=
  do p <- sanitize_close dflt u1 u2;
  do ls <- all_ok (map (fun q => local_close close (fst q) (snd q)) (combine (d_locals (fst p)) (d_locals (snd p))));
  Ok (forallb (fun t => forallb (fun b => b) (flat t)) ls).
(** logical.py L250-284.  [gathered r]: whatever comm.Allgather(_local_isclose, res) leaves in
    the buffer [res], a tensor of the whole result's shape, on rank r *)
Definition isclose {A} (dflt : A) (close : A -> A -> bool) (gathered : nat -> list Z -> bool) (u1 u2 : bnd A) : res (dnd bool) :=
  do p <- sanitize_close dflt u1 u2;
  do ls <- all_ok (map (fun q => local_close close (fst q) (snd q)) (combine (d_locals (fst p)) (d_locals (snd p))));
  let x := fst p in
  if distributed x                                                                          (* L256-268 *)
  then let n := Nat.max (length (d_gshape x)) (length (d_gshape (snd p))) in
       do osh <- bshape (repeat 1 (n - length (d_gshape x)) ++ d_gshape x) (repeat 1 (n - length (d_gshape (snd p))) ++ d_gshape (snd p));
       Ok (mk_dnd (map (fun r => mk_arr osh (gathered r)) (seq 0 (length (d_locals x)))) osh (d_split x))
  else Ok (mk_dnd ls (ash (first_arr true (mk_dnd ls [] None))) None).                      (* L269-282 *)
