(** Model of heat/core/manipulations.py pad L1427-1748 (mode "constant"; other modes are not
    modelled).  One list entry per rank.  [junk]: the contents of torch.empty. *)
From Verif Require Import Base LayoutModel NdSpec TensorSpec OpsModel ShapeModel ReshapeModel RollModel FactoryModel PadSpec.
Open Scope Z_scope.

Fixpoint flat_pairs {X} (l : list (list X)) : list X :=         (* for p in l: acc = p + acc *)
  match l with [] => [] | p :: t => flat_pairs t ++ p end.
Fixpoint times {X} (k : nat) (l : list X) : list X := match k with O => [] | S k' => l ++ times k' l end.
Definition odd_len {X} (l : list X) : bool := Nat.odd (length l).

(** L1534-1588: the width argument as torch's flat tuple, last axis first *)
Definition is_pi (x : pitem) : bool := match x with PI _ => true | _ => false end.
Definition flat_widths (n : nat) (p : pad_arg) : res (list Z) :=
  match p with
  | POther => Err TypeError                                                          (* L1538-1541 *)
  | PInt z => Ok (times n [z; z])                                                    (* L1535-1536 *)
  | PSeq [PI z] => Ok (times n [z; z])                                               (* L1545-1546 *)
  | PSeq [PL l] => if Nat.eqb (length l) 2 then Ok (times n l) else Err ValueError   (* L1551-1557 *)
  | PSeq [PI b; PI e] => Ok (times n [b; e])                                         (* L1559-1561 *)
  | PSeq l =>
      if existsb is_pi l then Err TypeError                                          (* L1565-1569 *)
      else
        let pad := flat_pairs (map (fun x => match x with PL q => q | PI _ => [] end) l) in (* L1570-1575 *)
        if odd_len pad then Err ValueError                                           (* L1577-1581 *)
        else if (n <? Nat.div2 (length pad))%nat then Err ValueError                 (* L1583-1588 *)
        else Ok pad
  end.

(** L1590-1618: the fill argument as one flat tuple, in the order of the widths *)
Definition is_ci {A} (x : citem A) : bool := match x with CI _ => true | _ => false end.
Definition flat_values {A} (npad : nat) (c : fill_arg A) : res (list A) :=
  match c with
  | CV _ => Ok []
  | CSeq [] => Err IndexError                                                        (* L1594 constant_values[0] *)
  | CSeq (CL q :: t) =>
      do vt <- (match t with
                | [] => Ok (times npad q)                                            (* L1596-1597 *)
                | _ => if existsb is_ci t then Err TypeError                         (* L1604-1608 *)
                       else Ok (flat_pairs (map (fun x => match x with CL q => q | CI _ => [] end) (CL q :: t))) (* L1598-1609 *)
                end);
      if odd_len vt then Err ValueError else Ok vt                                   (* L1611-1614 *)
  | CSeq [CI b; CI e] => Ok (times npad [b; e])                                      (* L1617-1618 *)
  | CSeq [CI b; CL _] => if Nat.eqb npad 0 then Ok [] else Err TypeError             (* a sequence as fill value: torch *)
  | CSeq _ => Ok []
  end.

(** torch.nn.functional.pad(t, pad, "constant", v): pad[2j], pad[2j+1] belong to axis n-1-j *)
Definition before (n : nat) (pad : list Z) (k : nat) : Z := nth (2 * (n - 1 - k)) pad 0.
Definition after (n : nat) (pad : list Z) (k : nat) : Z := nth (2 * (n - 1 - k) + 1) pad 0.
Definition torch_pad {A} (t : arr A) (pad : list Z) (v : A) : res (arr A) :=
  let sh := ash t in
  let n := length sh in
  if odd_len pad || (2 * n <? length pad)%nat then Err RuntimeError
  else
    let nsh := map (fun k => nth k sh 0 + before n pad k + after n pad k) (seq 0 n) in
    if existsb (fun e => e <? 0) nsh then Err RuntimeError
    else Ok (mk_arr nsh (fun idx =>
           if forallb (fun k => let j := nth k idx 0 - before n pad k in (0 <=? j) && (j <? nth k sh 0)) (seq 0 n)
           then adat t (map (fun k => nth k idx 0 - before n pad k) (seq 0 n)) else v)).

(** L1664-1672, L1728-1736: one side at a time, last position first *)
Definition pad_side {A} (n : nat) (pad : list Z) (vt : list A) (m : res (arr A)) (i : nat) : res (arr A) :=
  do t <- m;
  match nth_error vt i, nth_error pad i with
  | Some v, Some w => if (i <? 2 * n)%nat then torch_pad t (upd (repeat 0 (2 * n)) i w) v else Err IndexError
  | _, _ => Err IndexError
  end.
(** L1653-1672, L1718-1736: the padding of one local tensor *)
Definition pad_local {A} (n : nat) (t : arr A) (pad : list Z) (c : fill_arg A) (vt : list A) : res (arr A) :=
  match c with
  | CV v => torch_pad t pad v
  | CSeq [CI v] => torch_pad t pad v
  | _ => fold_left (pad_side n pad vt) (rev (seq 0 (length vt))) (Ok t)
  end.

(** L1630-1636: output_shape (not always the shape of the result) *)
Definition out_shape (gsh pad : list Z) : list Z :=
  let n := length gsh in map (fun k => nth k gsh 0 + before n pad k + after n pad k) (seq 0 n).
(** L1699-1702 *)
Definition last_with_data (gsh : list Z) (s P : nat) : Z :=
  if nth s gsh 0 <=? Z.of_nat P then nth s gsh 0 - 1 else Z.of_nat P - 1.
(** L1621-1622 split in pad_dim *)
Definition pads_axis (n : nat) (pad : list Z) (s : nat) : bool := (n - Nat.div2 (length pad) <=? s)%nat.
(** L1689-1716: the widths rank [r] uses *)
Definition rank_widths (n : nat) (pad : list Z) (gsh : list Z) (s P r : nat) : list Z :=
  let i := (2 * (n - s - 1))%nat in
  if Nat.eqb r 0 then upd pad (i + 1) 0
  else if Z.of_nat r =? last_with_data gsh s P then upd pad i 0
  else upd (upd pad i 0) (i + 1) 0.

(** L1641-1736: what rank [r] computes *)
Definition pad_rank {A} (junk : A) (gsh : list Z) (split : option nat) (P : nat) (pad : list Z) (c : fill_arg A) (vt : list A)
    (r : nat) (t : arr A) : res (arr A) :=
  let n := length gsh in
  if existsb (Z.eqb 0) (ash t) then                                                  (* L1641-1649 *)
    Ok (mk_arr (match split with Some s => upd (out_shape gsh pad) s 0 | None => out_shape gsh pad end) (fun _ => junk))
  else match split with
       | Some s => if pads_axis n pad s && negb (Nat.eqb P 1)                        (* L1651 *)
                   then pad_local n t (rank_widths n pad gsh s P r) c vt
                   else pad_local n t pad c vt
       | None => pad_local n t pad c vt
       end.

(** the whole function; [dflt]: only to fill nonexistent positions when slabs are moved *)
Definition pad {A} (dflt junk : A) (x : dnd A) (p : pad_arg) (c : fill_arg A) : res (dnd A) :=
  match p with
  | PInt 0 => Ok x                                                                   (* L1524-1526 *)
  | _ =>
    let gsh := d_gshape x in let n := length gsh in let P := length (d_locals x) in
    do w <- flat_widths n p;
    do vt <- flat_values (Nat.div2 (length w)) c;
    do ls <- all_ok (map (fun q => pad_rank junk gsh (d_split x) P w c vt (fst q) (snd q)) (combine (seq 0 P) (d_locals x)));
    match d_split x with
    | None => Ok (mk_dnd ls (ash (hd (mk_arr [] (fun _ => junk)) ls)) None)          (* array(obj), L1738-1744 *)
    | Some s => do yb <- array_is_split ls s; balance_nd dflt (fst yb) s             (* L1738-1748 *)
    end
  end.
