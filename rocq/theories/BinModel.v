(** Model of heat/core/_operations.py __binary_op (L22-231, without out= and where=) and
    heat/core/sanitation.py sanitize_distribution (L33-155).  Both operands live on the
    same communicator of P ranks; dtype promotion is not modelled (the operation [f] is
    a function on elements). *)
From Verif Require Import Base LayoutModel NdSpec TensorSpec OpsModel RedistModel ShapeModel.
Open Scope Z_scope.

(** a DNDarray with its cached balanced flag *)
Record bnd (A : Type) := mk_bnd { b_arr : dnd A; b_flag : option bool }.
Arguments mk_bnd {A} _ _. Arguments b_arr {A} _. Arguments b_flag {A} _.

(** lshape_map[:, s] (assumed up to date, see C11) *)
Definition lcounts {A} (x : dnd A) (s : nat) : list Z := map (fun t => nth s (ash t) 0) (d_locals x).
Definition zcounts (n : Z) (P : nat) : list Z := map Z.of_nat (counts_of (Z.to_nat n) P).
(** dndarray.py L1205-1250 is_balanced(force_check=False) *)
Definition is_bal {A} (x : bnd A) : bool :=
  match b_flag x with
  | Some b => b
  | None => match d_split (b_arr x) with
            | None => true
            | Some s => eqb_idx (lcounts (b_arr x) s) (zcounts (nth s (d_gshape (b_arr x)) 0) (length (d_locals (b_arr x))))
            end
  end.

(** the slabs of a local array along axis s, and back: redistribute_ moves slabs *)
Definition slabs {A} (s : nat) (t : arr A) : list (list Z -> A) :=
  map (fun i idx => adat t (upd idx s (Z.of_nat i))) (seq 0 (Z.to_nat (nth s (ash t) 0))).
Definition unslabs {A} (dflt : A) (s : nat) (gsh : list Z) (l : list (list Z -> A)) : arr A :=
  mk_arr (upd gsh s (Z.of_nat (length l))) (fun idx => nth (Z.to_nat (nth s idx 0)) l (fun _ => dflt) idx).
(** manipulations.py L1805-1853 redistribute *)
Definition redistribute_nd {A} (dflt : A) (x : dnd A) (s : nat) (tmap : list Z) : res (dnd A) :=
  do d <- redistribute (length (d_locals x)) (map (slabs s) (d_locals x)) (Some (map Z.to_nat tmap));
  Ok (mk_dnd (map (unslabs dflt s (d_gshape x)) d) (d_gshape x) (d_split x)).

(** the slice [off, off+len) of a replicated array along axis s *)
Definition cut {A} (gsh : list Z) (s : nat) (t : arr A) (off len : Z) : arr A :=
  mk_arr (upd gsh s len) (fun idx => adat t (upd idx s (nth s idx 0 + off))).
Definition cut_map {A} (x : dnd A) (s : nat) (tmap : list Z) : dnd A :=
  mk_dnd (map (fun p => cut (d_gshape x) s (snd p) (zsum (firstn (fst p) tmap)) (nth (fst p) tmap 0))
              (combine (seq 0 (length (d_locals x))) (d_locals x))) (d_gshape x) (Some s).

(** sanitation.py L67-155 for one argument: [ts], [tsize], [tmap], [tbal] = target_split,
    target_size, target_map[:, target_split], target_balanced *)
Definition sanitize_dist {A} (dflt : A) (arg : bnd A) (ts : nat) (tsize : Z) (tmap : list Z) (tbal : bool) : res (dnd A) :=
  let x := b_arr arg in
  let P := length (d_locals x) in
  if (P =? 1)%nat then Ok x                                                           (* L68-72 *)
  else if (nth ts (d_gshape x) 0 =? 1) && (1 <? tsize) then Ok (resplit_none dflt x)  (* L109-110 *)
  else if negb (nth ts (d_gshape x) 0 =? tsize) then Err ValueError                   (* L111-114 *)
  else match d_split x with
       | None => if tbal then Ok (cut_map x ts (zcounts (nth ts (d_gshape x) 0) P))   (* L116-121 *)
                 else Ok (cut_map x ts tmap)                                          (* L122-136 *)
       | Some s =>
           if negb (s =? ts)%nat then Err NotImplementedErr                         (* L137-140 *)
           else if negb (tbal && is_bal arg)                                          (* L141-144 *)
                then if eqb_idx (lcounts x ts) tmap then Ok x
                     else redistribute_nd dflt x ts tmap                              (* L145-151 *)
                else Ok x                                                             (* L152-153 *)
       end.

(** torch broadcasting of one extent / of two local tensors of equal dimension *)
Definition bdim (a b : Z) : res Z :=
  if a =? b then Ok a else if a =? 1 then Ok b else if b =? 1 then Ok a else Err ValueError.
Fixpoint bshape (s1 s2 : list Z) : res (list Z) :=
  match s1, s2 with
  | [], [] => Ok []
  | a :: s1', b :: s2' => do o <- bdim a b; do os <- bshape s1' s2'; Ok (o :: os)
  | _, _ => Err ValueError
  end.
Fixpoint bclamp (sh idx : list Z) : list Z :=
  match sh, idx with n :: sh', i :: idx' => (if n =? 1 then 0 else i) :: bclamp sh' idx' | _, _ => [] end.
Definition bop {A B C} (f : A -> B -> C) (t1 : arr A) (t2 : arr B) : res (arr C) :=
  do sh <- bshape (ash t1) (ash t2);
  Ok (mk_arr sh (fun idx => f (adat t1 (bclamp (ash t1) idx)) (adat t2 (bclamp (ash t2) idx)))).

(** L136-139: expand_dims(axis=0) until the dimensions agree *)
Fixpoint pad_dims {A} (k : nat) (x : dnd A) : res (dnd A) :=
  match k with O => Ok x | S k' => do y <- expand_dims x (AxInt 0); pad_dims k' y end.

(** L181-190: the lshape_map in which the one rank holding data has the full extent *)
Definition full_map (m : list Z) (n : Z) : list Z := map (fun c => if c =? 0 then 0 else n) m.

(** L126 and L173-215 for operands of equal dimension *)
Definition bin_core {A B C} (da : A) (db : B) (f : A -> B -> C) (x1 : bnd A) (x2 : bnd B) : res (bnd C) :=
  let y1 := b_arr x1 in let y2 := b_arr x2 in
  do osh <- bshape (d_gshape y1) (d_gshape y2);                                       (* L126 *)
  let P := length (d_locals y1) in
  let dominant {T} (x : dnd T) := match d_split x with
      | Some s => if nth s (d_gshape x) 0 =? nth s osh 0 then Some s else None | None => None end in
  do r <- match dominant y1, dominant y2, d_split y1, d_split y2 with
          | Some s, _, _, _ =>                                                        (* L173-174 *)
              do z2 <- sanitize_dist db x2 s (nth s (d_gshape y1) 0) (lcounts y1 s) (is_bal x1);
              Ok (y1, z2, Some s, b_flag x1)
          | None, Some s, _, _ =>                                                     (* L175-176 *)
              do z1 <- sanitize_dist da x1 s (nth s (d_gshape y2) 0) (lcounts y2 s) (is_bal x2);
              Ok (z1, y2, Some s, b_flag x2)
          | None, None, Some s, _ =>                                                  (* L177-184 *)
              let m := full_map (lcounts y1 s) (nth s osh 0) in
              do z2 <- sanitize_dist db x2 s (zsum m) m (eqb_idx m (zcounts (zsum m) P));
              Ok (y1, z2, Some s, b_flag x1)
          | None, None, None, Some s =>                                               (* L185-192 *)
              let m := full_map (lcounts y2 s) (nth s osh 0) in
              do z1 <- sanitize_dist da x1 s (zsum m) m (eqb_idx m (zcounts (zsum m) P));
              Ok (z1, y2, Some s, b_flag x2)
          | None, None, None, None => Ok (y1, y2, None, b_flag x1)                    (* L193-194 *)
          end;
  let '(z1, z2, osplit, oflag) := r in
  do ls <- all_ok (map (fun p => bop f (fst p) (snd p)) (combine (d_locals z1) (d_locals z2)));  (* L204 *)
  Ok (mk_bnd (mk_dnd ls osh osplit) oflag).                                           (* L206-215 *)

(** L126-215: broadcast_shape rejects incompatible shapes before anything is expanded *)
Definition binary_op {A B C} (da : A) (db : B) (f : A -> B -> C) (u1 : bnd A) (u2 : bnd B) : res (bnd C) :=
  let n := Nat.max (length (d_gshape (b_arr u1))) (length (d_gshape (b_arr u2))) in
  do y1 <- pad_dims (n - length (d_gshape (b_arr u1))) (b_arr u1);                    (* L136-137 *)
  do y2 <- pad_dims (n - length (d_gshape (b_arr u2))) (b_arr u2);                    (* L138-139 *)
  bin_core da db f (mk_bnd y1 (b_flag u1)) (mk_bnd y2 (b_flag u2)).
