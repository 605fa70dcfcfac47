(** Model of heat/core/linalg/basics.py matmul, L545-904, on CPU, for operands of one data
    type (the promotions of L664-682 and the GPU type changes are not modelled).  [add] and
    [mul] are the operations of that type; one list entry per rank.  The loops with
    broadcasts (L839-888) are modelled per rank with their pre-fetching. *)
From Verif Require Import Base LayoutModel TensorSpec NdSpec OpsModel ShapeModel BinModel ReshapeModel FactoryModel.
Open Scope Z_scope.

Section Matmul.
Context {V : Type}.
Variables (zero : V) (add mul : V -> V -> V).

(** torch.matmul of two tensors of the same dimension >= 2; equal batch extents (torch also
    broadcasts them; L618-619 have made them equal) *)
Definition mm (a b : arr V) : res (arr V) :=
  let n := length (ash a) in
  let K := nth (n - 1) (ash a) 0 in
  if (2 <=? n)%nat && Nat.eqb (length (ash b)) n && eqb_idx (firstn (n - 2) (ash a)) (firstn (n - 2) (ash b)) && (K =? nth (n - 2) (ash b) 0)
  then Ok (mk_arr (upd (ash a) (n - 1) (nth (n - 1) (ash b) 0))
             (fun idx => fold_right add zero (map (fun k => mul (adat a (upd idx (n - 1) k)) (adat b (upd idx (n - 2) k))) (zr K))))
  else Err RuntimeError.

(** t[..., start:stop, ...] along axis [s], 0 <= start (Python clamps both to the extent) *)
Definition slice_axis (s : nat) (start stop : Z) (t : arr V) : arr V :=
  let n := nth s (ash t) 0 in
  mk_arr (upd (ash t) s (Z.max 0 (Z.min stop n - Z.min start n))) (fun idx => adat t (move_axis_idx s (Z.min start n) idx)).

(** c += x, broadcasting x *)
Definition fits (sh x : list Z) : bool := match bshape sh x with Ok o => eqb_idx o sh | Err _ => false end.
Definition iadd (c x : arr V) : res (arr V) :=
  if fits (ash c) (ash x)
  then Ok (mk_arr (ash c) (fun idx => add (adat c idx) (adat x (bclamp (ash x) idx))))
  else Err RuntimeError.
(** c[..., r0:r1, c0:c1] += x, starts non-negative *)
Definition iadd_block (r0 r1 c0 c1 : Z) (c x : arr V) : res (arr V) :=
  let n := length (ash c) in
  let v := slice_axis (n - 1) c0 c1 (slice_axis (n - 2) r0 r1 c) in
  if fits (ash v) (ash x)
  then Ok (mk_arr (ash c) (fun idx =>
         let i := nth (n - 2) idx 0 in let j := nth (n - 1) idx 0 in
         if (r0 <=? i) && (i <? r1) && (c0 <=? j) && (j <? c1)
         then add (adat c idx) (adat x (bclamp (ash x) (upd (upd idx (n - 2) (i - r0)) (n - 1) (j - c0))))
         else adat c idx))
  else Err RuntimeError.
Definition zeros (sh : list Z) : arr V := mk_arr sh (fun _ => zero).

(** comm.chunk(shape, split)[2][axis] of rank r: start and stop *)
Definition chunk_slice (sh : list Z) (split : option nat) (axis r P : nat) : Z * Z :=
  let o := if match split with Some s => Nat.eqb s axis | None => false end then chunk_off sh split r P else 0 in
  (o, o + nth axis (chunk_lsh sh split r P) 0).

(** * the loops L839-863 and L869-888: broadcast the chunk of process [proc], work on the one
    of [proc - 1].  [chunk p]: what process p broadcasts; [work]: L856-862, L886-887 *)
Definition pre_fetching : nat := 1.
Definition bcast_loop (P : nat) (chunk : nat -> arr V) (work : nat -> arr V -> arr V -> res (arr V)) (c : arr V) : res (arr V) :=
  do st <- fold_left (fun m proc =>
      do st <- m;
      let '(c, chunks) := st in
      let chunks := if (proc <? P)%nat then (proc, chunk proc) :: chunks else chunks in
      if (pre_fetching <=? proc)%nat
      then let q := (proc - pre_fetching)%nat in
           match find (fun p => Nat.eqb (fst p) q) chunks with
           | None => Err IndexError (* KeyError *)
           | Some p => do c' <- work q (snd p) c; Ok (c', filter (fun p => negb (Nat.eqb (fst p) q)) chunks)
           end
      else Ok (c, chunks)) (seq 0 (P + pre_fetching)) (Ok (c, []));
  Ok (fst st).

Definition ranked_dnd (x : dnd V) : list (nat * arr V) := combine (seq 0 (length (d_locals x))) (d_locals x).
Definition local (x : dnd V) (r : nat) : arr V := nth r (d_locals x) (zeros []).

(** what the branches leave behind: a finished array (early out), a tensor every rank holds
    and that is to be split, pieces to be joined (is_split), or the distributed buffer c *)
Inductive outcome :=
| Early (y : dnd V)
| Whole (cs : list (arr V)) (split : nat)
| Pieces (cs : list (arr V)) (split : nat)
| Buffer (c : dnd V).

(** * two operands of the same dimension [n] >= 2 (vectors already expanded), more than one
    process, L697-888 *)
Definition matmul_nd (a b : dnd V) (allow_resplit : bool) : res outcome :=
  let n := length (d_gshape a) in
  let P := length (d_locals a) in
  let batch := firstn (n - 2) (d_gshape a) in
  let csh := batch ++ [nth (n - 2) (d_gshape a) 0; nth (n - 1) (d_gshape b) 0] in           (* L736 *)
  let pairs := combine (d_locals a) (d_locals b) in
  let local_mm := all_ok (map (fun p => mm (fst p) (snd p)) pairs) in
  match d_split a, d_split b with
  | None, None =>
      if allow_resplit then                                                                 (* L698-707 *)
        let la' := map (fun p => mk_arr (chunk_shape (d_gshape a) (n - 2) (fst p) P)
                     (fun idx => adat (snd p) (move_axis_idx (n - 2) (chunk_start (d_gshape a) (n - 2) (fst p) P) idx))) (ranked_dnd a) in
        do cs <- all_ok (map (fun p => let '(r, (la, lb)) := p in
                    let '(st, sp) := chunk_slice (d_gshape a) (Some (n - 2)%nat) 0 r P in   (* L700: index 0 *)
                    do hold <- mm la lb;
                    iadd_block st sp 0 (nth (n - 1) csh 0) (zeros csh) hold)
                  (combine (seq 0 P) (combine la' (d_locals b))));
        Ok (Early (mk_dnd (allreduce add cs) csh None))
      else do cs <- local_mm; Ok (Early (mk_dnd cs csh None))                               (* L708-714 *)
  | Some s, None =>
      if (s <? n - 2)%nat || Nat.eqb s (n - 2)                                              (* L715-722; 0-None L743-749 *)
      then do cs <- local_mm; Ok (Pieces cs s)
      else                                                                                  (* 1-None, L751-763 *)
        do cs <- all_ok (map (fun p => let '(r, (la, lb)) := p in
                    let st := fst (chunk_slice (d_gshape a) (Some s) (n - 1) r P) in
                    do x <- mm la (slice_axis (n - 2) st (st + nth (n - 1) (ash la) 0) lb);
                    iadd (zeros csh) x) (combine (seq 0 P) pairs));
        Ok (Whole (allreduce add cs) s)
  | None, Some s =>
      if Nat.eqb s (n - 1) then do cs <- local_mm; Ok (Pieces cs s)                         (* None-1 *)
      else                                                                                  (* None-0, L765-774 *)
        do cs <- all_ok (map (fun p => let '(r, (la, lb)) := p in
                    let st := fst (chunk_slice (d_gshape b) (Some s) (n - 2) r P) in
                    do x <- mm (slice_axis (n - 1) st (st + nth (n - 2) (ash lb) 0) la) lb;
                    iadd (zeros csh) x) (combine (seq 0 P) pairs));
        Ok (Whole (allreduce add cs) s)
  | Some sa, Some sb =>
      if (sa <? n - 2)%nat then do cs <- local_mm; Ok (Pieces cs sa)                        (* L715-722 *)
      else
        let b := if Nat.eqb sa (n - 1) && Nat.eqb sb (n - 2) then resplit_any zero b (Some sa) else b in    (* L804-807 *)
        let aidx k p := chunk_slice (d_gshape a) (Some sa) k p P in                         (* L816-824 *)
        let bidx k p := chunk_slice (d_gshape b) (d_split b) k p P in
        let c0 r := zeros (chunk_shape csh sa r P) in                                       (* L827-828 *)
        do cs <- all_ok (map (fun r =>
           let la := local a r in let lb := local b r in
           if Nat.eqb sa (n - 2) then
             if match d_split b with Some s => Nat.eqb s (n - 2) | None => false end then   (* 00, L856-858 *)
               bcast_loop P (local b) (fun q bq c =>
                 let '(st, sp) := bidx (n - 2)%nat q in
                 do x <- mm (slice_axis (n - 1) st sp la) bq; iadd c x) (c0 r)
             else                                                                           (* 01, L859-862 *)
               bcast_loop P (local b) (fun q bq c =>
                 let '(st0, sp0) := let '(u, v) := aidx (n - 2)%nat q in (u, v + 1) in      (* L819: stop + 1 *)
                 let '(st1, sp1) := bidx (n - 1)%nat q in
                 do x <- mm la bq; iadd_block 0 (sp0 - st0) st1 sp1 c x) (c0 r)
           else                                                                             (* 11, L886-887 *)
             bcast_loop P (local a) (fun q aq c =>
               let '(st, sp) := aidx (n - 1)%nat q in
               do x <- mm aq (slice_axis (n - 2) st sp lb); iadd c x) (c0 r)) (seq 0 P));
        Ok (Buffer (mk_dnd cs csh (Some sa)))
  end.

(** L788-798, L904: the result for matrix operands *)
Definition finish_matrix (P : nat) (o : outcome) : res (dnd V) :=
  match o with
  | Early y | Buffer y => Ok y
  | Whole cs s => array_split P (hd (zeros []) cs) (AxInt (Z.of_nat s))
  | Pieces cs s => do y <- array_is_split cs s; Ok (fst y)
  end.

(** the squeeze of a result, L777-786 and L890-902 (no batch dimensions, L655-658) *)
Definition squeeze_vec (t : arr V) : arr V :=
  if zprod (ash t) =? 0 then zeros [0]
  else if nth 0 (ash t) 0 =? 1 then mk_arr (skipn 1 (ash t)) (fun idx => adat t (0 :: idx))
  else if nth 1 (ash t) 0 =? 1 then mk_arr (firstn 1 (ash t)) (fun idx => adat t (idx ++ [0]))
  else t.
Definition finish_vector (P : nat) (o : outcome) : res (dnd V) :=
  match o with
  | Early y => Ok (mk_dnd (map squeeze_vec (d_locals y)) (ash (squeeze_vec (zeros (d_gshape y)))) None)   (* torch.matmul itself squeezes *)
  | Whole cs s => array_split P (squeeze_vec (hd (zeros []) cs)) (AxInt 0)                  (* L779-780: split 0 or 1 becomes 0 *)
  | Pieces cs s => do y <- array_is_split (map squeeze_vec cs) 0; Ok (fst y)
  | Buffer c => do y <- array_is_split (map squeeze_vec (d_locals c)) 0; Ok (fst y)         (* L890-902 *)
  end.

(** * matmul, more than one process, two vectors (L689-695): both operands are re-split in
    place along axis 0; returns the result and the operands as the call leaves them *)
Definition to_split0 (x : dnd V) : dnd V :=
  match d_split x with
  | Some _ => x
  | None => mk_dnd (map (fun p => mk_arr (chunk_shape (d_gshape x) 0 (fst p) (length (d_locals x)))
              (fun idx => adat (snd p) (move_axis_idx 0 (chunk_start (d_gshape x) 0 (fst p) (length (d_locals x))) idx))) (ranked_dnd x))
              (d_gshape x) (Some 0%nat)
  end.
Definition vdot_local (a b : arr V) : res (arr V) :=
  if nth 0 (ash a) 0 =? nth 0 (ash b) 0
  then Ok (mk_arr [] (fun _ => fold_right add zero (map (fun k => mul (adat a [k]) (adat b [k])) (zr (nth 0 (ash a) 0)))))
  else Err RuntimeError.
Definition matmul_vv (a b : dnd V) : res (dnd V * dnd V * dnd V) :=
  let a' := to_split0 a in let b' := to_split0 b in
  do cs <- all_ok (map (fun p => vdot_local (fst p) (snd p)) (combine (d_locals a') (d_locals b')));
  Ok (mk_dnd (allreduce add cs) [] None, a', b').

(** * matmul, L615-658 and dispatch; [None]-split result for a single process (L685-686) *)
Definition matmul (a b : dnd V) (allow_resplit : bool) : res (dnd V) :=
  let na := length (d_gshape a) in let nb := length (d_gshape b) in
  let bd := (Nat.max na nb - 2)%nat in                                                      (* batch_dim, at least 0 here *)
  let P := length (d_locals a) in
  let va := Nat.eqb na (nb - 1) && (1 <=? nb)%nat in let vb := Nat.eqb nb (na - 1) && (1 <=? na)%nat && negb va in
  if (2 <? Nat.max na nb)%nat && negb (eqb_idx (firstn bd (d_gshape a)) (firstn bd (d_gshape b))) then Err ValueError   (* L618-619 *)
  else if negb (va || vb) && negb (Nat.eqb na nb) then Err ValueError                       (* L632-633 *)
  else if Nat.eqb na 1 && Nat.eqb nb 1 then                                                 (* no check of the lengths *)
    if Nat.eqb P 1 then
      do cs <- all_ok (map (fun p => vdot_local (fst p) (snd p)) (combine (d_locals a) (d_locals b))); Ok (mk_dnd cs [] None)
    else do r <- matmul_vv a b; Ok (fst (fst r))
  else if negb (nth (na - 1) (d_gshape a) 0 =? (if vb then nth (nb - 1) (d_gshape b) 0 else nth (nb - 2) (d_gshape b) 0))
       then Err (if vb && Nat.eqb nb 1 then IndexError else ValueError)                     (* L635-641: the message reads b.gshape[-2] *)
  else if (0 <? bd)%nat && ((match d_split a with Some s => (s <? bd)%nat | None => false end
                             || match d_split b with Some s => (s <? bd)%nat | None => false end)
                            && negb (match d_split a, d_split b with Some s, Some t => Nat.eqb s t | None, None => true | _, _ => false end))
       then Err NotImplementedErr                                                           (* L643-654 *)
  else if (0 <? bd)%nat && (va || vb) then Err NotImplementedErr                            (* L655-658 *)
  else
    do a2 <- (if va then expand_dims a (AxInt (Z.of_nat bd)) else Ok a);                    (* L731-734 *)
    do b2 <- (if vb then expand_dims b (AxInt (Z.of_nat bd + 1)) else Ok b);
    if Nat.eqb P 1 then                                                                     (* L685-686 *)
      do cs <- all_ok (map (fun p => mm (fst p) (snd p)) (combine (d_locals a2) (d_locals b2)));
      let cs := if va || vb then map squeeze_vec cs else cs in
      Ok (mk_dnd cs (ash (hd (zeros []) cs)) None)
    else
      do o <- matmul_nd a2 b2 (allow_resplit && negb (va || vb));
      if va || vb then finish_vector P o else finish_matrix P o.
End Matmul.
Arguments outcome : clear implicits.
