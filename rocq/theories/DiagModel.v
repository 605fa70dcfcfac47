(** Model of tril/triu (heat/core/linalg/basics.py __tri_op L1923-1990), diag and diagonal
    (heat/core/manipulations.py L773-923), DNDarray.fill_diagonal (heat/core/dndarray.py
    L883-921) and nonzero (heat/core/indexing.py L16-82).  One list entry per rank. *)
From Verif Require Import Base LayoutModel NdSpec TensorSpec NdLemmas OpsModel RedistModel ShapeModel ShapeSpec BinModel ReshapeModel FactoryModel ConcatModel.
Open Scope Z_scope.

Definition ranked {A} (ls : list A) : list (nat * A) := combine (seq 0 (length ls)) ls.
Definition my_off {A} (x : dnd A) (r : nat) : Z := chunk_off (d_gshape x) (d_split x) r (length (d_locals x)).

(** * tril / triu *)
(** torch.tril / torch.triu on the last two axes *)
Definition tri_keep (lower : bool) (k i j : Z) : bool := if lower then j - i <=? k else k <=? j - i.
Definition torch_tri {A} (zero : A) (lower : bool) (k : Z) (t : arr A) : arr A :=
  let n := length (ash t) in
  mk_arr (ash t) (fun idx => if tri_keep lower k (nth (n - 2) idx 0) (nth (n - 1) idx 0) then adat t idx else zero).
Definition tri_op {A} (zero : A) (lower : bool) (m : dnd A) (k : Z) : res (dnd A) :=
  match d_gshape m with
  | [] => Err IndexError                                                  (* original[(slice, slice)] on a scalar *)
  | [n] =>                                                                 (* L1954-1967 *)
      Ok (mk_dnd (map (fun p => torch_tri zero lower (k - my_off m (fst p))
                                  (mk_arr [n; nth 0 (ash (snd p)) 0] (fun idx => adat (snd p) [nth 1 idx 0])))
                      (ranked (d_locals m))) [n; n] (match d_split m with None => None | Some _ => Some 1%nat end))
  | _ =>
      let nd := length (d_gshape m) in
      let kr r := match d_split m with                                    (* L1973-1977 *)
                  | None => k
                  | Some s => if Nat.eqb (s + 1) (nd - 1) then k + my_off m r
                              else if Nat.eqb s (nd - 1) then k - my_off m r else k
                  end in
      Ok (mk_dnd (map (fun p => torch_tri zero lower (kr (fst p)) (snd p)) (ranked (d_locals m))) (d_gshape m) (d_split m))
  end.

(** * diag of a vector, L811-847.  [junk]: the contents of factories.empty.
    A negative column index would wrap around in torch; here it is an error. *)
Definition balance_nd {A} (dflt : A) (x : dnd A) : res (dnd A) :=                     (* dndarray.py L601-603 *)
  match d_split x with
  | None => Ok x
  | Some s => let c := zcounts (nth s (d_gshape x) 0) (length (d_locals x)) in
              if eqb_idx (lcounts x s) c then Ok x else redistribute_nd dflt x s c
  end.
Definition diag_local {A} (zero : A) (N off l0 offset : Z) (t : arr A) : res (arr A) :=
  let lo := if offset <? 0 then Z.max 0 (Z.min (Z.abs offset - off) l0) else 0 in     (* L828, L834-836, L839 *)
  let hi := if 0 <? offset then Z.min l0 (Z.max (N - off - offset) 0) else l0 in
  if (lo <? hi) && ((lo + off + offset <? 0) || (N <=? hi - 1 + off + offset) || (nth 0 (ash t) 0 <? hi))
  then Err IndexError
  else Ok (mk_arr [l0; N] (fun idx => let i := nth 0 idx 0 in                          (* L844-845 *)
         if (lo <=? i) && (i <? hi) && (nth 1 idx 0 =? i + off + offset) then adat t [i] else zero)).
Definition diag {A} (zero : A) (junk : list Z -> A) (a : dnd A) (offset : Z) : res (dnd A) :=
  let P := length (d_locals a) in
  let N := nth 0 (d_gshape a) 0 + Z.abs offset in                                       (* L819 *)
  let pad := mk_dnd (repeat (mk_arr [Z.abs offset] junk) P) [Z.abs offset] None in
  do b <- (if 0 <? offset then concat2 zero a pad (AxInt 0)                             (* L827 *)
           else if offset <? 0 then concat2 zero pad a (AxInt 0)                        (* L833 *)
           else Ok a);
  do b <- balance_nd zero b;                                                            (* L842 *)
  do ls <- all_ok (map (fun p => diag_local zero N (chunk_off [N; N] (d_split a) (fst p) P)
                                    (nth 0 (chunk_lsh [N; N] (d_split a) (fst p) P) 0) offset (snd p))
                       (ranked (d_locals b)));
  match d_split b with
  | None => Ok (mk_dnd ls [N; N] None)
  | Some s => do y <- array_is_split ls s; Ok (fst y)                                   (* L847 *)
  end.

(** * diagonal, L886-923 *)
(** position of axis k once the axes [axes] are removed *)
Definition below (axes : list nat) (k : nat) : nat := length (filter (fun j => negb (existsb (Nat.eqb j) axes)) (seq 0 k)).
(** full index with coordinates i, j at d1, d2 and the others from [base] *)
Definition place (n d1 d2 : nat) (i j : Z) (base : list Z) : list Z :=
  map (fun k => if Nat.eqb k d1 then i else if Nat.eqb k d2 then j else nth (below [d1; d2] k) base 0) (seq 0 n).
(** torch.diagonal(t, offset, dim1, dim2) *)
Definition torch_diagonal {A} (off : Z) (d1 d2 : nat) (t : arr A) : arr A :=
  let n1 := nth d1 (ash t) 0 in let n2 := nth d2 (ash t) 0 in
  let size := if 0 <=? off then Z.max 0 (Z.min n1 (n2 - off)) else Z.max 0 (Z.min (n1 + off) n2) in
  mk_arr (drop_axes [d1; d2] (ash t) ++ [size])
         (fun idx => let p := nth (length (ash t) - 2) idx 0 in
                     adat t (place (length (ash t)) d1 d2 (p + Z.max 0 (- off)) (p + Z.max 0 off) idx)).
Definition diagonal {A} (a : dnd A) (offset : Z) (dim1 dim2 : Z) : res (dnd A) :=
  let nd := length (d_gshape a) in
  do axes <- norm_axes nd [dim1; dim2];                                                 (* L886 *)
  match axes with
  | [d1; d2] =>
    if Nat.eqb d1 d2 then Err ValueError                                                (* L888-889 *)
    else
      let x := Nat.min d1 d2 in let y := Nat.max d1 d2 in
      match d_split a with
      | None => let ls := map (torch_diagonal offset d1 d2) (d_locals a) in
                Ok (mk_dnd ls (match ls with t :: _ => ash t | [] => [] end) None)
      | Some s =>
          let split := if (s <? x)%nat then s                                           (* L906-913 *)
                       else if (x <? s)%nat && (s <? y)%nat then (s - 1)%nat
                       else if (y <? s)%nat then (s - 2)%nat
                       else (nd - 1 - 1)%nat in
          let offs r := if Nat.eqb s d1 then offset + my_off a r                        (* L915-922 *)
                        else if Nat.eqb s d2 then offset - my_off a r
                        else offset in
          do y <- array_is_split (map (fun p => torch_diagonal (offs (fst p)) d1 d2 (snd p)) (ranked (d_locals a))) split;
          Ok (fst y)
      end
  | _ => Err TypeError
  end.

(** * fill_diagonal, dndarray.py L894-921 *)
(** t[:, c0:c1].fill_diagonal_(v) (rows = false: t[c0:c1, :]) *)
Definition fill_block {A} (v : A) (cols : bool) (c0 c1 : Z) (t : arr A) : arr A :=
  mk_arr (ash t) (fun idx => let i := nth 0 idx 0 in let j := nth 1 idx 0 in
    let i' := if cols then i else i - c0 in let j' := if cols then j - c0 else j in
    if (i' =? j') && (if cols then (c0 <=? j) && (j <? c1) else (c0 <=? i) && (i <? c1)) then v else adat t idx).
Definition fill_diagonal {A} (v : A) (x : dnd A) : res (dnd A) :=
  if negb (Nat.eqb (length (d_gshape x)) 2) then Err ValueError                         (* L894-895 *)
  else
  let P := length (d_locals x) in
  match d_split x with
  | Some s =>
    if Nat.eqb P 1 then Ok (mk_dnd (map (fill_block v true 0 (nth 1 (d_gshape x) 0)) (d_locals x)) (d_gshape x) (d_split x))
    else
      let displ r := chunk_start (d_gshape x) s r P in                                  (* L898 *)
      let k := Z.min (nth 0 (d_gshape x) 0) (nth 1 (d_gshape x) 0) in
      let proc := fold_left (fun (b : bool * nat) p => if fst b || (k <? displ p) then (true, snd b) else (false, p))  (* L900-903 *)
                            (seq 0 P) (false, 0%nat) in
      Ok (mk_dnd (map (fun p => let r := fst p in
                        if (r <=? snd proc)%nat                                         (* L904 *)
                        then fill_block v (Nat.eqb s 0) (displ r) (if negb (Nat.eqb (r + 1) P) then displ (r + 1)%nat else k) (snd p)
                        else snd p) (ranked (d_locals x))) (d_gshape x) (d_split x))
  | None => Ok (mk_dnd (map (fill_block v true 0 (nth 1 (d_gshape x) 0)) (d_locals x)) (d_gshape x) (d_split x))   (* L919 *)
  end.

(** * nonzero: the rows of the result, rank by rank *)
Definition nonzero_rows {A} (nz : A -> bool) (x : dnd A) : list (list (list Z)) :=
  map (fun p => map (fun idx => match d_split x with                                    (* L59-61 *)
                                | Some s => upd idx s (nth s idx 0 + my_off x (fst p))
                                | None => idx
                                end)
                    (filter (fun idx => nz (adat (snd p) idx)) (row_major (ash (snd p)))))   (* L56 *)
      (ranked (d_locals x)).
(** L66-82: first extent of the result and its split *)
Definition nonzero_gshape {A} (nz : A -> bool) (x : dnd A) : Z :=
  match d_split x with
  | None => Z.of_nat (length (hd [] (nonzero_rows nz x)))
  | Some _ => zsum (map (fun l => Z.of_nat (length l)) (nonzero_rows nz x))
  end.
