(** Model of heat/sparse: factories.py L164-372 (__sparse_matrix), dcsx_matrix.py L63-95
    (global_indptr), L123-205 (data, indices, indptr), L274-291 (counts_displs_nnz),
    _operations.py L17-209 (__binary_op_csx), manipulations.py L18-61 and L106-173.
    A torch sparse_csr / sparse_csc tensor is a [csx]; [col] tells which.  One list entry
    per rank.  Not modelled: device moves, out= (the assignment to the read-only property
    device at _operations.py L146 raises), float counts handed to MPI are taken as the
    integers they are equal to. *)
From Verif Require Import Base LayoutModel RedistModel TensorSpec NdSpec OpsModel ShapeModel BinModel RollModel FactoryModel DtypeModel TypesModel SparseSpec.
Open Scope nat_scope.

Section Sparse.
Context {V : Type}.
Variable zero : V.

(** a DCSR_matrix / DCSC_matrix: local parts, gnnz, gshape (lines, length of a line) and
    whether split is set (then it is the axis of the lines) *)
Record dcsx := Dcsx { s_locals : list (csx V); s_gnnz : nat; s_major : nat; s_minor : nat; s_split : bool }.
Definition major_axis (col : bool) : nat := if col then 1 else 0.
Definition lnnz (t : csx V) : nat := length (x_val t).

(** factories.py L272-292: rank r's part of a matrix every rank holds *)
Definition take_lines (P : nat) (t : csx V) (r : nat) : csx V :=
  let '(start, stop) := chunk_sparse (x_major t) r P in                 (* L273 *)
  let a := nth start (x_ptr t) 0 in                                     (* L277-278 *)
  let b := nth stop (x_ptr t) 0 in
  let ptr := sub (x_ptr t) start (stop + 1 - start) in                  (* L283 *)
  Csx (stop - start) (x_minor t) (map (fun p => p - hd 0 ptr) ptr)      (* L287 *)
      (sub (x_ind t) a (b - a)) (sub (x_val t) a (b - a)).              (* L281, L285 *)

(** sparse_csr_matrix / sparse_csc_matrix(obj, split=...), the same obj on every rank *)
Definition sparse_split (col : bool) (P : nat) (t : csx V) (split : option nat) : res dcsx :=
  match split with
  | Some a => if a =? major_axis col
              then Ok (Dcsx (map (take_lines P t) (seq 0 P)) (lnnz t) (x_major t) (x_minor t) true)
              else Err ValueError                                       (* L294-295 *)
  | None => Ok (Dcsx (repeat t P) (lnnz t) (x_major t) (x_minor t) false)
  end.

(** L297-341: is_split=..., every rank passes its own part.  The mark of a rank is its left
    neighbour's number of lines (its own on rank 0), or MIN64 when the other extents differ *)
Definition sparse_mark (ls : list (csx V)) (r : nat) : Z :=
  let maj k := Z.of_nat (nth k (map x_major ls) 0) in
  match r with
  | O => maj 0
  | S l => if nth l (map x_minor ls) 0 =? nth r (map x_minor ls) 0 then maj l else MIN64
  end.
Definition sparse_is_split (col : bool) (ls : list (csx V)) (a : nat) : res dcsx :=
  if a =? major_axis col then
    if (fold_right Z.min 0 (map (sparse_mark ls) (seq 0 (length ls))) <? 0)%Z then Err ValueError    (* L321-326 *)
    else Ok (Dcsx ls (list_sum (map lnnz ls)) (list_sum (map x_major ls)) (nth 0 (map x_minor ls) 0) true)
  else Err ValueError.                                                  (* L349-350 *)

(** dcsx_matrix.py L274-291: counts and displacements, in float32 *)
Definition nnz_counts (m : dcsx) : list Z := map (fun t => fl32 (Z.of_nat (lnnz t))) (s_locals m).
Definition nnz_displ (m : dcsx) (r : nat) : Z := fl32 (zsum (firstn r (nnz_counts m))).

(** Allgatherv into a buffer of [n] elements: a message longer than its count, or a block
    outside the buffer, is an error *)
Definition put {B} (buf : list B) (d : nat) (l : list B) : list B := firstn d buf ++ l ++ skipn (d + length l) buf.
Definition allgatherv_into {B} (junk : B) (n : nat) (bufs : list (list B)) (counts displs : list nat) : res (list B) :=
  let ps := combine bufs (combine counts displs) in
  if forallb (fun p => (length (fst p) <=? fst (snd p)) && (fst (snd p) + snd (snd p) <=? n)) ps
  then Ok (fold_left (fun b p => put b (snd (snd p)) (fst p)) ps (repeat junk n))
  else Err RuntimeError.
Definition gather_nnz {B} (junk : B) (m : dcsx) (get : csx V -> list B) : res (list B) :=
  if s_split m
  then allgatherv_into junk (s_gnnz m) (map get (s_locals m)) (map Z.to_nat (nnz_counts m))
         (map (fun r => Z.to_nat (nnz_displ m r)) (seq 0 (length (s_locals m))))
  else Ok (get (hd (Csx 0 0 [] [] []) (s_locals m))).

(** L123-135 data, L184-199 indices *)
Definition gdata (m : dcsx) : res (list V) := gather_nnz zero m x_val.
Definition gindices (m : dcsx) : res (list nat) := gather_nnz 0 m x_ind.

(** L63-95 global_indptr: the parts of the DNDarray; L165-173 indptr: its concatenation *)
Definition indptr_part (m : dcsx) (r : nat) (t : csx V) : list nat :=
  let g := map (fun p => p + Z.to_nat (nnz_displ m r)) (x_ptr t) in            (* L70-80 *)
  if r =? length (s_locals m) - 1 then g else removelast g.                    (* L83-84 *)
Definition global_indptr (m : dcsx) : res (list (list nat)) :=
  if s_split m
  then Ok (map (fun p => indptr_part m (fst p) (snd p)) (combine (seq 0 (length (s_locals m))) (s_locals m)))
  else Err ValueError.                                                         (* L67-68 *)
Definition gindptr (m : dcsx) : res (list nat) :=
  if s_split m then do l <- global_indptr m; Ok (concat l)
  else Ok (x_ptr (hd (Csx 0 0 [] [] []) (s_locals m))).

(** manipulations.py L143-170 to_dense *)
Definition to_dense (col : bool) (m : dcsx) : dnd V :=
  mk_dnd (map (dense zero col) (s_locals m))
         (if col then [Z.of_nat (s_minor m); Z.of_nat (s_major m)] else [Z.of_nat (s_major m); Z.of_nat (s_minor m)])
         (if s_split m then Some (major_axis col) else None).

(** manipulations.py L44-61 to_sparse: balance_, then is_split=array.split; [conv] is
    torch's to_sparse_csr / to_sparse_csc *)
Definition to_sparse (conv : arr V -> csx V) (col : bool) (x : dnd V) : res dcsx :=
  match d_split x with
  | Some s => if length (d_gshape x) =? 2
              then do y <- balance_nd zero x s; sparse_is_split col (map conv (d_locals y)) s
              else Err ValueError                                              (* factories.py L243-244 *)
  | None => if length (d_gshape x) =? 2
            then let ls := map conv (d_locals x) in
                 Ok (Dcsx ls (lnnz (hd (Csx 0 0 [] [] []) ls)) (x_major (hd (Csx 0 0 [] [] []) ls)) (x_minor (hd (Csx 0 0 [] [] []) ls)) false)
            else Err ValueError
  end.

(** * element-wise operations, _operations.py L76-209.  [op]: torch.add / torch.mul on two
    local sparse tensors *)
Definition binary_local (op : csx V -> csx V -> res (csx V)) (a b : csx V) : res (csx V) :=
  if (lnnz a =? 0) && (lnnz b =? 0) then Ok a else op a b.                     (* L155-158 *)
Definition distribute (col : bool) (m : dcsx) (other : bool) : res dcsx :=     (* L121-126 *)
  if other && negb (s_split m)
  then match s_locals m with
       | t :: _ => sparse_split col (length (s_locals m)) t (Some (major_axis col))
       | [] => Ok m
       end
  else Ok m.
Definition binary_op (op : csx V -> csx V -> res (csx V)) (col : bool) (m1 m2 : dcsx) : res dcsx :=
  if negb ((s_major m1 =? s_major m2) && (s_minor m1 =? s_minor m2)) then Err ValueError   (* L115-118 *)
  else
    do a <- distribute col m1 (s_split m2);
    do b <- distribute col m2 (s_split m1);
    do ls <- all_ok (map (fun p => binary_local op (fst p) (snd p)) (combine (s_locals a) (s_locals b)));
    Ok (Dcsx ls (if s_split a then list_sum (map lnnz ls) else lnnz (hd (Csx 0 0 [] [] []) ls))   (* L160-165 *)
             (s_major m1) (s_minor m1) (s_split a)).

(** L92-113: the other operand is a number *)
Definition scalar_op (g : V -> V) (col : bool) (m : dcsx) : res dcsx :=
  let ls := map (fun t => Csx (x_major t) (x_minor t) (x_ptr t) (x_ind t) (map g (x_val t))) (s_locals m) in
  if s_split m then sparse_is_split col ls (major_axis col)
  else Ok (Dcsx ls (lnnz (hd (Csx 0 0 [] [] []) ls)) (x_major (hd (Csx 0 0 [] [] []) ls)) (x_minor (hd (Csx 0 0 [] [] []) ls)) false).
End Sparse.
Arguments dcsx : clear implicits.

(** L80, L155-167: the data type every rank records for the result of an operation on
    matrices of types [t1] and [t2] *)
Definition binary_dtype (t1 t2 : ht) (nnz : nat * nat) : option ht :=
  if (fst nnz =? 0) && (snd nnz =? 0) then Some t1 else promote t1 t2.
