(** Model of Heat's MPI datatype construction (heat/core/communication.py) and of
    the collectives behind resplit.  An MPI datatype is its typemap: the byte
    displacements of its basic elements in order, plus its extent and whether it was
    committed (MPI standard, chapter "Datatypes"; the constructors below are the
    MPI ones, with lower bound 0). *)
From Verif Require Import Base TensorSpec LayoutModel.
Open Scope Z_scope.

Record dt := MkDt { disps : list Z; ext : Z; com : bool }.

(** communication.py L136: COUNT_LIMIT = torch.iinfo(torch.int32).max *)
Definition COUNT_LIMIT : Z := 2147483647.
(** mpi4py converts count / blocklength / stride arguments to C int and raises
    OverflowError when they do not fit. *)
Definition int_ok (z : Z) : bool := (-2147483648 <=? z) && (z <=? 2147483647).

Definition base_type (w : Z) : dt := MkDt [0] w true.
Definition commit (t : dt) : dt := MkDt (disps t) (ext t) true.
Definition shift (d : Z) (l : list Z) : list Z := map (Z.add d) l.

(** MPI_Type_vector(count, blocklength, stride, oldtype) *)
Definition create_vector (c b s : Z) (t : dt) : res dt :=
  if int_ok c && int_ok b && int_ok s then
    Ok (MkDt (flat_map (fun i => flat_map (fun j => shift ((i * s + j) * ext t) (disps t)) (zr b)) (zr c))
             (((c - 1) * s + b) * ext t) false)
  else Err OverflowErr.
(** MPI_Type_contiguous *)
Definition create_contiguous (n : Z) (t : dt) : res dt :=
  if int_ok n then
    Ok (MkDt (flat_map (fun i => shift (i * ext t) (disps t)) (zr n)) (n * ext t) false)
  else Err OverflowErr.
(** MPI_Type_create_resized(oldtype, lb=0, extent): displacements are byte-sized
    MPI_Aint (64 bit), no int limit. *)
Definition create_resized (e : Z) (t : dt) : dt := MkDt (disps t) e false.
(** MPI_Type_create_struct with blocklengths [1,1]. *)
Definition create_struct2 (d1 : Z) (t1 : dt) (d2 : Z) (t2 : dt) : dt :=
  MkDt (shift d1 (disps t1) ++ shift d2 (disps t2)) (Z.max (d1 + ext t1) (d2 + ext t2)) false.
(** MPI_Type_create_hindexed_block(1, [d]): both bounds move by d, extent kept. *)
Definition create_hindexed1 (d : Z) (t : dt) : dt := MkDt (shift d (disps t)) (ext t) false.
(** MPI_Type_create_subarray(sizes, subsizes, starts, ORDER_C) of a base type. *)
Definition create_subarray (lshape sub starts : list Z) (t : dt) : res dt :=
  if forallb int_ok lshape && forallb int_ok sub && forallb int_ok starts then
    Ok (MkDt (flat_map (fun idx => shift (ext t * dot (zadd starts idx) (cstrides lshape)) (disps t))
                       (row_major sub))
             (ext t * zprod lshape) false)
  else Err OverflowErr.

(** Bytes addressed by a (buffer, count, type) triple. *)
Definition buf_positions (count : Z) (t : dt) : list Z :=
  flat_map (fun i => shift (i * ext t) (disps t)) (zr count).
(** The block [displ, displ+count) of a v-collective receive buffer. *)
Definition buf_block (displ count : Z) (t : dt) : list Z :=
  flat_map (fun i => shift ((displ + i) * ext t) (disps t)) (zr count).

(** communication.py L298-342 _handle_large_count. *)
Definition handle_large_count (t : dt) (elements : Z) : res (dt * Z) :=
  let new_count := elements / COUNT_LIMIT in                                    (* L325 *)
  let left_over := elements mod COUNT_LIMIT in                                  (* L326 *)
  if COUNT_LIMIT <? new_count then Err ValueError                               (* L328-329 *)
  else do vector_type <- create_vector new_count COUNT_LIMIT COUNT_LIMIT t;     (* L330 *)
       if 0 <? left_over then                                                   (* L331 *)
         do lo <- create_contiguous left_over t;                                (* L332 *)
         let disp := COUNT_LIMIT * new_count * ext t in                         (* L333-334 *)
         Ok (commit (create_struct2 0 vector_type disp (commit lo)), 1)         (* L335-340 *)
       else Ok (vector_type, 1).                                                (* L341-342 *)

(** torch.Tensor.is_contiguous: empty tensors are; otherwise, from the last
    dimension, every dimension of size <> 1 has the expected stride. *)
Fixpoint contig_go (dims : list (Z * Z)) (expected : Z) : bool :=
  match dims with
  | [] => true
  | (n, s) :: t => if n =? 1 then contig_go t expected
                   else (s =? expected) && contig_go t (expected * n)
  end.
Definition is_contiguous (shape st : list Z) : bool :=
  (zprod shape =? 0) || contig_go (rev (combine shape st)) 1.

(** np.prod(l, dtype=np.int32) *)
Definition wrap32 (z : Z) : Z := (z + 2147483648) mod 4294967296 - 2147483648.
Definition prod32 (l : list Z) : Z := fold_left (fun a b => wrap32 (a * wrap32 b)) l 1.

(** The element argument of an MPI buffer: a count, or per-rank counts and displacements. *)
Inductive elements := ECount (n : Z) | EVec (counts displs : list Z).

(** communication.py L401-405: the chain of vector types; [dims] lists, for the
    dimensions 1..k-1, (size, vector stride, byte offset of the dimension before).
    The loop runs from the last dimension to the first. *)
Fixpoint chain (dims : list (Z * Z * Z)) (t : dt) : res dt :=
  match dims with
  | [] => Ok t
  | (n, s, off) :: rest =>
      do t' <- chain rest t;
      do v <- create_vector n 1 s t';
      Ok (commit (create_resized off v))
  end.

(** communication.py L344-410 mpi_type_and_elements_of; [w] = obj.element_size().
    factor * ele: an np.int32 times a Python int stays int32 (NumPy 2). *)
Definition mpi_type_and_elements_of (w : Z) (shape st : list Z)
    (counts : option (list Z * list Z)) (contig : option bool) : res (dt * elements) :=
  let t := base_type w in
  let contig := match contig with None => is_contiguous shape st | Some b => b end in   (* L370-372 *)
  if contig then
    match counts with
    | None => if COUNT_LIMIT <? zprod shape                                             (* L376 *)
              then do r <- handle_large_count t (zprod shape); Ok (fst r, ECount (snd r))
              else Ok (t, ECount (zprod shape))
    | Some (cs, ds) =>
        let factor := prod32 (tl shape) in                                              (* L382 *)
        Ok (t, EVec (map (fun e => wrap32 (factor * e)) cs)
                    (map (fun e => wrap32 (factor * e)) ds))                            (* L383-389 *)
    end
  else
    match tl shape with
    | [] => Err IndexError                                  (* strides[0] of an empty list, L395 *)
    | sh =>
        let strides := repeat 1 (length sh - 1) ++ [last st 0] in                        (* L394-396 *)
        let offsets := map (Z.mul w) (removelast st) in                                 (* L397 *)
        do ty <- chain (combine (combine sh strides) offsets) t;                        (* L400-402 *)
        Ok (ty, match counts with Some (cs, ds) => EVec cs ds | None => ECount (hd 0 shape) end)
    end.

(** communication.py L428-462 as_buffer: a non-contiguous 1-D tensor is unsqueezed
    (torch gives the new last dimension stride 1). *)
Definition as_buffer (w : Z) (shape st : list Z)
    (counts : option (list Z * list Z)) (contig : option bool) : res (dt * elements) :=
  if negb (is_contiguous shape st) && Nat.eqb (length shape) 1
  then mpi_type_and_elements_of w (shape ++ [1]) (st ++ [1]) counts contig
  else mpi_type_and_elements_of w shape st counts contig.

(** Addresses a send / receive of the whole buffer touches. *)
Definition simple_positions (b : dt * elements) : list Z :=
  match b with (t, ECount n) => buf_positions n t | (t, EVec _ _) => [] end.
(** Addresses of rank [p]'s block in a v-collective receive buffer. *)
Definition block_positions (b : dt * elements) (p : nat) : list Z :=
  match b with
  | (t, EVec cs ds) => buf_block (nth p ds 0) (nth p cs 0) t
  | (t, ECount n) => []
  end.

(** permutation that exchanges dimensions 0 and [axis] (L1344-1352) *)
Definition swap0 (axis : nat) (l : list Z) : list Z :=
  match axis with O => l | S _ => upd (upd l 0 (nth axis l 0)) axis (nth 0 l 0) end.

(** communication.py L1283-1379 __allgather_like (torch buffers, more than one
    process, CPU): send buffer description of one rank and receive description. *)
Definition allgatherv_send (w : Z) (shape st : list Z) (axis : nat) : res (dt * elements) :=
  if Nat.eqb axis 0 then as_buffer w shape st None None
  else as_buffer w (swap0 axis shape) (swap0 axis st) None (Some false).
Definition allgatherv_recv (w : Z) (shape st : list Z) (axis : nat) (counts displs : list Z)
  : res (dt * elements) :=
  if Nat.eqb axis 0 then as_buffer w shape st (Some (counts, displs)) None
  else as_buffer w (swap0 axis shape) (swap0 axis st) (Some (counts, displs)) (Some false).

(** A local torch tensor: shape, strides, memory. *)
Record tensor (V : Type) := MkT { tshape : list Z; tstride : list Z; tmem : mem V }.
Arguments MkT {V}. Arguments tshape {V}. Arguments tstride {V}. Arguments tmem {V}.

(** The writes of an Allgatherv into one receiver: rank p's send elements go to
    block p; [None] when the number of elements sent and expected differ (MPI
    truncation / hang). *)
Fixpoint all_ok {A} (l : list (res A)) : res (list A) :=
  match l with
  | [] => Ok []
  | Ok a :: t => do r <- all_ok t; Ok (a :: r)
  | Err e :: _ => Err e
  end.
Definition pair_up {V} (dst src : list Z) (m : mem V) : res (list (Z * V)) :=
  if Nat.eqb (length dst) (length src) then Ok (combine dst (map m src)) else Err RuntimeError.
Definition allgatherv_writes {V} (w : Z) (gshape : list Z) (axis : nat) (counts displs : list Z)
    (locals : list (tensor V)) : res (list (Z * V)) :=
  do rb <- allgatherv_recv w gshape (cstrides gshape) axis counts displs;
  do ws <- all_ok (map (fun pt : nat * tensor V => let (p, t) := pt in
                          do sb <- allgatherv_send w (tshape t) (tstride t) axis;
                          pair_up (block_positions rb p) (simple_positions sb) (tmem t))
                       (combine (seq 0 (length locals)) locals));
  Ok (concat ws).

(** dndarray.py L690-700 counts_displs of an array whose lshape map is current. *)
Fixpoint zdispls (acc : Z) (counts : list Z) : list Z :=
  match counts with [] => [] | c :: t => acc :: zdispls (acc + c) t end.
Definition counts_displs (axis : nat) (locals_shapes : list (list Z)) : list Z * list Z :=
  let counts := map (fun sh => nth axis sh 0) locals_shapes in (counts, zdispls 0 counts).

(** dndarray.py L1581-1590 (in place) and manipulations.py L3889-3899 (out of
    place) resplit to None: the writes into the freshly allocated, contiguous
    [gathered] tensor, the same on every rank. *)
Definition resplit_none {V} (w : Z) (gshape : list Z) (split : nat) (locals : list (tensor V))
  : res (list (Z * V)) :=
  let (counts, displs) := counts_displs split (map tshape locals) in
  allgatherv_writes w gshape split counts displs locals.

(** communication.py L1815-1897 _create_recursive_vectortype.  [i] is the loop
    variable; [first] = (i == len(tensor_stride) - 1).  tensor_stride[i-1] with
    i = 0 is Python's tensor_stride[-1]. *)
Definition pyget (l : list Z) (i : Z) : Z :=
  nth (Z.to_nat (if i <? 0 then i + Z.of_nat (length l) else i)) l 0.
Fixpoint recvec_loop (fuel : nat) (w : Z) (st sizes : list Z) (i : nat) (first : bool) (cur : dt) : res dt :=
  match fuel with
  | O => Err OutOfFuel
  | S fuel =>
      match i with
      | O => Ok cur                                                                     (* L1852 *)
      | S i1 =>
          let cs := nth i st 0 in
          let sz := nth i sizes 0 in
          if first && (cs =? 1) && (nth i1 st 0 <? COUNT_LIMIT) then                    (* L1857-1861 *)
            do v <- create_vector (nth i1 sizes 0) sz (nth i1 st 0) cur;                (* L1862-1868 *)
            recvec_loop fuel w st sizes (pred i1) false
              (commit (create_resized (w * pyget st (Z.of_nat i1 - 1)) (commit v)))     (* L1882-1890 *)
          else
            do v <- create_vector sz 1 (if first then cs else 1) cur;                   (* L1871-1878 *)
            recvec_loop fuel w st sizes i1 false
              (commit (create_resized (w * nth i1 st 0) (commit v)))
      end
  end.
Definition recursive_vectortype (w : Z) (st sizes start : list Z) : res dt :=
  do t <- recvec_loop (S (length st)) w st sizes (length st - 1) true (base_type w);
  Ok (commit (create_hindexed1 (dot st start * w) t)).                                  (* L1892-1893 *)

(** communication.py L1729-1755 / L1764-1787: type and count for one peer.
    [contig_checked] is the is_contiguous of the send side; the receive side does
    not check (true). *)
Definition a2aw_type (w : Z) (contig_checked : bool) (st : list Z) (p : list Z * list Z * list Z)
  : res (dt * Z) :=
  let '(lshape, sub, starts) := p in
  if forallb (fun n => 0 <? n) sub then                                                 (* L1732 *)
    if contig_checked && forallb (fun n => n <? COUNT_LIMIT) lshape
       && forallb (fun n => n <? COUNT_LIMIT) sub
       && forallb (fun n => n <? COUNT_LIMIT) starts                                    (* L1733-1738 *)
    then do t <- create_subarray lshape sub starts (base_type w); Ok (commit t, 1)
    else do t <- recursive_vectortype w st sub starts;                                  (* L1746-1748 *)
         Ok (t, if Nat.eqb (length sub) 2 && (last st 0 =? 1) then 1 else hd 0 sub)     (* L1750 *)
  else Ok (base_type w, 0).                                                             (* L1752-1753 *)

(** float32 rounding of a non-negative integer (round to nearest even, 24 bit significand). *)
Definition fl32 (z : Z) : Z :=
  if z <? 16777216 then z
  else let e := Z.log2 z - 23 in
       let q := z / 2 ^ e in
       let r := z mod 2 ^ e in
       let h := 2 ^ (e - 1) in
       let q' := if r <? h then q else if h <? r then q + 1
                 else if Z.even q then q else q + 1 in
       q' * 2 ^ e.

(** tiling.py L86-101 SplitTiles.__init__: tile_dims is a float32 tensor (torch.zeros
    default dtype), row [ax]. [split] and [lmap] describe the tiled array. *)
Definition tile_dims (gshape : list Z) (split : nat) (lmap : list Z) (wsize : nat) (ax : nat) : list Z :=
  if Nat.eqb ax split then map fl32 lmap
  else let size := nth ax gshape 0 in
       let chunk := size / Z.of_nat wsize in
       let rem := size mod Z.of_nat wsize in
       map (fun r => if Z.of_nat r <? rem then fl32 (fl32 chunk + 1) else fl32 chunk) (seq 0 wsize).

(** tiling.py L103: cumsum (torch accumulates in double and rounds each result to
    float32; totals below 2^53 assumed), then int; tile_starts of get_subarray_params
    (L361): 0 followed by all ends but the last. *)
Fixpoint fstarts (acc : Z) (dims : list Z) : list Z :=
  match dims with [] => [] | c :: t => fl32 acc :: fstarts (acc + c) t end.

(** tiling.py L336-373 get_subarray_params on rank [rank], for the peers 0..wsize-1.
    from_shape is aliased by subsizes (L358) but lshape is copied before the loop. *)
Definition subarray_params (gshape : list Z) (dims : nat -> list Z) (from_axis to_axis rank wsize : nat)
  : list (list Z * list Z * list Z) :=
  let lshape := upd gshape from_axis (nth rank (dims from_axis) 0) in
  map (fun i => (lshape,
                 upd lshape to_axis (nth i (dims to_axis) 0),
                 upd (repeat 0 (length gshape)) to_axis (nth i (fstarts 0 (dims to_axis)) 0)))
      (seq 0 wsize).

(** manipulations.py L3933-3983 _axis2axisResplit + communication.py L1702-1811
    Alltoallw: the writes into rank [q]'s receive buffer (contiguous, shape
    [rshape]).  [sdims]/[tdims] are the tile dimensions of source_tiles/target_tiles. *)
Definition alltoallw_writes {V} (w : Z) (gshape : list Z) (s1 s2 : nat)
    (sdims tdims : nat -> list Z) (locals : list (tensor V)) (rshape : list Z) (q : nat)
  : res (list (Z * V)) :=
  let P := length locals in
  let recv := subarray_params gshape tdims s2 s1 q P in
  do ws <- all_ok (map (fun pt : nat * tensor V => let (p, t) := pt in
              do sb <- a2aw_type w (is_contiguous (tshape t) (tstride t)) (tstride t)
                         (nth q (subarray_params gshape sdims s1 s2 p P) ([], [], []));
              do rb <- a2aw_type w true (cstrides rshape) (nth p recv ([], [], []));
              pair_up (buf_positions (snd rb) (fst rb)) (buf_positions (snd sb) (fst sb)) (tmem t))
            (combine (seq 0 P) locals));
  Ok (concat ws).

(** dndarray.py L1603-1622 resplit_ axis to axis: both tilings are those of self
    (the source array); shape of the receive buffer and its writes. *)
Definition resplit_axis_inplace {V} (w : Z) (gshape : list Z) (s1 s2 : nat) (locals : list (tensor V))
    (q : nat) : list Z * res (list (Z * V)) :=
  let P := length locals in
  let lmap := map (fun t => nth s1 (tshape t) 0) locals in
  let dims := tile_dims gshape s1 lmap P in
  let rshape := upd gshape s2 (nth q (dims s2) 0) in                                    (* L1607-1609 *)
  (rshape, alltoallw_writes w gshape s1 s2 dims dims locals rshape q).

(** manipulations.py L3842-3914 resplit, out of place: target tiles are those of the
    new, balanced array, whose own split is [s2]. *)
Definition resplit_axis {V} (w : Z) (gshape : list Z) (s1 s2 : nat) (locals : list (tensor V))
    (q : nat) : list Z * res (list (Z * V)) :=
  let P := length locals in
  let lmap := map (fun t => nth s1 (tshape t) 0) locals in
  let bal := map (fun r => nth s2 gshape 0 / Z.of_nat P
                           + (if Z.of_nat r <? nth s2 gshape 0 mod Z.of_nat P then 1 else 0)) (seq 0 P) in
  let rshape := upd gshape s2 (nth q bal 0) in
  (rshape, alltoallw_writes w gshape s1 s2 (tile_dims gshape s1 lmap P) (tile_dims gshape s2 bal P)
             locals rshape q).

(** dndarray.py L1592-1601: resplit_ of a replicated array on rank [rank]: the slice
    comm.chunk assigns, cloned.  torch views share memory, so element idx of the
    slice is element idx + start of the original; the clone copies it (strides of
    the view kept here; torch may choose others, which no reader can observe). *)
Definition resplit_from_none {V} (w : Z) (gshape : list Z) (axis rank wsize : nat) (t : tensor V) : tensor V :=
  let (start, len) := Verif.LayoutModel.chunk_1d (Z.to_nat (nth axis gshape 0)) rank wsize in
  MkT (upd (tshape t) axis (Z.of_nat len)) (tstride t)
      (fun addr => tmem t (addr + w * (Z.of_nat start * nth axis (tstride t) 0))).
