(** Model of the partition interface: heat/core/dndarray.py create_partition_interface (L745-841),
    __partitioned__ (L190-205) with its cache, and heat/core/factories.py from_partitioned,
    from_partition_dict, __from_partition_dict_helper (L917-1070) for torch data.
    Not modelled: the entries 'dtype', 'device', 'get' (the identity) of the dictionary, numpy data,
    dictionaries of foreign objects. *)
From Verif Require Import Base LayoutModel TensorSpec NdSpec OpsModel ShapeModel BinModel.
Open Scope Z_scope.

(** one entry of 'partitions' *)
Record part (A : Type) := mk_part { p_start : list Z; p_shape : list Z; p_data : option (arr A); p_loc : nat }.
Arguments mk_part {A} _ _ _ _. Arguments p_start {A} _. Arguments p_shape {A} _. Arguments p_data {A} _. Arguments p_loc {A} _.
Record pdict (A : Type) := mk_pdict { pd_shape : list Z; pd_tiling : list Z; pd_parts : list (list Z * part A); pd_locals : list (list Z) }.
Arguments mk_pdict {A} _ _ _ _. Arguments pd_shape {A} _. Arguments pd_tiling {A} _. Arguments pd_parts {A} _. Arguments pd_locals {A} _.

(** Python dict: assignment replaces the value of an existing key, lookup *)
Fixpoint dict_set {B} (d : list (list Z * B)) (k : list Z) (v : B) : list (list Z * B) :=
  match d with [] => [(k, v)] | (k', v') :: t => if eqb_idx k k' then (k', v) :: t else (k', v') :: dict_set t k v end.
Fixpoint dict_get {B} (d : list (list Z * B)) (k : list Z) : option B :=
  match d with [] => None | (k', v') :: t => if eqb_idx k k' then Some v' else dict_get t k end.

(** An integer stored in a type with [p] significant bits (round to nearest, ties to even); None: an
    integer type.  L801-803: the leading zero has the dtype of the array, so torch.cat promotes the
    cumulated extents to it: 24 bits for float32 and complex64, 53 for float64 and complex128. *)
Definition stored (prec : option Z) (z : Z) : Z :=
  match prec with
  | None => z
  | Some p => if z <? 2 ^ p then z
              else let u := 2 ^ (Z.log2 z - p + 1) in
                   let q := z / u in let m := z mod u in
                   (if (u <? 2 * m) || ((u =? 2 * m) && Z.odd q) then q + 1 else q) * u
  end.

(** create_lshape_map (L711-743; its cache is treated in MetaModel.v) *)
Definition lmap {A} (x : dnd A) : list (list Z) :=
  match d_split x with
  | Some _ => if (1 <? length (d_locals x))%nat then map ash (d_locals x) else repeat (d_gshape x) (length (d_locals x))
  | None => repeat (d_gshape x) (length (d_locals x))
  end.
(** L801-808: the row [q] of start_idx_map *)
Definition start_row {A} (prec : option Z) (x : dnd A) (q : nat) : list Z :=
  let z := repeat 0 (length (d_gshape x)) in
  match d_split x with
  | Some s => upd z s (stored prec (zsum (firstn q (map (fun row => nth s row 0) (lmap x)))))
  | None => z
  end.
(** L812-816: the key of rank [q] *)
Definition key {A} (x : dnd A) (q : nat) : list Z :=
  let z := repeat 0 (length (d_gshape x)) in
  match d_split x with Some s => upd z s (Z.of_nat q) | None => z end.
(** L818-829 on rank [r]: the entry of rank [q] *)
Definition entry {A} (prec : option Z) (x : dnd A) (r q : nat) : part A :=
  let mine := nth_error (d_locals x) r in
  mk_part (start_row prec x q) (nth q (lmap x) [])
    (match d_split x with Some _ => if (q =? r)%nat then mine else None | None => mine end) q.
(** create_partition_interface on rank [r] *)
Definition partition_interface {A} (prec : option Z) (x : dnd A) (r : nat) : pdict A :=
  let P := length (d_locals x) in
  let ones := repeat 1 (length (d_gshape x)) in
  mk_pdict (d_gshape x)
    (match d_split x with Some s => upd ones s (Z.of_nat P) | None => ones end)              (* L798, L805 *)
    (fold_left (fun d q => dict_set d (key x q) (entry prec x r q)) (seq 0 P) [])              (* L811-829 *)
    [key x (match d_split x with Some _ => r | None => 0%nat end)].                            (* L799, L804 *)

(** the attributes of the DNDarray one rank builds *)
Record built (A : Type) := mk_built { b_data : arr A; b_gshape : list Z; b_split : option nat; b_balanced : bool }.
Arguments mk_built {A} _ _ _ _. Arguments b_data {A} _. Arguments b_gshape {A} _. Arguments b_split {A} _. Arguments b_balanced {A} _.

(** comm.chunk(gshape, split, rank)[1] *)
Definition chunk_lshape (P : nat) (gsh : list Z) (split : option nat) (q : nat) : list Z :=
  match split with Some s => upd gsh s (nth q (zcounts (nth s gsh 0) P) 0) | None => gsh end.
(** __from_partition_dict_helper, factories.py L1006-1070, on one rank; P = comm.size *)
Definition from_partition_dict {A} (P : nat) (d : pdict A) : res (built A) :=
  match pd_locals d with
  | [k] =>
      match dict_get (pd_parts d) k with
      | None => Err IndexError (* KeyError *)
      | Some p =>
        match p_data p with
        | None => Err TypeError                                                           (* L1032 *)
        | Some t =>
          let diffs := map (fun gl => fst gl - snd gl) (combine (pd_shape d) (ash t)) in  (* L1036-1040 *)
          let nz := filter (fun k => negb (nth k diffs 0 =? 0)) (seq 0 (length diffs)) in (* L1041 *)
          match nz with
          | _ :: _ :: _ => Err RuntimeError                                               (* L1043-1044 *)
          | _ =>
            let split := match nz with [k] => Some k | _ => None end in                   (* L1045-1048 *)
            let bal := forallb (fun e => eqb_idx (chunk_lshape P (pd_shape d) split (p_loc (snd e))) (p_shape (snd e))) (pd_parts d) in (* L1050-1057 *)
            Ok (mk_built t (pd_shape d) split bal)
          end
        end
      end
  | _ => Err RuntimeError                                                                 (* L1023-1024 *)
  end.
(** from_partitioned(x) with x a DNDarray whose dictionary is not cached: the result of every rank *)
Definition from_partitioned {A} (prec : option Z) (x : dnd A) : list (res (built A)) :=
  map (fun r => from_partition_dict (length (d_locals x)) (partition_interface prec x r)) (seq 0 (length (d_locals x))).

(** The cache __partitions_dict__ of rank [r] during a history of calls on one array. *)
Record pstate (A : Type) := mk_ps { ps_arr : dnd A; ps_cache : option (pdict A) }.
Arguments mk_ps {A} _ _. Arguments ps_arr {A} _. Arguments ps_cache {A} _.
Inductive pop (A : Type) :=
| Read                                               (* x.__partitioned__ *)
| Resplit (a : option nat) (new : list (arr A))      (* x.resplit_(a), new: the local arrays it produces *)
| Redistribute (new : list (arr A)).                 (* x.redistribute_(...), x.balance_(), x.collect_(...) or x.larray = ... *)
Arguments Read {A}. Arguments Resplit {A} _ _. Arguments Redistribute {A} _.
Definition same_split (a b : option nat) : bool :=
  match a, b with Some x, Some y => (x =? y)%nat | None, None => true | _, _ => false end.
Definition pstep {A} (prec : option Z) (r : nat) (s : pstate A) (o : pop A) : pstate A :=
  let x := ps_arr s in
  match o with
  | Read => match ps_cache s with Some _ => s | None => mk_ps x (Some (partition_interface prec x r)) end   (* L203-205 *)
  | Resplit a new =>                                                                                   (* L1569-1622 *)
      if (length (d_locals x) =? 1)%nat
      then mk_ps (mk_dnd (d_locals x) (d_gshape x) a) (match a with None => None | Some _ => ps_cache s end)
      else if same_split a (d_split x) then s
      else mk_ps (mk_dnd new (d_gshape x) a) None
  | Redistribute new => mk_ps (mk_dnd new (d_gshape x) (d_split x)) (ps_cache s)      (* L1325-1475, L147-169: the cache is not touched *)
  end.
Definition prun {A} prec r (x : dnd A) (ops : list (pop A)) : pstate A := fold_left (pstep prec r) ops (mk_ps x None).
(** what x.__partitioned__ returns *)
Definition reported {A} prec r (s : pstate A) : pdict A :=
  match ps_cache s with Some d => d | None => partition_interface prec (ps_arr s) r end.
