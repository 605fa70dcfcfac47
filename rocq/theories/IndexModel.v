(** Model of DNDarray.__getitem__ / __setitem__ for basic keys (ints and slices)
    and of the scalar conversions (heat/core/dndarray.py).

    The key on the split axis decides what happens; the other entries of the key act
    on every slab in the same way and are left out.  [d] lists the local arrays. *)
From Verif Require Import Base PySpec PySpecSel LayoutModel RedistModel.

(** torch.where(cond)[0][-1] over a list, None when no entry satisfies it *)
Fixpoint find_last (f : Z -> bool) (l : list Z) (i : nat) (acc : option nat) : option nat :=
  match l with [] => acc | x :: t => find_last f t (S i) (if f x then Some i else acc) end.

(** counts_displs L690-700 plus L1055-1057 *)
Definition zstarts (counts : list nat) : list Z := map (fun r => Z.of_nat (psum counts r)) (seq 0 (length counts)).
Definition zends (counts : list nat) : list Z := map (fun r => Z.of_nat (psum counts (S r))) (seq 0 (length counts)).

(** L2020-2045 __xitem_get_key_start_stop ([step] = None: no adjustment) *)
Definition xitem (rank first : nat) (key_st key_sp : Z) (step : option Z) (ends : list Z) (og : Z) : Z * Z :=
  match step with
  | Some s =>
      if first <? rank then
        let offset := ((nth (rank - 1) ends 0 - og) mod s)%Z in
        if ((2 <? s) && (0 <? offset))%Z then (key_st + (s - offset), key_sp)%Z
        else if ((s =? 2) && (0 <? offset))%Z then (key_st + offset, key_sp)%Z
        else (key_st, key_sp)
      else (key_st, key_sp)
  | None => (key_st, key_sp)
  end.

(** math.ceil(a / s), s > 0 *)
Definition zceil (a s : Z) : Z := (- ((- a) / s))%Z.

(** tensor.reshape(lout) where the tensor has [cnt] slabs and lout asks for [want]
    along that axis: -1 means "infer", other negatives and mismatches raise.
    Simplification: slabs have at least one element. *)
Definition reshape_check {A} (l : list A) (want : Z) : res (list A) :=
  if (want =? Z.of_nat (length l))%Z || (want =? -1)%Z then Ok l else Err RuntimeError.

(** __getitem__ with a slice on the split axis, L1111-1142, on one rank. *)
Definition getitem_slice {A} (d : dist A) (start stop step : option Z) (rank : nat) : res (list A) :=
  if (py_step step <=? 0)%Z then Err ValueError else       (* torch refuses the key at L1032 *)
  let counts := lens d in
  let starts := zstarts counts in
  let ends := zends counts in
  let '(key_start, key_stop, key_step) := sanitize_slice start stop step (Z.of_nat (list_sum counts)) in (* L1115-1120 *)
  let st_pr := match find_from (fun e => key_start <? e)%Z ends 0 0 with Some r => r | None => length d end in (* L1122-1123 *)
  let sp_pr := match find_last (fun b => b <=? key_stop)%Z starts 0 None with Some r => r | None => 0 end in    (* L1124-1125 *)
  if (st_pr <=? rank) && (rank <=? sp_pr) then                                                                  (* L1126-1127 *)
    let ks := if Nat.eqb rank st_pr then (key_start - nth rank starts 0)%Z else 0%Z in                          (* L1128 *)
    let kp := if Nat.eqb rank sp_pr then (key_stop - nth rank starts 0)%Z else Z.of_nat (nth rank counts 0) in  (* L1129 *)
    let '(ks, kp) := xitem rank st_pr ks kp (Some key_step) ends key_start in                                   (* L1130-1132 *)
    let l := nth rank d [] in
    reshape_check (sel l (py_slice (Some ks) (Some kp) (Some key_step) (Z.of_nat (length l))))
                  (zceil (kp - ks) key_step)                                                                    (* L1133-1139 *)
  else Ok [].                                                                                                   (* L1140-1142 *)

(** __getitem__ with an integer on the split axis, L1144-1167: one rank slices, all
    ranks receive its slab by bcast.  IndexError comes from the proxy at L1032. *)
Definition getitem_int {A} (d : dist A) (key : Z) : res A :=
  let n := Z.of_nat (list_sum (lens d)) in
  if ((key <? - n) || (n <=? key))%Z then Err IndexError else
  let key := if (key <? 0)%Z then (key + n)%Z else key in                                  (* L1152-1153 *)
  match find_last (fun b => b <=? key)%Z (zstarts (lens d)) 0 None with                    (* L1155 *)
  | None => Err IndexError
  | Some active =>
      match nth_error (nth active d []) (Z.to_nat (key - nth active (zstarts (lens d)) 0%Z)) with  (* L1158-1159 *)
      | Some x => Ok x | None => Err IndexError end
  end.

(** __getitem__ with a list of more than one integer on the split axis, L1070-1109, on
    one rank: the indices that fall into this rank's range, in key order.  A list of
    one integer fails the test len(key) > 1 and is not "singular" either (the proxy
    result has one dimension, L1244), so [arr] stays the empty tensor of L1053. *)
Definition getitem_list {A} (d : dist A) (keys : list Z) (rank : nat) : list A :=
  if length keys <=? 1 then [] else
  let cs := Z.of_nat (psum (lens d) rank) in
  let ce := Z.of_nat (psum (lens d) (S rank)) in
  let inds := filter (fun k => (cs <=? k) && (k <? ce))%Z keys in              (* L1089 *)
  sel (nth rank d []) (map (fun k => (k - cs)%Z) inds).                        (* L1098-1101 *)

(** L1034-1043: where the split axis ends up.  [singular] says for each axis whether
    its key is an integer; axes with integer keys disappear. *)
Definition getitem_split (singular : list bool) (split : option nat) : option nat :=
  match split with
  | None => None
  | Some s =>
      if existsb (fun b => b) singular then                                   (* L1037 *)
        fold_left (fun ns i => if nth i singular false
                               then (if Nat.eqb i s then None else option_map pred ns)
                               else ns) (seq 0 (S s)) (Some s)                (* L1041-1043 *)
      else Some s
  end.

(** local assignment larray[slice] = v for a scalar v *)
Definition set_slice {A} (v : A) (l : list A) (start stop step : option Z) : list A :=
  let idx := py_slice start stop step (Z.of_nat (length l)) in
  map (fun i => if existsb (Z.eqb (Z.of_nat i)) idx then v else nth i l v) (seq 0 (length l)).

(** __setitem__ with a slice on the split axis and a scalar value, L1784-1817, L1872-1879, L1894-1895.
    chunk_starts has one more entry than there are ranks (L1790); the chunks are those
    of comm.chunk whatever the real layout is (L1785-1793). *)
Definition setitem_slice {A} (d : dist A) (start stop step : option Z) (v : A) (rank : nat) : list A :=
  let n := list_sum (lens d) in
  let counts := counts_of n (length d) in
  let starts := 0%Z :: zends counts in
  let ends := zends counts in
  let key_start := match start with Some x => x | None => 0%Z end in                       (* L1803 *)
  let key_stop := match stop with Some x => x | None => Z.of_nat n end in                  (* L1804-1808 *)
  let key_stop := if (key_stop <? 0)%Z
                  then (Z.of_nat n + match stop with Some x => x | None => 0 end)%Z else key_stop in  (* L1809-1810 *)
  let st_pr := match find_from (fun e => key_start <? e)%Z ends 0 0 with Some r => r | None => length d end in (* L1813-1814 *)
  let sp_pr := match find_last (fun b => b <=? key_stop)%Z starts 0 None with Some r => r | None => 0 end in    (* L1815-1816 *)
  let l := nth rank d [] in
  if (st_pr <=? rank) && (rank <=? sp_pr) then                                              (* L1817, L1872 *)
    let ks := if Nat.eqb rank st_pr then (key_start - nth rank starts 0)%Z else 0%Z in      (* L1874 *)
    let kp := if Nat.eqb rank sp_pr then (key_stop - nth rank starts 0)%Z else Z.of_nat (nth rank counts 0) in (* L1875 *)
    let '(ks, kp) := xitem rank st_pr ks kp step ends key_start in                          (* L1876-1878 *)
    set_slice v l (Some ks) (Some kp) step                                                  (* L1879, L1895 *)
  else l.

(** __setitem__ with an integer on the split axis, L1902-1911.  The local assignment
    raises IndexError when the real local extent is smaller than the chunk. *)
Definition setitem_int {A} (d : dist A) (key : Z) (v : A) (rank : nat) : res (list A) :=
  let n := list_sum (lens d) in
  let (cs, cl) := chunk_1d n rank (length d) in
  let l := nth rank d [] in
  let set (k : Z) := if (k <? Z.of_nat (length l))%Z then Ok (upd l (Z.to_nat k) v) else Err IndexError in
  if ((Z.of_nat cs <=? key) && (key <? Z.of_nat (cs + cl)))%Z then set (key - Z.of_nat cs)%Z       (* L1902-1905 *)
  else if (key <? 0)%Z then                                                                        (* L1907-1911 *)
    let k := (Z.of_nat n + key)%Z in
    if ((Z.of_nat cs <=? k) && (k <? Z.of_nat (cs + cl)))%Z then set (k - Z.of_nat cs)%Z else Ok l
  else Ok l.

(** __cast, L611-635: scalar conversion ([f] is the cast).  [shape_prod] is the
    number of elements of the global array, local arrays are lists of elements. *)
Definition cast {A B} (f : A -> B) (d : dist A) : res B :=
  if Nat.eqb (list_sum (lens d)) 1 then
    let root := list_sum (map (fun r => if Nat.eqb (length (nth r d [])) 0 then 0 else r) (seq 0 (length d))) in (* L630-631 *)
    match nth root d [] with x :: _ => Ok (f x) | [] => Err RuntimeError end                                     (* L633 *)
  else Err TypeError.                                                                                            (* L635 *)
