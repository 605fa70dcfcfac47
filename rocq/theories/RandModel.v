(** Model of heat/core/random.py: the Threefry generator (counter sequence, cipher,
    conversion to values, state) and permutation.  Words of [b] = 32 or 64 bits are
    signed integers; torch integer arithmetic wraps. *)
From Verif Require Import Base LayoutModel TensorSpec NdSpec DtypeModel OpsModel HaloModel.
Open Scope Z_scope.

(** torch int32 / int64 overflow *)
Definition wrapb (b z : Z) : Z := (z + 2 ^ (b - 1)) mod 2 ^ b - 2 ^ (b - 1).

(** * The cipher: __threefry32 L1019-1118, __threefry64 L1122-1218 *)

(** one round: x0 += x1; x1 = (x1 << l) | ((x1 >> r) & mask); x1 ^= x0.
    torch's >> on signed integers is arithmetic. *)
Definition tf_round (b : Z) (lrm : Z * Z * Z) (x : Z * Z) : Z * Z :=
  let '(l, r, mask) := lrm in
  let x0 := wrapb b (fst x + snd x) in
  let x1 := Z.lor (wrapb b (Z.shiftl (snd x) l)) (Z.land (Z.shiftr (snd x) r) mask) in
  (x0, Z.lxor x1 x0).
(** x0 += a; x1 += c *)
Definition tf_inject (b a c : Z) (x : Z * Z) : Z * Z := (wrapb b (fst x + a), wrapb b (snd x + c)).

Definition rounds32a : list (Z * Z * Z) := [(13, 19, 0x1FFF); (15, 17, 0x7FFF); (26, 6, 0x3FFFFFF); (6, 26, 0x3F)].  (* L1060-1079 *)
Definition rounds32b : list (Z * Z * Z) := [(17, 15, 0x1FFFF); (29, 3, 0x1FFFFFFF); (16, 16, 0xFFFF); (24, 8, 0xFFFFFF)]. (* L1085-1104 *)
Definition rounds64a : list (Z * Z * Z) := [(16, 48, 0xFFFF); (42, 22, 0x3FFFFFFFFFF); (12, 52, 0xFFF); (31, 33, 0x7FFFFFFF)]. (* L1160-1179 *)
Definition rounds64b : list (Z * Z * Z) := [(16, 48, 0xFFFF); (32, 32, 0xFFFFFFFF); (24, 40, 0xFFFFFF); (21, 43, 0x1FFFFF)]. (* L1185-1204 *)

Definition threefry (b seed ks2c : Z) (ra rb : list (Z * Z * Z)) (x : Z * Z) : Z * Z :=
  let ks0 := seed in let ks1 := seed in
  let ks2 := Z.lxor (Z.lxor ks2c ks0) ks1 in                          (* L1053, L1153 *)
  let x := tf_inject b ks0 ks1 x in                                   (* L1056-1057 *)
  let x := fold_left (fun y r => tf_round b r y) ra x in
  let x := tf_inject b ks1 (wrapb b (ks2 + 1)) x in                   (* L1082-1083 *)
  let x := fold_left (fun y r => tf_round b r y) rb x in
  tf_inject b ks0 (wrapb b (ks1 + 3)) x.                              (* L1115-1116 *)
Definition threefry32 (seed : Z) (x : Z * Z) : Z * Z :=
  threefry 32 (Z.land seed 0x7FFFFFFF) 466688986 rounds32a rounds32b x.   (* L1045-1050 *)
(** the seed must fit into int64 (torch.full raises otherwise, L1148) *)
Definition threefry64 (seed : Z) (x : Z * Z) : Z * Z :=
  threefry 64 seed 2004413935125273122 rounds64a rounds64b x.

(** * __counter_sequence, L75-219 *)
(** torch.cumsum of a float32 tensor on the CPU: accumulated in double, each result
    rounded to float32.  Simplification: totals stay below 2^53. *)
Definition fcum (l : list Z) (k : nat) : Z := fl32 (zsum (firstn (S k) (map fl32 l))).

Definition smask (b : Z) : Z := 2 ^ (b - 1) - 1.     (* 0x7FFF..., L179 *)
Definition mcount (b : Z) : Z := 2 ^ b - 1.          (* 0xFFFF..., L123 *)

(** while diff > signed_mask: x += signed_mask; diff -= signed_mask; then x += diff *)
Fixpoint add_loop (fuel : nat) (b x diff : Z) : Z :=
  match fuel with
  | O => wrapb b (x + diff)
  | S f => if smask b <? diff then add_loop f b (wrapb b (x + smask b)) (diff - smask b)
           else wrapb b (x + diff)
  end.
Definition loop_fuel (b diff : Z) : nat := Z.to_nat (diff / smask b + 1).

(** L178-189: the x_1 sequence for counters start .. end-1 (low words) *)
Definition x1_seq (b start stop : Z) : list Z :=
  let diff := if stop <=? smask b then 0 else stop - smask b in             (* L180 *)
  map (fun i => add_loop (loop_fuel b diff) b (wrapb b (start - diff + i)) diff) (zr (stop - start)).
(** L191-202: the value x_0 is filled with *)
Definition x0_val (b c0 : Z) : Z :=
  let diff := c0 - smask b in
  if 0 <? diff then add_loop (loop_fuel b diff) b (smask b) diff else c0.
(** L204-211 *)
Definition x0_seq (b c0 start stop : Z) : list Z :=
  let n := stop - start in
  let v := x0_val b c0 in
  if mcount b <? stop then
    if mcount b <? start then map (fun _ => wrapb b (v + 1)) (zr n)
    else let k := stop - mcount b - 1 in                                    (* x_0[-k:] += 1 *)
         map (fun i => if (k =? 0) || (n - k <=? i) then wrapb b (v + 1) else v) (zr n)
  else map (fun _ => v) (zr n).

(** the slice applied to the generated values: (drop the first, drop the last) *)
Definition take_slice {A} (sl : bool * bool) (l : list A) : list A :=
  let l := if fst sl then tl l else l in if snd sl then removelast l else l.

(** L135-175: start, end, lslice and local shape on one rank; [rank] of [P] *)
Definition local_range (shape : list Z) (split : option nat) (rank P : nat) (c1 : Z)
  : res (Z * Z * (bool * bool) * list Z) :=
  let total := zprod shape in
  match split with
  | None => Ok (c1, c1 + (total / 2 + total mod 2), (false, negb (total mod 2 =? 0)), shape)   (* L136-141 *)
  | Some s =>
      let n := nth s shape 0 in
      if n =? 0 then Err ZeroDivisionError else
      let counts := map Z.of_nat (counts_of (Z.to_nat n) P) in                                 (* L144 *)
      let lshape := upd shape s (Z.of_nat (snd (chunk_1d (Z.to_nat n) rank P))) in             (* L143 *)
      let le := map (fun c => total / n * c) counts in                                         (* L147 *)
      let cum := match rank with O => 0 | S k => fcum le k end in                              (* L148 *)
      let even_start := match rank with O => true | S _ => cum mod 2 =? 0 end in               (* L151 *)
      let start := cum / 2 + c1 in                                                             (* L152 *)
      let e := nth rank le 0 in                                                                (* L153: elements = e / 2 *)
      let '(len, sl) :=
        if even_start then if e mod 2 =? 0 then (e / 2, (false, false))                        (* L155-163 *)
                           else (e / 2 + 1, (false, true))
        else if e mod 2 =? 0 then (e / 2 + 1, (true, true))                                    (* L164-173 *)
             else (e / 2 + 1, (true, false)) in
      Ok (start, start + len, sl, lshape)
  end.

(** L119-219: result on one rank and the new value of the global counter *)
Definition counter_sequence (b counter : Z) (shape : list Z) (split : option nat) (rank P : nat)
  : res (list Z * list Z * list Z * (bool * bool) * Z) :=
  let c0 := Z.shiftr (Z.land counter (Z.shiftl (mcount b) b)) b in             (* L126-129 *)
  let c1 := Z.land counter (mcount b) in                                       (* L130 *)
  do rg <- local_range shape split rank P c1;
  let '(start, stop, sl, lshape) := rg in
  (* L214: ceil(total_elements / 2): an int64 tensor divided by 2 is float32 *)
  let used := (fl32 (zprod shape) + 1) / 2 in
  Ok (x0_seq b c0 start stop, x1_seq b start stop, lshape, sl,
      Z.land (counter + used) (2 ^ 128 - 1)).                                  (* L216-217 *)

(** L497-502: cipher, interleave, slice (the conversion to floats is element-wise).
    [F] is the cipher with its seed. *)
Definition local_values (F : Z * Z -> Z * Z) (x0 x1 : list Z) (sl : bool * bool) : list Z :=
  take_slice sl (flat_map (fun p => [fst (F p); snd (F p)]) (combine x0 x1)).

(** the words behind ht.random.rand / randint on one rank: reshape(lshape) raises when
    the number of values is wrong *)
Definition random_words (b : Z) (F : Z * Z -> Z * Z) (counter : Z) (shape : list Z) (split : option nat)
    (rank P : nat) : res (arr Z * Z) :=
  do q <- counter_sequence b counter shape split rank P;
  let '(x0, x1, lshape, sl, counter') := q in
  let vals := local_values F x0 x1 sl in
  if Z.of_nat (length vals) =? zprod lshape
  then Ok (mk_arr lshape (fun idx => nth (Z.to_nat (ravel lshape idx)) vals 0), counter')
  else Err RuntimeError.

(** L625-630 randint: (values.abs_() % span) + low; abs of the most negative word is
    itself; torch's % has the sign of the (positive) divisor *)
Definition randint_value (b low high v : Z) : Z := wrapb b (wrapb b (Z.abs v) mod (high - low) + low).

(** * Generator state: seed L888-914, get_state L222-239, set_state L917-967.
    torch's own generator is its seed and the number of draws made since. *)
Inductive alg := Threefry | Batchparallel.
Record rng := mk_rng { g_alg : alg; g_seed : option Z; g_localseed : option Z; g_counter : option Z;
                       g_torch : Z * nat }.
(** what get_state returns: algorithm, seed, counter or local seed (two constants left out) *)
Definition get_state (g : rng) : alg * option Z * option Z :=
  match g_alg g with Threefry => (Threefry, g_seed g, g_counter g)
                   | Batchparallel => (Batchparallel, g_seed g, g_localseed g) end.
(** int(None) raises TypeError; [rank] = MPI_WORLD.rank *)
Definition set_state (rank : Z) (g : rng) (s : alg * option Z * option Z) : res rng :=
  let '(a, s1, s2) := s in
  match a with
  | Threefry =>                                                                   (* L952-957 *)
      match s1, s2 with
      | Some sd, Some c => Ok (mk_rng Threefry (Some sd) (g_localseed g) (Some c) (sd, 0%nat))
      | _, _ => Err TypeError
      end
  | Batchparallel =>                                                              (* L958-967 *)
      match s1 with
      | Some sd => Ok (mk_rng (g_alg g) (Some sd) (Some (sd + rank)) (g_counter g) (sd + rank, 0%nat))
      | None => match s2 with
                | Some l => Ok (mk_rng (g_alg g) None (Some l) (g_counter g) (l, 0%nat))
                | None => Err TypeError
                end
      end
  end.
Definition seed (rank : Z) (g : rng) (sd : Z) : rng :=
  match g_alg g with
  | Threefry => mk_rng Threefry (Some sd) None (Some 0) (sd, 0%nat)                              (* L904-908 *)
  | Batchparallel => mk_rng Batchparallel (Some sd) (Some (sd + rank)) None (sd + rank, 0%nat)   (* L910-914 *)
  end.

(** A draw: rand / randint / randn of a given shape, or permutation / randperm (which
    always use torch's generator).  Result: which values are produced. *)
Inductive draw := DRand (bits : Z) (shape : list Z) (split : option nat) | DPerm.
Inductive drawn := FromCounter (r : res (arr Z)) | FromTorch (s : Z) (k : nat).
Definition do_draw (rank P : nat) (g : rng) (d : draw) : rng * option drawn :=
  match d with
  | DPerm => (mk_rng (g_alg g) (g_seed g) (g_localseed g) (g_counter g) (fst (g_torch g), S (snd (g_torch g))),
              Some (FromTorch (fst (g_torch g)) (snd (g_torch g))))
  | DRand b sh sp =>
      match g_alg g with
      | Batchparallel => (mk_rng (g_alg g) (g_seed g) (g_localseed g) (g_counter g) (fst (g_torch g), S (snd (g_torch g))),
                          Some (FromTorch (fst (g_torch g)) (snd (g_torch g))))
      | Threefry =>
          match g_seed g, g_counter g with
          | Some sd, Some c =>
              let F := if b =? 32 then threefry32 sd else threefry64 sd in
              match random_words b F c sh sp rank P with
              | Ok (a, c') => (mk_rng (g_alg g) (g_seed g) (g_localseed g) (Some c') (g_torch g), Some (FromCounter (Ok a)))
              | Err e => (g, Some (FromCounter (Err e)))
              end
          | _, _ => (g, None)           (* int & None raises TypeError *)
          end
      end
  end.
Fixpoint draws (rank P : nat) (g : rng) (ds : list draw) : list (option drawn) :=
  match ds with [] => [] | d :: t => let (g', o) := do_draw rank P g d in o :: draws rank P g' t end.
Fixpoint after_draws (rank P : nat) (g : rng) (ds : list draw) : rng :=
  match ds with [] => g | d :: t => after_draws rank P (fst (do_draw rank P g d)) t end.

(** * permutation(x) for split = 0, L391-436.  [p] is the common random permutation
    (torch.randperm, broadcast or equally seeded), [d] the local arrays. *)
Close Scope Z_scope.
Definition chunk_starts (n P : nat) : list nat := map (fun i => fst (chunk_1d n i P)) (seq 0 P) ++ [n].   (* L402-403 *)
(** torch.where(v < cumsum)[0][0] - 1 *)
Definition owner (cs : list nat) (v : nat) : nat :=
  index_of 1 (map (fun c => if v <? c then 1 else 0) cs) - 1.
(** torch.argsort of a permutation: the position of k *)
Definition argsort (p : list nat) : list nat := map (fun k => index_of k p) (seq 0 (length p)).
Record pmsg (A : Type) := PMsg { p_dst : nat; p_tag : nat; p_val : A }.
Arguments PMsg {A}. Arguments p_dst {A}. Arguments p_tag {A}. Arguments p_val {A}.
(** the Isends of rank [r]; x.lloc[i] raises IndexError when the local array is
    smaller than the chunk *)
Definition perm_sends {A} (d : dist A) (p : list nat) (r : nat) : res (list (pmsg A)) :=
  let n := length p in
  let cs := chunk_starts n (length d) in
  let size := nth (S r) cs 0 - nth r cs 0 in                                    (* L406 *)
  if Nat.eqb (length (nth r d [])) 0 then Ok [] else                            (* L401 *)
  all_ok (map (fun i => match nth_error (nth r d []) i with
                        | None => Err IndexError
                        | Some v =>
                            let s := nth (nth r cs 0 + i) (argsort p) 0 in
                            let proc := owner cs s in                           (* L417 *)
                            Ok (PMsg proc (s - nth proc cs 0) v)                (* L418-419 *)
                        end) (seq 0 size)).
(** the Irecvs of rank [r]: (source, tag) in order, L413-415 *)
Definition perm_recvs {A} (d : dist A) (p : list nat) (r : nat) : list (nat * nat) :=
  let n := length p in
  let cs := chunk_starts n (length d) in
  if Nat.eqb (length (nth r d [])) 0 then [] else
  map (fun i => (owner cs (nth (nth r cs 0 + i) p 0), i)) (seq 0 (nth (S r) cs 0 - nth r cs 0)).
(** messages from [q] to [r] with tag [t] *)
Definition perm_match {A} (sends : list (list (pmsg A))) (q r t : nat) : list A :=
  map p_val (filter (fun m => Nat.eqb (p_dst m) r && Nat.eqb (p_tag m) t) (nth q sends [])).
(** permutation(x): every Irecv completes with the matching message ([None]: the
    Waits at L421-422 never return) *)
Definition permutation0 {A} (d : dist A) (p : list nat) : option (res (dist A)) :=
  match all_ok (map (perm_sends d p) (seq 0 (length d))) with
  | Err e => Some (Err e)
  | Ok sends =>
      let recv r := map (fun qt => hd_error (perm_match sends (fst qt) r (snd qt))) (perm_recvs d p r) in
      if forallb (fun r => forallb (fun o => match o with Some _ => true | None => false end) (recv r)) (seq 0 (length d))
      then Some (Ok (map (fun r => flat_map (fun o => match o with Some v => [v] | None => [] end) (recv r)) (seq 0 (length d))))
      else None
  end.
(** permutation(x) for split <> 0 or None, L397-398: x[recv] (every local array is
    reordered along axis 0; see getitem_list for the distributed case) *)
