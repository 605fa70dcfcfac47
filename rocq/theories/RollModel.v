(** Model of heat/core/manipulations.py: roll L2302-2492, flip L1123-1184, rot90 L2495-2583. *)
From Verif Require Import Base LayoutModel NdSpec TensorSpec OpsModel RedistModel ShapeModel BinModel.
Close Scope Z_scope. Open Scope nat_scope.

(** * Non-blocking exchange
    Every rank posts its Irecvs (source, tag) and Isends (destination, tag, value) and
    waits for all of them.  MPI matching: messages of one sender with one tag are matched
    by the receives for that sender and tag in posting order. *)
Record imsg (A : Type) := IMsg { i_dst : nat; i_tag : nat; i_val : A }.
Arguments IMsg {A}. Arguments i_dst {A}. Arguments i_tag {A}. Arguments i_val {A}.
Definition nb_match {A} (sends : list (list (imsg A))) (q r t : nat) : list A :=
  map i_val (filter (fun m => Nat.eqb (i_dst m) r && Nat.eqb (i_tag m) t) (nth q sends [])).
(** what the [k]-th Irecv of rank [r] obtains; [None]: it never completes *)
Definition nb_recv {A} (sends : list (list (imsg A))) (r : nat) (recvs : list (nat * nat)) (k : nat) : option A :=
  let (q, t) := nth k recvs (0, 0) in
  nth_error (nb_match sends q r t)
            (length (filter (fun x => Nat.eqb (fst x) q && Nat.eqb (snd x) t) (firstn k recvs))).
Fixpoint all_some {A} (l : list (option A)) : option (list A) :=
  match l with
  | [] => Some []
  | Some x :: t => match all_some t with Some r => Some (x :: r) | None => None end
  | None :: _ => None
  end.
(** [None]: some Wait never returns *)
Definition nb_exchange {A} (sends : list (list (imsg A))) (recvs : list (list (nat * nat))) : option (list (list A)) :=
  all_some (map (fun r => all_some (map (nb_recv sends r (nth r recvs [])) (seq 0 (length (nth r recvs [])))))
                (seq 0 (length recvs))).

(** * roll along the split axis, L2369-2411 *)
(** torch.repeat_interleave(arange(size), lshape_map): global index -> process, L2378 *)
Definition index_map (ls : list nat) : list nat := flat_map (fun r => repeat r (nth r ls 0)) (seq 0 (length ls)).
(** (index + shift) % n on int64 tensors: the result has the sign of n *)
Definition wrap_index (i : nat) (shift : Z) (n : nat) : nat := Z.to_nat ((Z.of_nat i + shift) mod Z.of_nat n).
Definition roll_sends {A} (d : dist A) (shift : Z) (r : nat) : list (imsg A) :=
  let ls := lens d in
  let n := list_sum ls in
  map (fun p => let si := wrap_index (psum ls r + fst p) shift n in             (* L2381-2385 *)
                IMsg (nth si (index_map ls) 0) si (snd p))                      (* L2401-2404 *)
      (combine (seq 0 (length (nth r d []))) (nth r d [])).
Definition roll_recvs {A} (d : dist A) (shift : Z) (r : nat) : list (nat * nat) :=
  let ls := lens d in
  let n := list_sum ls in
  map (fun i => let ri := wrap_index (psum ls r + i) (- shift) n in             (* L2386 *)
                (nth ri (index_map ls) 0, psum ls r + i))                       (* L2393-2396 *)
      (seq 0 (length (nth r d []))).
Definition roll_split {A} (d : dist A) (shift : Z) : option (dist A) :=
  nb_exchange (map (roll_sends d shift) (seq 0 (length d))) (map (roll_recvs d shift) (seq 0 (length d))).

Open Scope Z_scope.
(** torch.roll of a local tensor along one dimension; along several: one after the other *)
Definition torch_roll1 {A} (t : arr A) (sa : Z * nat) : arr A :=
  let (s, a) := sa in
  mk_arr (ash t) (fun idx => adat t (upd idx a ((nth a idx 0 - s) mod nth a (ash t) 0))).
Definition torch_roll {A} (t : arr A) (sas : list (Z * nat)) : arr A := fold_left torch_roll1 sas t.

(** roll of an n-dimensional array along its split axis: slabs move *)
Definition roll_nd_split {A} (dflt : A) (x : dnd A) (s : nat) (shift : Z) : option (dnd A) :=
  match roll_split (map (slabs s) (d_locals x)) shift with
  | Some d => Some (mk_dnd (map (unslabs dflt s (d_gshape x)) d) (d_gshape x) (d_split x))
  | None => None
  end.
Inductive shift_arg := ShInt (s : Z) | ShSeq (l : list Z).
(** L2347-2492, axis given.  [None]: the call never returns.  An int is handled like a
    list of one (L2357-2411 and L2483; L2413-2431 repeat an int shift for every axis). *)
Definition roll_pairs {A} (dflt : A) (x : dnd A) (sas : list (Z * nat)) : option (dnd A) :=
  let rest s := filter (fun p : Z * nat => negb (Nat.eqb (snd p) s)) sas in
  match d_split x with
  | Some s =>
      if (1 <? length (d_locals x))%nat && mem_nat s (map snd sas) then           (* L2466 *)
        let shift_split := zsum (map fst (filter (fun p => Nat.eqb (snd p) s) sas)) in  (* L2468-2475 *)
        match roll_nd_split dflt x s shift_split with                             (* L2478, L2369-2411 *)
        | Some y => Some (mk_dnd (map (fun t => torch_roll t (rest s)) (d_locals y)) (d_gshape x) (d_split x))
        | None => None
        end
      else Some (mk_dnd (map (fun t => torch_roll t sas) (d_locals x)) (d_gshape x) (d_split x))
  | None => Some (mk_dnd (map (fun t => torch_roll t sas) (d_locals x)) (d_gshape x) (d_split x))
  end.
Definition roll {A} (dflt : A) (x : dnd A) (shift : shift_arg) (axis : axis_arg) : option (res (dnd A)) :=
  match sanitize_axis (length (d_gshape x)) axis with                              (* L2350 *)
  | Err e => Some (Err e)
  | Ok ax =>
      let go sas := option_map (@Ok _) (roll_pairs dflt x sas) in
      match shift, ax with
      | ShInt s, AxInt a => go [(s, Z.to_nat a)]
      | ShInt s, AxTuple l => go (map (fun a => (s, Z.to_nat a)) l)                (* L2419-2431 *)
      | ShSeq ss, AxTuple l => if Nat.eqb (length ss) (length l)                   (* L2444-2447 *)
                               then go (combine ss (map Z.to_nat l)) else Some (Err ValueError)
      | ShSeq _, AxInt _ => Some (Err TypeError)                                   (* L2441-2442 *)
      | _, AxNone => Some (Err NotImplementedErr)     (* axis=None: flatten, roll, reshape (L2353); not modelled here *)
      | _, AxOther => Some (Err TypeError)
      end
  end.
(** The caller's shift argument after the call: sanitize_sequence returns a list argument
    itself (sanitation.py L363), and L2475 deletes from it. *)
Definition shift_after {A} (x : dnd A) (ss : list Z) (axes : list nat) : list Z :=
  match d_split x with
  | Some s => if (1 <? length (d_locals x))%nat && mem_nat s axes
              then map fst (filter (fun p => negb (Nat.eqb (snd p) s)) (combine ss axes)) else ss
  | None => ss
  end.

(** * flip, L1151-1184 *)
(** torch.flip of a local tensor; RuntimeError if a dimension is repeated *)
Definition flip_idx (sh : list Z) (axes : list nat) (idx : list Z) : list Z :=
  map (fun k => if mem_nat k axes then nth k sh 0 - 1 - nth k idx 0 else nth k idx 0) (seq 0 (length idx)).
Fixpoint nodupb (l : list nat) : bool := match l with [] => true | x :: t => negb (mem_nat x t) && nodupb t end.
Definition torch_flip {A} (t : arr A) (axes : list nat) : arr A := mk_arr (ash t) (fun idx => adat t (flip_idx (ash t) axes idx)).
(** balance_ of an n-dimensional array moves slabs (dndarray.py L565-603) *)
Definition balance_nd {A} (dflt : A) (x : dnd A) (s : nat) : res (dnd A) :=
  do d <- balance (length (d_locals x)) (map (slabs s) (d_locals x));
  Ok (mk_dnd (map (unslabs dflt s (d_gshape x)) d) (d_gshape x) (d_split x)).
(** L1151-1159: the axes as a tuple *)
Definition flip_axes (ndim : nat) (axis : axis_arg) : axis_arg :=
  match axis with
  | AxNone => AxTuple (map Z.of_nat (seq 0 ndim))
  | AxInt a => AxTuple [a]
  | a => a
  end.
Definition flip {A} (dflt : A) (x : dnd A) (axis : axis_arg) : option (res (dnd A)) :=
  let n := length (d_gshape x) in
  match sanitize_axis n (flip_axes n axis) with                                    (* L1161 *)
  | Err e => Some (Err e)
  | Ok (AxTuple l) =>
      let axes := map Z.to_nat l in
      if negb (nodupb axes) then Some (Err RuntimeError) else                      (* torch.flip, L1163 *)
      let P := length (d_locals x) in
      let flipped := map (fun t => torch_flip t axes) (d_locals x) in
      match d_split x with
      | Some s =>
          if (1 <? P)%nat && mem_nat s axes then                                   (* L1165 *)
            let dest r := (P - 1 - r)%nat in                                       (* L1173 *)
            match nb_exchange (map (fun r => [IMsg (dest r) 0%nat (nth r flipped (mk_arr [] (fun _ => dflt)))]) (seq 0 P))
                              (map (fun r => [(dest r, 0%nat)]) (seq 0 P)) with    (* L1174-1179 *)
            | None => None
            | Some ls => Some (balance_nd dflt (mk_dnd (concat ls) (d_gshape x) (Some s)) s)   (* L1181-1182 *)
            end
          else Some (Ok (mk_dnd flipped (d_gshape x) (Some s)))
      | None => Some (Ok (mk_dnd flipped (d_gshape x) None))
      end
  | Ok _ => Some (Err TypeError)                                                   (* torch.flip(t, None) *)
  end.

(** * rot90, L2546-2583 (m.split given) *)
Definition bindo {A B} (m : option (res A)) (f : A -> option (res B)) : option (res B) :=
  match m with None => None | Some (Err e) => Some (Err e) | Some (Ok a) => f a end.
Definition rot90 {A} (dflt : A) (x : dnd A) (k : Z) (a0 a1 : Z) : option (res (dnd A)) :=
  let n := length (d_gshape x) in
  let zn := Z.of_nat n in
  if (a0 =? a1) || (Z.abs (a0 - a1) =? zn) then Some (Err ValueError)              (* L2553-2554 *)
  else if (zn <=? a0) || (a0 <? - zn) || (zn <=? a1) || (a1 <? - zn) then Some (Err ValueError)  (* L2556-2557 *)
  else
    let k := k mod 4 in                                                            (* L2569 *)
    if k =? 0 then Some (Ok x)                                                     (* L2571-2572 *)
    else if k =? 2 then bindo (flip dflt x (AxInt a0)) (fun y => flip dflt y (AxInt a1))   (* L2573-2574 *)
    else
      match py_pos n a0, py_pos n a1 with                                          (* L2576-2577 *)
      | Ok p0, Ok p1 =>
          let axes := seq 0 n in
          let axl := map Z.of_nat (upd (upd axes p0 (nth p1 axes 0%nat)) p1 (nth p0 axes 0%nat)) in
          if k =? 1 then bindo (flip dflt x (AxInt a1)) (fun y => Some (transpose y (Some axl)))   (* L2579-2580 *)
          else match transpose x (Some axl) with                                   (* L2583 *)
               | Ok y => flip dflt y (AxInt a1)
               | Err e => Some (Err e)
               end
      | _, _ => Some (Err IndexError)
      end.
