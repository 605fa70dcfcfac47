(** Model of the shape-changing operations that must keep track of the split axis:
    heat/core/manipulations.py (expand_dims, squeeze, moveaxis, swapaxes, flatten, stack)
    and heat/core/linalg/basics.py (transpose).  Arrays are index functions (NdSpec);
    torch's view operations are modelled by what they do to indices. *)
From Verif Require Import Base LayoutModel NdSpec TensorSpec OpsModel RedistModel.
Open Scope Z_scope.

(** a DNDarray: local arrays, global shape, split *)
Record dnd (A : Type) := mk_dnd { d_locals : list (arr A); d_gshape : list Z; d_split : option nat }.
Arguments mk_dnd {A} _ _ _. Arguments d_locals {A} _. Arguments d_gshape {A} _. Arguments d_split {A} _.

(** Python list.insert for a non-negative position (clamped to the end) *)
Definition py_insert {A} (l : list A) (k : nat) (x : A) : list A := firstn k l ++ x :: skipn k l.
(** list.index *)
Fixpoint find_idx {A} (f : A -> bool) (l : list A) : option nat :=
  match l with [] => None | x :: t => if f x then Some 0%nat else option_map S (find_idx f t) end.
Definition remove_at {A} (k : nat) (l : list A) : list A := firstn k l ++ skipn (S k) l.

(** torch.unsqueeze(dim): IndexError outside [0, ndim] (dim already non-negative) *)
Definition unsqueeze {A} (t : arr A) (k : nat) : res (arr A) :=
  if (k <=? length (ash t))%nat
  then Ok (mk_arr (py_insert (ash t) k 1) (fun idx => adat t (remove_at k idx)))
  else Err IndexError.

(** expand_dims, manipulations.py L992-1062 *)
Definition expand_step {A} (m : res (list bool * list Z * list (arr A))) (ax : nat)
  : res (list bool * list Z * list (arr A)) :=
  do st <- m;
  let '(bkk, sh, ls) := st in
  do ls' <- all_ok (map (fun t => unsqueeze t ax) ls);                   (* L1042, L1049 *)
  Ok (py_insert bkk ax false, py_insert sh ax 1, ls').                  (* L1040-1041, L1047-1048 *)
Definition expand_dims {A} (x : dnd A) (axis : axis_arg) : res (dnd A) :=
  let n := length (d_gshape x) in
  let bkk := map (fun i => match d_split x with Some s => Nat.eqb i s | None => false end) (seq 0 n) in  (* L1030-1032 *)
  do axes <- match axis with
             | AxTuple l =>                                              (* L1036-1038 *)
                 do a <- sanitize_axis (n + length l) axis;
                 match a with AxTuple l' => Ok (map Z.to_nat l') | AxNone => Err TypeError (* iterating None *)
                            | _ => Err TypeError end
             | AxInt _ => do a <- sanitize_axis (n + 1) axis;            (* L1046 *)
                          match a with AxInt z => Ok [Z.to_nat z] | _ => Err TypeError end
             | AxNone => Err TypeError                                   (* list.insert(None, ...) L1047 *)
             | AxOther => Err TypeError
             end;
  do st <- fold_left expand_step axes (Ok (bkk, d_gshape x, d_locals x));
  let '(bkk', sh', ls') := st in
  Ok (mk_dnd ls' sh' (find_idx (fun b => b) bkk')).                      (* L1051-1062 *)

(** transpose, linalg/basics.py L1853-1909, for an explicit list of ints or None *)
(** torch.permute: RuntimeError / IndexError unless [axes] is a permutation *)
Definition is_perm (n : nat) (axes : list nat) : bool :=
  Nat.eqb (length axes) n && forallb (fun k => mem_nat k axes) (seq 0 n).
Definition inv_idx (axes : list nat) (idx' : list Z) : list Z :=
  map (fun j => match find_idx (Nat.eqb j) axes with Some p => nth p idx' 0 | None => 0 end) (seq 0 (length axes)).
Definition permute {A} (t : arr A) (axes : list nat) : arr A :=
  mk_arr (map (fun a => nth a (ash t) 0) axes) (fun idx' => adat t (inv_idx axes idx')).
Definition transpose {A} (x : dnd A) (axes : option (list Z)) : res (dnd A) :=
  let n := length (d_gshape x) in
  do ax <- match axes with
           | None => Ok (map Z.of_nat (rev (seq 0 n)))                    (* L1869-1870 *)
           | Some l => if Nat.eqb (length l) n                            (* L1879-1880 *)
                       then Ok (map (fun a => if a <? 0 then a + Z.of_nat n else a) l)   (* L1881-1885 *)
                       else Err ValueError
           end;
  do sp <- match d_split x with                                           (* L1888-1891 *)
           | None => Ok None
           | Some s => match find_idx (Z.eqb (Z.of_nat s)) ax with Some p => Ok (Some p) | None => Err ValueError end
           end;
  if existsb (fun a => (a <? - Z.of_nat n) || (Z.of_nat n <=? a)) ax then Err ValueError   (* torch IndexError, L1908-1909 *)
  else
    let axn := map (fun a => Z.to_nat (if a <? 0 then a + Z.of_nat n else a)) ax in  (* torch wraps negative dims itself *)
    if is_perm n axn
    then Ok (mk_dnd (map (fun t => permute t axn) (d_locals x)) (map (fun a => nth a (d_gshape x) 0) axn) sp)
    else Err ValueError.                                                  (* repeated dim, L1908-1909 *)

(** moveaxis, manipulations.py L1398-1424: the order handed to transpose.  Pairs are
    sorted by destination (Python sorts tuples lexicographically). *)
Fixpoint insert_pair (p : nat * nat) (l : list (nat * nat)) : list (nat * nat) :=
  match l with
  | [] => [p]
  | q :: t => if (fst p <? fst q)%nat || (Nat.eqb (fst p) (fst q) && (snd p <=? snd q)%nat)
              then p :: l else q :: insert_pair p t
  end.
Definition sort_pairs (l : list (nat * nat)) : list (nat * nat) := fold_right insert_pair [] l.
Definition moveaxis_order (n : nat) (src dst : list nat) : list nat :=
  fold_left (fun o p => py_insert o (fst p) (snd p)) (sort_pairs (combine dst src))   (* L1421-1422 *)
            (filter (fun k => negb (mem_nat k src)) (seq 0 n)).                        (* L1419 *)
Definition norm_axes (n : nat) (l : list Z) : res (list nat) :=
  do a <- sanitize_axis n (AxTuple l);
  match a with AxTuple l' => Ok (map Z.to_nat l') | _ => Err TypeError end.
Definition moveaxis {A} (x : dnd A) (src dst : list Z) : res (dnd A) :=
  let n := length (d_gshape x) in
  do s <- norm_axes n src; do d <- norm_axes n dst;
  if Nat.eqb (length s) (length d)                                                     (* L1416-1417 *)
  then transpose x (Some (map Z.of_nat (moveaxis_order n s d)))
  else Err ValueError.

(** swapaxes, L3376-3416: Python list indexing with possibly negative positions *)
Definition py_pos (n : nat) (i : Z) : res nat :=
  if (0 <=? i) && (i <? Z.of_nat n) then Ok (Z.to_nat i)
  else if (- Z.of_nat n <=? i) && (i <? 0) then Ok (Z.to_nat (i + Z.of_nat n))
  else Err IndexError.
Definition swapaxes {A} (x : dnd A) (a1 a2 : Z) : res (dnd A) :=
  let n := length (d_gshape x) in
  let axes := seq 0 n in
  do p1 <- py_pos n a1; do p2 <- py_pos n a2;
  let axes' := upd (upd axes p1 (nth p2 axes 0%nat)) p2 (nth p1 axes 0%nat) in          (* L3410 *)
  transpose x (Some (map Z.of_nat axes')).

(** resplit_(None): every rank obtains the whole array (heat/core/dndarray.py resplit_;
    its data movement is modelled in DtypeModel and proved in C16).  Here: the element at
    a global index is read from the rank owning it. *)
Fixpoint owner (cnts : list Z) (x : Z) : nat * Z :=
  match cnts with
  | [] => (0%nat, x)
  | c :: t => if x <? c then (0%nat, x) else let (r, y) := owner t (x - c) in (S r, y)
  end.
Definition gather {A} (gsh : list Z) (s : nat) (ls : list (arr A)) (dflt : A) : arr A :=
  mk_arr gsh (fun idx =>
    let cnts := map (fun t => nth s (ash t) 0) ls in
    let (r, y) := owner cnts (nth s idx 0) in
    match nth_error ls r with Some t => adat t (upd idx s y) | None => dflt end).
Definition resplit_none {A} (dflt : A) (x : dnd A) : dnd A :=
  match d_split x with
  | None => x
  | Some s => mk_dnd (map (fun _ => gather (d_gshape x) s (d_locals x) dflt) (d_locals x)) (d_gshape x) None
  end.

(** squeeze, L3137-3231.  Returns the squeezed array and the (possibly re-split) input. *)
Definition squeeze {A} (dflt : A) (x : dnd A) (axis : axis_arg) : res (dnd A * dnd A) :=
  let n := length (d_gshape x) in
  do a <- sanitize_axis n axis;                                                       (* L3196 *)
  do axes <- match a with
             | AxNone => Ok (filter (fun i => nth i (d_gshape x) 0 =? 1) (seq 0 n))     (* L3206-3207 *)
             | AxInt z => if nth (Z.to_nat z) (d_gshape x) 0 =? 1 then Ok [Z.to_nat z] else Err ValueError
             | AxTuple l => if forallb (fun z => nth (Z.to_nat z) (d_gshape x) 0 =? 1) l
                            then Ok (map Z.to_nat l) else Err ValueError               (* L3197-3204 *)
             | AxOther => Err TypeError
             end;
  let x' := match d_split x with                                                       (* L3209-3211 *)
            | Some s => if mem_nat s axes then resplit_none dflt x else x
            | None => x
            end in
  do ls <- all_ok (map (fun t => reshape dflt t (losedim (ash t) axes)) (d_locals x'));  (* L3213-3215 *)
  let sp := match d_split x' with                                                      (* L3218-3221 *)
            | Some s => Some (s - length (filter (fun d => (d <? s)%nat) axes))%nat
            | None => None
            end in
  Ok (mk_dnd ls (losedim (d_gshape x') axes) sp, x').

(** resplit(a, 0) (manipulations.py resplit; data movement modelled in DtypeModel, C17):
    the balanced layout along axis 0. *)
Definition resplit_to {A} (dflt : A) (b : nat) (x : dnd A) : dnd A :=
  match d_split x with
  | None => x
  | Some s =>
      let g := gather (d_gshape x) s (d_locals x) dflt in
      let P := length (d_locals x) in
      let size := Z.to_nat (nth b (d_gshape x) 0) in
      mk_dnd (map (fun r => let (off, len) := chunk_1d size r P in
                            mk_arr (upd (d_gshape x) b (Z.of_nat len))
                                   (fun idx => adat g (upd idx b (nth b idx 0 + Z.of_nat off))))
                  (seq 0 P)) (d_gshape x) (Some b)
  end.
(** torch.flatten of a local array *)
Definition flat {A} (t : arr A) : list A := map (adat t) (row_major (ash t)).
(** flatten, L1069-1116: the 1-D result as a distributed list *)
Definition flatten {A} (dflt : A) (fuel : nat) (x : dnd A) : res (dist A * option nat) :=
  match d_split x with
  | None => Ok (map flat (d_locals x), None)                                           (* L1095-1102 *)
  | Some s =>
      let x' := if (0 <? s)%nat then resplit_to dflt 0 x else x in                     (* L1104-1105 *)
      do d <- balance fuel (map flat (d_locals x'));                                   (* L1107-1114 *)
      Ok (d, Some 0%nat)
  end.

(** stack, L3326-3373, after sanitize_distribution has given all arrays the layout of
    the first (locals: one list of local arrays per operand) *)
Definition stack_local {A} (dflt : A) (ts : list (arr A)) (axis : nat) : res (arr A) :=
  match ts with
  | [] => Err ValueError
  | t0 :: _ =>
      if forallb (fun t => eqb_idx (ash t) (ash t0)) ts                                 (* torch.stack, L3350-3356 *)
      then Ok (mk_arr (py_insert (ash t0) axis (Z.of_nat (length ts)))
                      (fun idx => match nth_error ts (Z.to_nat (nth axis idx 0)) with
                                  | Some t => adat t (remove_at axis idx) | None => dflt end))
      else Err ValueError
  end.
Definition stack {A} (dflt : A) (xs : list (dnd A)) (axis : axis_arg) : res (dnd A) :=
  match xs with
  | target :: _ :: _ =>                                                                (* L3327-3330 *)
      do a <- sanitize_axis (length (d_gshape target) + 1) axis;                       (* L3342 *)
      match a with
      | AxInt z =>
          let k := Z.to_nat z in
          let sp := match d_split target with
                    | Some s => Some (if (k <=? s)%nat then S s else s)                (* L3344-3347 *)
                    | None => None
                    end in
          do ls <- all_ok (map (fun r => stack_local dflt (map (fun x => nth r (d_locals x) (mk_arr [] (fun _ => dflt))) xs) k)
                               (seq 0 (length (d_locals target))));
          Ok (mk_dnd ls (py_insert (d_gshape target) k (Z.of_nat (length xs))) sp)      (* L3343 *)
      | _ => Err TypeError
      end
  | _ => Err ValueError
  end.
