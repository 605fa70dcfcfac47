(** Model of heat/core/manipulations.py reshape L2093-2295 (and roll with axis=None, L2353). *)
From Verif Require Import Base LayoutModel NdSpec TensorSpec OpsModel RedistModel ShapeModel BinModel RollModel.
Open Scope Z_scope.

(** np_proxy.reshape(shape).shape, L2179-2199: one extent may be -1.
    Simplification: [shape] is already a sequence of ints. *)
Definition np_shape (gsh shape : list Z) : res (list Z) :=
  let n := zprod gsh in
  let unknown := filter (fun k => k =? -1) shape in
  let known := zprod (filter (fun k => negb (k =? -1)) shape) in
  if existsb (fun k => k <? -1) shape then Err ValueError
  else match unknown with
       | [] => if known =? n then Ok shape else Err ValueError
       | [_] => if (known =? 0) || negb (n mod known =? 0) then Err ValueError
                else Ok (map (fun k => if k =? -1 then n / known else k) shape)
       | _ => Err ValueError
       end.

(** torch: view a flat list of elements as a tensor of shape [sh] *)
Definition of_flat {A} (dflt : A) (sh : list Z) (l : list A) : res (arr A) :=
  if zprod sh =? Z.of_nat (length l)
  then Ok (mk_arr sh (fun idx => nth (Z.to_nat (dot idx (cstrides sh))) l dflt)) else Err RuntimeError.
(** comm.chunk(shape, split)[1] of rank r (communication.py L227-256; a shape without
    dimensions is not cut) *)
Definition chunk_shape (sh : list Z) (b r P : nat) : list Z :=
  upd sh b (Z.of_nat (snd (chunk_1d (Z.to_nat (nth b sh 0)) r P))).
Definition chunk_start (sh : list Z) (b r P : nat) : Z := Z.of_nat (fst (chunk_1d (Z.to_nat (nth b sh 0)) r P)).

(** resplit_(axis) of an already distributed array (data movement: C16, C17) *)
Definition resplit_any {A} (dflt : A) (x : dnd A) (b : option nat) : dnd A :=
  match d_split x, b with
  | Some s, Some k => if Nat.eqb s k then x else resplit_to dflt k x
  | Some _, None => resplit_none dflt x
  | None, _ => x
  end.

(** L2176-2295.  Returns the result and the input as the call leaves it (L2206: the input
    itself is re-split). *)
Definition reshape {A} (dflt : A) (x : dnd A) (shape : list Z) (new_split : axis_arg) : res (dnd A * dnd A) :=
  do sh <- np_shape (d_gshape x) shape;
  let P := length (d_locals x) in
  let x0 := match d_split x with Some _ => resplit_any dflt x (Some 0%nat) | None => x end in   (* L2205-2206 *)
  do ns <- sanitize_axis (length sh)                                                      (* L2211-2220 *)
             (match new_split with
              | AxNone => match d_split x with
                          | Some s => if Nat.eqb (length sh) (length (d_gshape x)) then AxInt (Z.of_nat s) else AxInt 0
                          | None => AxNone
                          end
              | a => a
              end);
  do ns <- match ns with AxNone => Ok None | AxInt k => Ok (Some (Z.to_nat k)) | _ => Err TypeError end;
  match d_split x0 with
  | Some _ =>
      if (1 <? P)%nat then
        let flats := map flat (d_locals x0) in                                            (* L2247-2265 *)
        let lsh r := chunk_shape sh 0 r P in
        let target := map (fun r => Z.to_nat (zprod (lsh r))) (seq 0 P) in                (* L2275-2281 *)
        do d <- (if forallb (fun p => Nat.eqb (fst p) (snd p)) (combine target (lens flats)) then Ok flats   (* L2282-2283 *)
                 else redistribute P flats (Some target));                                (* L2286-2288 *)
        do ls <- all_ok (map (fun r => of_flat dflt (lsh r) (nth r d [])) (seq 0 P));      (* L2283, L2289 *)
        Ok (resplit_any dflt (mk_dnd ls sh (Some 0%nat)) ns, x0)                           (* L2290-2300 *)
      else do ls <- all_ok (map (fun t => of_flat dflt sh (flat t)) (d_locals x0)); Ok (mk_dnd ls sh ns, x0)
  | None =>                                                                                (* L2222-2243 *)
      match ns with
      | Some k =>
          do ls <- all_ok (map (fun t => of_flat dflt sh (flat t)) (d_locals x0));
          if (1 <? P)%nat
          then Ok (mk_dnd (map (fun p : nat * arr A => mk_arr (chunk_shape sh k (fst p) P)
                                  (fun idx => adat (snd p) (move_axis_idx k (chunk_start sh k (fst p) P) idx)))
                               (combine (seq 0 P) ls)) sh (Some k), x0)
          else Ok (mk_dnd ls sh (Some k), x0)
      | None => do ls <- all_ok (map (fun t => of_flat dflt sh (flat t)) (d_locals x0)); Ok (mk_dnd ls sh None, x0)
      end
  end.

(** roll(x, shift) with axis=None, L2352-2353: flatten, roll, reshape *)
Definition roll_flat {A} (dflt : A) (x : dnd A) (shift : Z) : option (res (dnd A)) :=
  match flatten dflt (length (d_locals x)) x with
  | Err e => Some (Err e)
  | Ok (d, sp) =>
      match all_ok (map (fun l => of_flat dflt [Z.of_nat (length l)] l) d) with
      | Err e => Some (Err e)
      | Ok ls =>
          bindo (roll dflt (mk_dnd ls [zprod (d_gshape x)] sp) (ShInt shift) (AxInt 0))
                (fun y => Some (do p <- reshape dflt y (d_gshape x) (match d_split x with Some s => AxInt (Z.of_nat s) | None => AxNone end);
                                Ok (fst p)))
      end
  end.
