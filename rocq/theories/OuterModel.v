(** Model of outer, heat/core/linalg/basics.py L1273-1499, on two vectors (operands of higher
    dimension are flattened first, C44; dtypes and out= are not modelled). *)
From Verif Require Import Base LayoutModel NdSpec SchedModel RingModel OpsModel ShapeModel.
Set Implicit Arguments.
Open Scope nat_scope.

(** a vector: the local pieces, and whether split is 0 or None *)
Record vec (A : Type) := mk_vec { v_loc : dist A; v_split : bool }.
Definition vlen {A} (x : vec A) : nat := if v_split x then length (glob (v_loc x)) else length (nth 0 (v_loc x) []).

Section Outer.
Variables (A C : Type) (mul : A -> A -> C) (zero : C) (dflt : A).
(** a.resplit_(axis=0) on an array with split=None, L1415-1420 (C16) *)
Definition resplit0 (x : vec A) : vec A :=
  if v_split x then x else
  let P := length (v_loc x) in
  mk_vec (map (fun r => let '(st, len) := chunk_1d (length (nth r (v_loc x) [])) r P in sub (nth r (v_loc x) []) st len) (seq 0 P)) true.

(** one process: the piece that travels, the receive buffer, the local part of the result,
    indexed by the position in the stationary piece and in the travelling global vector *)
Record ost := mk_ost { o_run : list A; o_buf : list A; o_acc : nat -> nat -> C }.
Section Run.
(** [val u w]: product of a stationary and a travelling element *)
Variables (P N : nat) (val : A -> A -> C) (kept trav : dist A).
Definition lmap : list nat := lens trav.                                  (* create_lshape_map, L1429, L1434 *)
(** t_outer[slice] = einsum(...): the extents must agree, or the piece has one element and is
    broadcast; otherwise torch raises *)
Definition assign (k : list A) (q : nat) (run : list A) (acc : nat -> nat -> C) : res (nat -> nat -> C) :=
  let '(st, len) := chunk_1d N q P in
  if Nat.eqb (length run) len || Nat.eqb (length run) 1 then
    Ok (fun i g => if (st <=? g) && (g <? st + len)
                   then val (nth i k dflt) (nth (if Nat.eqb (length run) 1 then 0 else g - st) run dflt)
                   else acc i g)
  else Err RuntimeError.
(** L1427-1447 *)
Definition start (r : nat) : res ost :=
  let run := nth r trav [] in
  let z := fun _ _ => zero in
  do acc <- (if Nat.eqb (nth r lmap 0) 0 then Ok z else assign (nth r kept []) r run z);
  Ok (mk_ost run (repeat dflt (nth 0 lmap 0)) acc).
(** round p of the ring, L1449-1479.  A message longer than the buffer is an MPI truncation
    error.  A process that has failed goes on sending empty messages (simplification). *)
Definition actual_origin (r p : nat) : nat :=
  let origin := left P r in if origin <? p then origin + P - p else origin - p.    (* L1453-1456 *)
Definition o_out (r p : nat) (s : res ost) : list A := match s with Ok o => o_run o | Err _ => [] end.
Definition o_inc (r p : nat) (s : res ost) (m : list A) : res ost :=
  do o <- s;
  if length (o_buf o) <? length m then Err RuntimeError else
  let buf := m ++ skipn (length m) (o_buf o) in                           (* Recv into t_b_run *)
  let q := actual_origin r p in
  let run := firstn (nth q lmap 0) buf in                                 (* L1462, L1472 *)
  do acc <- assign (nth r kept []) q run (o_acc o);                       (* L1463-1479 *)
  Ok (mk_ost run buf acc).
Definition ring_result : list (res ost) :=
  ring_rounds P o_out o_inc (Err OutOfFuel) (P - 1) (map start (seq 0 P)).
End Run.

(** the product, and the operands after the call; [split] is 0, 1 or None *)
Definition outer (split : option nat) (a b : vec A) : res (dnd C) * vec A * vec A :=
  let P := length (v_loc a) in
  let na := vlen a in let nb := vlen b in
  let gsh := [Z.of_nat na; Z.of_nat nb] in
  if ((1 <? P) && (match split with None => false | _ => true end)) || v_split a || v_split b then     (* L1409 *)
    let a := resplit0 a in let b := resplit0 b in                         (* L1415-1420 *)
    match split with
    | Some 1 =>                                                           (* L1433-1437: a travels *)
        (do ss <- all_ok (ring_result P na (fun u w => mul w u) (v_loc b) (v_loc a));
         Ok (mk_dnd (map (fun p => mk_arr [Z.of_nat na; Z.of_nat (length (nth (fst p) (v_loc b) []))]
                                     (fun i => o_acc (snd p) (Z.to_nat (nth 1 i 0%Z)) (Z.to_nat (nth 0 i 0%Z))))
                       (combine (seq 0 P) ss)) gsh (Some 1)), a, b)
    | Some (S (S _)) => (Err RuntimeError, a, b)                          (* unbound t_outer_shape, L1438 *)
    | _ =>                                                                (* L1421-1432: b travels *)
        (do ss <- all_ok (ring_result P nb mul (v_loc a) (v_loc b));
         Ok (mk_dnd (map (fun p => mk_arr [Z.of_nat (length (nth (fst p) (v_loc a) [])); Z.of_nat nb]
                                     (fun i => o_acc (snd p) (Z.to_nat (nth 0 i 0%Z)) (Z.to_nat (nth 1 i 0%Z))))
                       (combine (seq 0 P) ss)) gsh (Some 0)), a, b)
    end
  else                                                                    (* L1480-1483 *)
    (Ok (mk_dnd (map (fun r => mk_arr gsh (fun i => mul (nth (Z.to_nat (nth 0 i 0%Z)) (nth r (v_loc a) []) dflt)
                                                       (nth (Z.to_nat (nth 1 i 0%Z)) (nth r (v_loc b) []) dflt)))
                     (seq 0 P)) gsh None), a, b).
End Outer.
