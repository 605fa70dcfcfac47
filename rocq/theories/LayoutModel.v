(** Model of the layout arithmetic of heat/core/communication.py and
    heat/core/stride_tricks.py. *)
From Verif Require Import Base.

(** An axis argument: None, an int, a tuple of ints, or something else (float,
    str, ...).  Simplification: tuples contain ints only (a tuple with a non-int
    entry raises from the comparison in L164). *)
Inductive axis_arg := AxNone | AxInt (z : Z) | AxTuple (l : list Z) | AxOther.

(** stride_tricks.py L116-180 sanitize_axis; [ndim] = len(shape). *)
Definition sanitize_axis (ndim : nat) (axis : axis_arg) : res axis_arg :=
  let n := Z.of_nat ndim in
  let axis := if Nat.eqb ndim 0 then AxNone else axis in           (* L158-159 *)
  match axis with
  | AxOther => Err TypeError                                       (* L161-162 *)
  | AxTuple l =>                                                   (* L163-170 *)
      let l' := map (fun d => if (d <? 0)%Z then (d + n)%Z else d) l in
      if existsb (fun d => (d <? 0)%Z || (n <=? d)%Z) l' then Err ValueError
      else Ok (AxTuple l')
  | AxNone => Ok AxNone                                            (* L172-173 *)
  | AxInt a =>
      if (0 <=? a)%Z && (a <? n)%Z then Ok (AxInt a)               (* L172-173 *)
      else let a' := if (a <? 0)%Z then (a + n)%Z else a in        (* L174-175 *)
           if (a' <? 0)%Z || (n <=? a')%Z then Err ValueError      (* L177-178 *)
           else Ok (AxInt a')
  end.

(** communication.py L236-245: start and length of one rank's chunk of an axis of
    extent [size] over [wsize] processes. *)
Definition chunk_1d (size rank wsize : nat) : nat * nat :=
  let chunk := size / wsize in
  let remainder := size mod wsize in
  if rank <? remainder                                              (* L240 *)
  then (rank * (chunk + 1), chunk + 1)                              (* L241-242 *)
  else (rank * chunk + remainder, chunk).                           (* L243-244 *)

(** communication.py L197-254 MPICommunication.chunk (dense result); the slices
    are (start, stop) pairs.  ranks and extents are natural numbers. *)
Definition chunk (shape : list nat) (split : axis_arg) (rank wsize : nat)
  : res (nat * list nat * list (nat * nat)) :=
  do split <- sanitize_axis (length shape) split;                   (* L227 *)
  match split with
  | AxNone => Ok (0, shape, map (fun e => (0, e)) shape)            (* L228-229 *)
  | AxInt a =>
      if Nat.eqb wsize 0 then Err ZeroDivisionError else
      let s := Z.to_nat a in
      let size := nth s shape 0 in
      let (start, len) := chunk_1d size rank wsize in
      let stop := start + len in                                    (* L245 *)
      Ok (start,
          map (fun i => if Nat.eqb i s then stop - start else nth i shape 0)
              (seq 0 (length shape)),
          map (fun i => if Nat.eqb i s then (start, stop) else (0, nth i shape 0))
              (seq 0 (length shape)))                               (* L250-254 *)
  | _ => Err TypeError                     (* tuple used as an index, L236 *)
  end.

(** communication.py L247-248: sparse=True returns (start, end). *)
Definition chunk_sparse (size rank wsize : nat) : nat * nat :=
  let (start, len) := chunk_1d size rank wsize in (start, start + len).

(** torch.cumsum(counts[:-1], out=displs[1:]) *)
Fixpoint displs_from (acc : nat) (counts : list nat) : list nat :=
  match counts with [] => [] | c :: t => acc :: displs_from (acc + c) t end.

(** communication.py L256-284 counts_displs_shape: counts, displs, output shape
    as computed on rank [rank]. *)
Definition counts_of (size wsize : nat) : list nat :=
  map (fun r => size / wsize + (if r <? size mod wsize then 1 else 0)) (seq 0 wsize).  (* L272-273 *)
Definition counts_displs_shape (shape : list nat) (axis rank wsize : nat)
  : list nat * list nat * list nat :=
  let counts := counts_of (nth axis shape 0) wsize in
  let displs := displs_from 0 counts in                                                (* L276-277 *)
  (counts, displs, upd shape axis (wsize * nth rank counts 0)).                        (* L281-284 *)

(** torch.broadcast_shapes (called at stride_tricks.py L53 and L107): the result
    starts as all ones of the maximal length and each shape is merged into it
    aligned at the last dimension.  Lists here are reversed (last dim first). *)
Fixpoint bmerge (result shape : list nat) : option (list nat) :=
  match shape, result with
  | [], _ => Some result
  | s :: shape', r :: result' =>
      match bmerge result' shape' with
      | None => None
      | Some t => if Nat.eqb s 1 || Nat.eqb s r then Some (r :: t)
                  else if Nat.eqb r 1 then Some (s :: t) else None
      end
  | _ :: _, [] => None
  end.
Fixpoint bmerge_all (result : list nat) (shapes : list (list nat)) : option (list nat) :=
  match shapes with
  | [] => Some result
  | s :: t => match bmerge result (rev s) with None => None | Some r => bmerge_all r t end
  end.
(** stride_tricks.py L64-113 broadcast_shapes: RuntimeError becomes ValueError. *)
Definition broadcast_shapes (shapes : list (list nat)) : res (list nat) :=
  let m := fold_right Nat.max 0 (map (@length nat) shapes) in
  match bmerge_all (repeat 1 m) shapes with
  | Some r => Ok (rev r)
  | None => Err ValueError
  end.
(** stride_tricks.py L12-61 broadcast_shape. *)
Definition broadcast_shape (a b : list nat) : res (list nat) := broadcast_shapes [a; b].

(** stride_tricks.py L183-225 sanitize_shape for sequences of ints ([lval] lower bound). *)
Definition sanitize_shape (shape : list Z) (lval : Z) : res (list Z) :=
  if existsb (fun d => (d <? lval)%Z) shape then Err ValueError else Ok shape.

(** stride_tricks.py L228-258 sanitize_slice. *)
Definition sanitize_slice (start stop step : option Z) (max_dim : Z) : Z * Z * Z :=
  let s0 := match start with None => 0%Z | Some x => x end in
  let s0 := if (s0 <? 0)%Z then (s0 + max_dim)%Z else s0 in
  let s1 := match stop with None => max_dim | Some x => x end in
  let s1 := if (s1 <? 0)%Z then (s1 + max_dim)%Z else s1 in
  let s2 := match step with None => 1%Z | Some x => x end in
  (s0, s1, s2).
