(** Model of heat/core/_operations.py: cumulative and reduction operations. *)
From Verif Require Import Base LayoutModel NdSpec TensorSpec.

(** * __cum_op, _operations.py L234-335

    The array is a list of slabs along the scanned axis when that axis is the split
    axis; the binary operation acts slab by slab (element-wise, [op]). *)
(** torch.cumsum / torch.cumprod along the axis on one rank (partial_op, L299-304) *)
Fixpoint lscan_from {A} (op : A -> A -> A) (acc : A) (l : list A) : list A :=
  match l with [] => [] | x :: t => let y := op acc x in y :: lscan_from op y t end.
Definition lscan {A} (op : A -> A -> A) (l : list A) : list A :=
  match l with [] => [] | x :: t => x :: lscan_from op x t end.

(** L307-318: the last slab of the local scan, or a slab of neutral elements *)
Definition cum_send {A} (e : A) (cumop : list A) : A := last cumop e.

(** comm.Exscan L325, communication.py L1114-1128 and __reduce_like L982-1085: rank 0
    keeps what was in the receive buffer (L319-324: neutral elements); rank r > 0
    receives send_0 op ... op send_{r-1}.  With one process Exscan is skipped
    (__reduce_like L1066) and the buffer keeps the neutral elements as well. *)
Definition exscan_recv {A} (op : A -> A -> A) (e : A) (sends : list A) (r : nat) : A :=
  match firstn r sends with [] => e | x :: t => fold_left op t x end.

Definition cum_op {A} (op : A -> A -> A) (e : A) (d : dist A) : dist A :=
  let cums := map (lscan op) d in
  let sends := map (cum_send e) cums in
  map (fun r => map (fun x => op x (exscan_recv op e sends r)) (nth r cums []))     (* L326 *)
      (seq 0 (length d)).

(** L283-286 and L306: axis handling.  [scan_in ax] is the local scan along an axis
    other than the split axis, which acts inside every slab. *)
Definition cum_op_axis {A} (op : A -> A -> A) (e : A) (scan_in : Z -> A -> A)
    (ndim : nat) (split : option nat) (axis : axis_arg) (d : dist A) : res (dist A) :=
  match axis with
  | AxNone => Err NotImplementedErr                                               (* L283-284 *)
  | _ =>
    do ax <- sanitize_axis ndim axis;                                             (* L285 *)
    match ax with
    | AxInt a =>
        match split with
        | Some s => if Z.eqb a (Z.of_nat s) then Ok (cum_op op e d)               (* L306 *)
                    else Ok (map (map (scan_in a)) d)
        | None => Ok (map (map (scan_in a)) d)
        end
    | _ => Err TypeError           (* partial_op(larray, tuple) / partial_op(larray, None) *)
    end
  end.

(** * __reduce_op, _operations.py L415-545 (without the argmax/argmin special cases
    of L519-524) *)
Open Scope Z_scope.

(** one keepdim reduction along [d]: partial_op(partial, dim=d, keepdim=True), L490 *)
Definition reduce_dim {A} (op : A -> A -> A) (e : A) (d : nat) (t : arr A) : arr A :=
  mk_arr (upd (ash t) d 1)
    (fun idx => fold_right op e (map (fun j => adat t (upd idx d j)) (zr (nth d (ash t) 0)))).

(** L486-490: [strict] = partial_op is local_max / local_min, skipped on empty tensors *)
Definition reduce_step {A} (op : A -> A -> A) (e : A) (strict : bool) (t : arr A) (d : nat) : arr A :=
  if (zprod (ash t) =? 0) && strict then t else reduce_dim op e d t.

Definition full {A} (sh : list Z) (v : A) : arr A := mk_arr sh (fun _ => v).
Definition mem_nat (k : nat) (l : list nat) : bool := existsb (Nat.eqb k) l.
Definition has_zero (l : list Z) : bool := existsb (Z.eqb 0) l.

(** torch.reshape: elements keep their row-major position; RuntimeError if the number
    of elements differs. *)
Definition ravel (sh idx : list Z) : Z := dot idx (cstrides sh).
Definition reshape {A} (e : A) (t : arr A) (sh : list Z) : res (arr A) :=
  if zprod (ash t) =? zprod sh
  then Ok (mk_arr sh (fun idx => nth (Z.to_nat (ravel sh idx)) (map (adat t) (row_major (ash t))) e))
  else Err RuntimeError.

(** L462-475: the tensor the local reduction starts from *)
Definition start_partial {A} (neutral : A) (gsh : list Z) (split : option nat) (P : nat)
    (axis : option (list nat)) (lt : arr A) : arr A :=
  match split with
  | Some s =>
      if (1 <? P)%nat && has_zero (ash lt)
         && match axis with None => true | Some ax => mem_nat s ax end
      then full (upd gsh s 1) neutral
      else lt
  | None => lt
  end.

(** [tuple(shape[dim] for dim in range(len(shape)) if dim not in axis)], L494-495 *)
Definition losedim (sh : list Z) (axes : list nat) : list Z :=
  map (fun d => nth d sh 0) (filter (fun d => negb (mem_nat d axes)) (seq 0 (length sh))).

(** L477-503 on one rank: the local partial result *)
Definition local_reduce {A} (op : A -> A -> A) (e : A) (strict : bool) (lsh : list Z)
    (axis : option (list nat)) (keepdims : bool) (partial : arr A) : res (arr A) :=
  match axis with
  | None =>
      if strict && (zprod (ash partial) =? 0) then Err RuntimeError       (* torch.max of an empty tensor *)
      else Ok (mk_arr [] (fun _ => fold_right op e (map (adat partial) (row_major (ash partial)))))
  | Some axes =>
      let p := fold_left (reduce_step op e strict) axes partial in
      if negb keepdims && negb (length (ash p) =? 1)%nat then             (* L493 *)
        let l0 := losedim lsh axes in                                     (* L495 *)
        let l1 := if mem_nat 0 axes && negb (nth 0 (ash p) 0 =? 1)        (* L498-499 *)
                  then nth 0 (ash p) 0 :: l0 else l0 in
        let l2 := if negb (mem_nat 0 axes) && negb (nth 0 (ash p) 0 =? nth 0 lsh 0)
                  then nth 0 (ash p) 0 :: tl l1 else l1 in                (* L500-501 *)
        match l2 with [] => Ok p | _ => reshape e p l2 end                (* L502-503 *)
      else Ok p
  end.

(** L477-496: the global shape of the result *)
Definition out_shape (gsh : list Z) (axis : option (list nat)) (keepdims : bool) : list Z :=
  match axis with
  | None => []
  | Some axes => if negb keepdims && negb (length gsh =? 1)%nat
                 then losedim gsh axes
                 else fold_left (fun s d => upd s d 1) axes gsh
  end.

(** comm.Allreduce(IN_PLACE, partial, op), L509: every rank gets the combination *)
Definition allreduce {A} (op : A -> A -> A) (ps : list (arr A)) : list (arr A) :=
  match ps with
  | [] => []
  | p0 :: rest =>
      map (fun p => mk_arr (ash p) (fun idx => fold_left op (map (fun q => adat q idx) rest) (adat p0 idx))) ps
  end.

Fixpoint all_ok {A} (l : list (res A)) : res (list A) :=
  match l with
  | [] => Ok []
  | m :: t => do x <- m; do xs <- all_ok t; Ok (x :: xs)
  end.

(** normalised axes as natural numbers, L453-455 *)
Definition axes_of (ndim : nat) (axis : axis_arg) : res (option (list nat)) :=
  do ax <- sanitize_axis ndim axis;
  match ax with
  | AxNone => Ok None
  | AxInt a => Ok (Some [Z.to_nat a])
  | AxTuple l => Ok (Some (map Z.to_nat l))
  | AxOther => Err TypeError
  end.

Record reduced (A : Type) := mk_reduced { r_locals : list (arr A); r_gshape : list Z; r_split : option nat }.
Arguments mk_reduced {A} _ _ _. Arguments r_locals {A} _. Arguments r_gshape {A} _. Arguments r_split {A} _.

(** [neutral]: what empty ranks are filled with (a parameter of __reduce_op);
    [e]: the value torch's own reduction gives for an empty range. *)
Definition reduce_op {A} (op : A -> A -> A) (e neutral : A) (strict : bool) (gsh : list Z) (split : option nat)
    (locals : list (arr A)) (axis : axis_arg) (keepdims : bool) : res (reduced A) :=
  do axes <- axes_of (length gsh) axis;
  let P := length locals in
  do partials <- all_ok (map (fun lt => local_reduce op e strict (ash lt) axes keepdims
                                          (start_partial neutral gsh split P axes lt)) locals);
  let osh := out_shape gsh axes keepdims in
  match split with
  | None => Ok (mk_reduced partials osh None)
  | Some s =>
      if match axes with None => true | Some ax => mem_nat s ax end                  (* L506 *)
      then Ok (mk_reduced (if (1 <? P)%nat then allreduce op partials else partials) osh None)
      else match axes with
           | Some ax => if keepdims then Ok (mk_reduced partials osh (Some s))
                        else Ok (mk_reduced partials osh
                                  (Some (s - length (filter (fun d => (d <? s)%nat) ax))%nat))   (* L511-513 *)
           | None => Err TypeError
           end
  end.
