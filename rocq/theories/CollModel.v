(** Model of the collectives in a single process: heat/core/communication.py
    [__broadcast_like] L816-850, [__reduce_like] L982-1085, [__allgather_like] L1283-1385,
    [__alltoall_like] L1487-1628, [__gather_like] L1960-2071, [__scatter_like] L2219-2333
    and [_copyto] L2553-2564, for [is_distributed() == False] (L191: one process).

    Memory is a list of storages; a torch tensor or a NumPy array is a strided view of
    one of them.  Simplifications: one element type (casts of [copy_] not modelled), CPU
    only, a DNDarray argument is its [larray]. *)
From Verif Require Import Base.

Section Coll.
Context {V : Type}.
Variable junk : V.
Definition mem := list (list V).

(** a strided view: storage, storage_offset, shape, stride *)
Record view := View { v_sto : nat; v_off : nat; v_shape : list nat; v_stride : list nat }.

Inductive buf :=
| BTensor (t : view)     (* torch.Tensor or DNDarray.larray *)
| BNumpy (t : view)      (* numpy.ndarray *)
| BInPlace               (* MPI.IN_PLACE *)
| BOther.

(** all index tuples of a shape, row by row *)
Fixpoint indices (shape : list nat) : list (list nat) :=
  match shape with
  | [] => [[]]
  | n :: rest => flat_map (fun i => map (cons i) (indices rest)) (seq 0 n)
  end.
Fixpoint dot (idx st : list nat) : nat :=
  match idx, st with i :: idx', s :: st' => i * s + dot idx' st' | _, _ => 0 end.
(** storage positions of the elements, in traversal order *)
Definition pos_at (t : view) (idx : list nat) : nat := v_off t + dot idx (v_stride t).
Definition positions (t : view) : list nat := map (pos_at t) (indices (v_shape t)).
Definition read (m : mem) (t : view) (idx : list nat) : V := nth (pos_at t idx) (nth (v_sto t) m []) junk.
(** the elements of a tensor in traversal order *)
Definition elems (m : mem) (t : view) : list V := map (read m t) (indices (v_shape t)).

Definition numel (t : view) : nat := fold_right Nat.mul 1 (v_shape t).
(** row-major strides of a fresh tensor *)
Fixpoint cstride (shape : list nat) : list nat :=
  match shape with [] => [] | _ :: rest => fold_right Nat.mul 1 rest :: cstride rest end.
(** torch Tensor.is_contiguous: strides of axes with one element do not matter, and a
    tensor without elements is contiguous *)
Fixpoint contig_strides (shape st : list nat) : bool :=
  match shape, st with
  | n :: rest, s :: st' => (Nat.eqb n 1 || Nat.eqb s (fold_right Nat.mul 1 rest)) && contig_strides rest st'
  | _, _ => true
  end.
Definition is_contiguous (t : view) : bool := Nat.eqb (numel t) 0 || contig_strides (v_shape t) (v_stride t).

(** L1035-1059: [tmp = buf.contiguous(); buf.set_(tmp.untyped_storage(), ...)]: the
    tensor object is re-pointed to a fresh storage holding a copy of its elements *)
Definition make_contiguous (m : mem) (t : view) : mem * view :=
  if is_contiguous t then (m, t)
  else (m ++ [elems m t], View (length m) 0 (v_shape t) (cstride (v_shape t))).

(** Broadcasting of the source to the shape of the destination, aligned at the last axis. *)
Fixpoint bc_ok (src dst : list nat) : bool :=     (* both reversed *)
  match src, dst with
  | [], _ => true
  | _ :: _, [] => false
  | a :: src', b :: dst' => (Nat.eqb a b || Nat.eqb a 1) && bc_ok src' dst'
  end.
Definition bc_idx (src idx : list nat) : list nat :=
  map (fun p => if Nat.eqb (fst p) 1 then 0 else snd p) (combine src (skipn (length idx - length src) idx)).

(** [dst.copy_(src)] / [np.copyto(dst, src)]: the source is read before anything is
    written (source and destination do not overlap in the theorems) *)
Definition write_all (sto : list V) (l : list (nat * V)) : list V :=
  fold_left (fun s p => upd s (fst p) (snd p)) l sto.
Definition copy_into (m : mem) (dst src : view) : res mem :=
  if bc_ok (rev (v_shape src)) (rev (v_shape dst)) then
    let vals := map (fun idx => (pos_at dst idx, read m src (bc_idx (v_shape src) idx))) (indices (v_shape dst)) in
    Ok (upd m (v_sto dst) (write_all (nth (v_sto dst) m []) vals))
  else Err RuntimeError.

(** L2553-2564 [_copyto(sendbuf, recvbuf)].  The NumPy branch calls
    [np.copyto(sendbuf, recvbuf)], whose first parameter is the destination. *)
Definition copyto (m : mem) (sendbuf recvbuf : buf) : res mem :=
  match recvbuf with
  | BTensor r =>
      match sendbuf with
      | BTensor s | BNumpy s => copy_into m r s
      | _ => Err TypeError                    (* copy_ needs a tensor *)
      end
  | BNumpy r =>
      match sendbuf with
      | BTensor s | BNumpy s => copy_into m s r
      | _ => Err TypeError
      end
  | _ => Err NotImplementedErr
  end.

Definition is_tensor (b : buf) : bool := match b with BTensor _ => true | _ => false end.
Definition is_in_place (b : buf) : bool := match b with BInPlace => true | _ => false end.

(** result: memory and the two buffer objects afterwards *)
Definition outcome := res (mem * buf * buf).

(** L1022-1065; [exscan] tells whether func is Exscan or Iexscan *)
Definition reduce_like (exscan : bool) (m : mem) (sendbuf recvbuf : buf) : outcome :=
  match sendbuf with
  | BInPlace => Ok (m, sendbuf, recvbuf)
  | BTensor s =>
      match recvbuf with
      | BTensor r =>
          if negb (Nat.eqb (numel s) (numel r)) then Err ValueError                     (* L1029 *)
          else
            let '(m1, s1, r1) :=
              if (if list_eq_dec Nat.eq_dec (v_stride s) (v_stride r) then false else true)
                 || negb (Nat.eqb (v_off s) (v_off r))                                  (* L1033-1036 *)
              then let (ma, sa) := make_contiguous m s in
                   let (mb, rb) := make_contiguous ma r in (mb, sa, rb)
              else (m, s, r) in
            if exscan then Ok (m1, BTensor s1, BTensor r1)                              (* L1061 *)
            else bind (copyto m1 (BTensor s1) (BTensor r1)) (fun m2 => Ok (m2, BTensor s1, BTensor r1))
      | _ => Err AttributeError                                                         (* recvbuf.numel() *)
      end
  | _ => Err AttributeError                                                             (* sendbuf.numel() *)
  end.

(** L1316-1339; counts and displacements of *v calls are unpacked and not used *)
Definition allgather_like (m : mem) (sendbuf recvbuf : buf) (axis : nat) : outcome :=
  if (negb (is_tensor sendbuf) || negb (is_tensor recvbuf)) && negb (Nat.eqb axis 0) then Err TypeError
  else bind (copyto m sendbuf recvbuf) (fun m2 => Ok (m2, sendbuf, recvbuf)).

Definition swap_nth (a b : nat) (l : list nat) : list nat := upd (upd l a (nth b l 0)) b (nth a l 0).
(** Tensor.swapaxes / ndarray.swapaxes *)
Definition swapaxes (a b : nat) (t : view) : view :=
  View (v_sto t) (v_off t) (swap_nth a b (v_shape t)) (swap_nth a b (v_stride t)).
Definition on_view (f : view -> view) (b : buf) : buf :=
  match b with BTensor t => BTensor (f t) | BNumpy t => BNumpy (f t) | _ => b end.

(** L1522-1561 *)
Definition alltoall_like (m : mem) (sendbuf recvbuf : buf) (send_axis recv_axis : option nat) : outcome :=
  match send_axis with
  | None => Err NotImplementedErr
  | Some sa =>
      let ra := match recv_axis with None => sa | Some ra => ra end in
      if (negb (is_tensor sendbuf) || negb (is_tensor recvbuf)) && negb (Nat.eqb sa 0) then Err TypeError
      else
        match sendbuf, recvbuf with
        | BTensor s, BTensor r | BTensor s, BNumpy r | BNumpy s, BTensor r | BNumpy s, BNumpy r =>
            let s' := if list_eq_dec Nat.eq_dec (v_shape s) (v_shape r) then sendbuf
                      else on_view (swapaxes sa ra) sendbuf in
            bind (copyto m s' recvbuf) (fun m2 => Ok (m2, sendbuf, recvbuf))
        | _, _ => Err AttributeError                                                    (* .shape *)
        end
  end.

(** L2000-2027 and L2259-2286 *)
Definition gather_scatter_like (m : mem) (sendbuf recvbuf : buf) (send_axis : nat) (recv_axis : option nat) : outcome :=
  let ra := match recv_axis with None => send_axis | Some ra => ra end in
  if negb (is_tensor sendbuf) && negb (Nat.eqb send_axis 0) then Err TypeError
  else if negb (is_tensor recvbuf) && negb (Nat.eqb ra 0) then Err TypeError
  else if negb (is_in_place sendbuf) || negb (is_in_place recvbuf)                       (* L2025, L2284 *)
  then bind (copyto m sendbuf recvbuf) (fun m2 => Ok (m2, sendbuf, recvbuf))
  else Ok (m, sendbuf, recvbuf).

(** L839 *)
Definition broadcast_like (m : mem) (b : buf) : outcome := Ok (m, b, b).

(** The calls a user makes. *)
Inductive collective :=
| CReduce                          (* Allreduce, Reduce, Scan and their I-variants *)
| CExscan                          (* Exscan, Iexscan *)
| CAllgather (axis : nat)          (* Allgather, Allgatherv, I-variants *)
| CAlltoall (send_axis recv_axis : option nat)
| CGather (send_axis : nat) (recv_axis : option nat)
| CScatter (send_axis : nat) (recv_axis : option nat).
Definition run (c : collective) (m : mem) (sendbuf recvbuf : buf) : outcome :=
  match c with
  | CReduce => reduce_like false m sendbuf recvbuf
  | CExscan => reduce_like true m sendbuf recvbuf
  | CAllgather axis => allgather_like m sendbuf recvbuf axis
  | CAlltoall sa ra => alltoall_like m sendbuf recvbuf sa ra
  | CGather sa ra | CScatter sa ra => gather_scatter_like m sendbuf recvbuf sa ra
  end.
End Coll.
