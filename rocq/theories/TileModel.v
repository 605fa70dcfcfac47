(** Model of heat/core/manipulations.py tile L4152-4404.  [reps] is the list of repetitions
    after its conversion to a list of ints (L4201-4240, not modelled, like the conversion of
    scalars for x).  torch.empty (L4283) leaves arbitrary values in memory: [junk r q] is what
    rank r finds at its slab q.  One list entry per rank. *)
From Verif Require Import Base LayoutModel NdSpec TensorSpec OpsModel RedistModel ShapeModel BinModel ReshapeModel RepeatSpec RepeatModel.
Open Scope Z_scope.

(** torch.Tensor.repeat with as many repetitions as dimensions, none negative *)
Definition torch_tile {A} (reps : list Z) (t : arr A) : arr A :=
  mk_arr (times (ash t) reps) (fun idx => adat t (modulo_idx idx (ash t))).

(** * Repetition along axis 0, the split axis (L4279-4385) *)
Section Exchange.
  Context {A : Type} (dflt : A) (xs : dist A) (n R : nat).
  Let P := length xs.
  (** counts_displs() of x and of the balanced result, L4286-4291, L4338-4342 *)
  Definition x_start (j : nat) : nat := psum (lens xs) j.
  Definition x_end (j : nat) : nat := (x_start j + nth j (lens xs) 0)%nat.
  Definition t_count (r : nat) : nat := nth r (counts_of (n * R) P) 0%nat.
  Definition t_start (r : nat) : nat := psum (counts_of (n * R) P) r.
  Definition t_end (r : nat) : nat := (t_start r + t_count r)%nat.
  (** L4319-4329: what copy k of rank j's slabs and rank r's part of the result have in common *)
  Definition lo (k j r : nat) : nat := Nat.max (x_start j + n * k) (t_start r).
  Definition hi (k j r : nat) : nat := Nat.min (x_end j + n * k) (t_end r).
  (** counts and displacements of the Alltoallv of repetition k, L4344-4381; pairs without
      common slabs are not in the lists and keep 0, 0 *)
  Definition count (k j r : nat) : nat := if (0 <? hi k j r - lo k j r)%nat then (hi k j r - lo k j r)%nat else 0%nat.
  Definition send_displ (k j r : nat) : nat := if (0 <? hi k j r - lo k j r)%nat then (lo k j r - n * k - x_start j)%nat else 0%nat.
  Definition recv_displ (k j r : nat) : nat := if (0 <? hi k j r - lo k j r)%nat then (lo k j r - t_start r)%nat else 0%nat.
  (** L4363-4367: rank j's send buffer *)
  Definition send_buf (k j : nat) : list A :=
    sub (nth j xs []) (send_displ k j 0) (list_sum (map (count k j) (seq 0 P))).
  (** l[a:a+len(rows)] = rows *)
  Definition write (l : list A) (a : nat) (rows : list A) : list A := firstn a l ++ rows ++ skipn (a + length rows) l.
  (** Alltoallv as seen by the receiver r *)
  Definition alltoallv (k r : nat) (buf : list A) : list A :=
    fold_left (fun b j => write b (recv_displ k j r) (sub (send_buf k j) (send_displ k j r) (count k j r))) (seq 0 P) buf.
  (** one repetition, L4354-4385: state = (t_tiled, recv_buf) of rank r *)
  Definition repetition (r : nat) (st : list A * list A) (k : nat) : list A * list A :=
    let buf := alltoallv k r (snd st) in
    let a := recv_displ k 0 r in                                                      (* all_recv_displs[0], L4378-4380 *)
    let len := list_sum (map (fun j => count k j r) (seq 0 P)) in
    (write (fst st) a (sub buf a len), buf).                                          (* L4385 *)
  Definition tile_rank (junk : nat -> nat -> A) (r : nat) : list A :=
    let t := map (junk r) (seq 0 (t_count r)) in                                      (* L4283; recv_buf: a clone, L4352 *)
    fst (fold_left (repetition r) (seq 0 R) (t, t)).
End Exchange.

Definition tile_split {A} (dflt : A) (x : dnd A) (R : Z) (junk : nat -> nat -> list Z -> A) : dnd A :=
  let n := nth 0 (d_gshape x) 0 in
  let xs := map (slabs 0) (d_locals x) in
  mk_dnd (map (fun r => unslabs dflt 0 (d_gshape x) (tile_rank xs (Z.to_nat n) (Z.to_nat R) junk r)) (seq 0 (length xs)))
         (upd (d_gshape x) 0 (n * R)) (Some 0%nat).

(** L4272-4273: swap the entries at 0 and s *)
Definition swap {B} (s : nat) (l : list B) (d : B) : list B := upd (upd l 0 (nth s l d)) s (nth 0 l d).
Definition local_tile {A} (x : dnd A) (reps : list Z) : dnd A :=
  mk_dnd (map (torch_tile reps) (d_locals x)) (times (d_gshape x) reps) (d_split x).

(** tile L4242-4403; the second component is x after the call (reshape changes the split of its argument, C36) *)
Definition tile {A} (dflt : A) (x : dnd A) (reps : list Z) (junk : nat -> nat -> list Z -> A) : res (dnd A * dnd A) :=
  let dim := length (d_gshape x) in
  do p <- (if (dim <? length reps)%nat then                                           (* L4243-4248 *)
             let added := (length reps - dim)%nat in
             do p <- reshape dflt x (repeat 1 added ++ d_gshape x)
                       (match d_split x with None => AxNone | Some s => AxInt (Z.of_nat (s + added)) end);
             Ok (p, reps)
           else Ok (x, x, repeat 1 (dim - length reps) ++ reps));                     (* L4250 *)
  let '(x1, x', reps) := p in
  if existsb (fun k => k <? 0) reps then Err RuntimeError                             (* torch, L4252 *)
  else
    match d_split x1 with
    | None => Ok (local_tile x1 reps, x')                                             (* L4254-4266 *)
    | Some s =>
        if negb (1 <? length (d_locals x1))%nat || (nth s reps 0 =? 1) then Ok (local_tile x1 reps, x')
        else
          let axes := swap s (map Z.of_nat (seq 0 (length (d_gshape x1)))) 0 in       (* L4270-4276 *)
          let reps1 := swap s reps 0 in
          do x2 <- (if Nat.eqb s 0 then Ok x1 else transpose x1 (Some axes));
          let t := tile_split dflt x2 (nth 0 reps1 0) junk in
          let t := local_tile t (upd reps1 0 1) in                                    (* L4388-4397 *)
          do y <- (if Nat.eqb s 0 then Ok t else transpose t (Some axes));            (* L4398-4401 *)
          Ok (y, x')
    end.
