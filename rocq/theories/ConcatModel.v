(** Model of heat/core/manipulations.py concatenate L446-770 (and hstack, vstack, column_stack
    through it).  Dtype promotion is not modelled.  All ranks compute the same lshape_map and
    chunk_map, so the point-to-point part is a list of Isend/Recv pairs (a trace of
    RedistModel.xfer: off the top of the sender onto the bottom of the receiver when the sender
    has the higher rank, and the other way round). *)
From Verif Require Import Base LayoutModel NdSpec TensorSpec NdLemmas OpsModel RedistModel ShapeModel ShapeSpec BinModel ReshapeModel FactoryModel.
Open Scope nat_scope.

(** * both arrays split along the concatenation axis: bookkeeping, L602-707 *)
(** one (sender, receiver) pair, L645-662 and L690-707.  [c]: chunk_map[:, axis]; the state is
    lshape_map[k, :, axis] and the messages so far.  The sender's own computation (L631-644,
    L674-689) uses the same numbers: its local extent is lshape_map[k, spr]. *)
Definition pair_step (c : list nat) (spr : nat) (b : list nat * list xfer) (pr : nat) : list nat * list xfer :=
  let '(l, tr) := b in
  let want := absdiff (nth pr c 0) (nth pr l 0) in                    (* abs(...), L646, L691 *)
  let snt := if want <? nth spr l 0 then want else nth spr l 0 in     (* L647-651, L692-696 *)
  let l := upd l pr (nth pr l 0 + snt) in                             (* L661, L706 *)
  let l := upd l spr (nth spr l 0 - snt) in                           (* L662, L707 *)
  (l, if snt =? 0 then tr else tr ++ [Xfer spr pr snt]).              (* L635, L652; L678, L698 *)
(** L628-662: the data of the first array moves to the front *)
Definition front_load (c l : list nat) : list nat * list xfer :=
  fold_left (fun b spr => fold_left (pair_step c spr) (seq 0 spr) b) (seq 1 (length c - 1)) (l, []).
(** L670-707: the data of the second array moves to the back *)
Definition back_load (c l : list nat) : list nat * list xfer :=
  fold_left (fun b spr => fold_left (pair_step c spr) (rev (seq (S spr) (length c - S spr))) b)
            (rev (seq 0 (length c))) (l, []).

(** L610-707, L761: local arrays of the result as slabs *)
Definition concat_slabs {A} (d0 d1 : dist A) : dist A :=
  let P := length d0 in
  let c := counts_of (length (glob d0) + length (glob d1)) P in       (* L611-619 *)
  let f := run_trace d0 (snd (front_load c (lens d0))) in
  let g := run_trace d1 (snd (back_load c (lens d1))) in
  map (fun p => fst p ++ snd p) (combine f g).                        (* L761 *)

Open Scope Z_scope.
(** torch.cat((t0, t1), dim): RuntimeError unless all other extents agree *)
Definition cat {A} (axis : nat) (t0 t1 : arr A) : res (arr A) :=
  if fits_left axis (ash t0) (ash t1)
  then Ok (mk_arr (upd (ash t0) axis (nth axis (ash t0) 0 + nth axis (ash t1) 0))
                  (fun idx => if nth axis idx 0 <? nth axis (ash t0) 0 then adat t0 idx
                              else adat t1 (upd idx axis (nth axis idx 0 - nth axis (ash t0) 0))))
  else Err RuntimeError.
Definition cats {A} (axis : nat) (l0 l1 : list (arr A)) : res (list (arr A)) :=
  all_ok (map (fun p => cat axis (fst p) (snd p)) (combine l0 l1)).
(** larray[chunk slice] of rank r (communication.py chunk) *)
Definition take_chunk {A} (sh : list Z) (s : nat) (P : nat) (r : nat) (t : arr A) : arr A :=
  cut (ash t) s t (chunk_start sh s r P) (nth s (chunk_shape sh s r P) 0).

(** t.clone().squeeze() and, when a dimension is missing, unsqueeze_(axis): L722, L729-733 *)
Definition squeeze_all {A} (t : arr A) : arr A :=
  let ones := filter (fun i => nth i (ash t) 0 =? 1) (seq 0 (length (ash t))) in
  mk_arr (drop_axes ones (ash t)) (fun idx => adat t (ins_from 0 ones (length (ash t)) idx)).
Definition squeeze_fix {A} (axis ndim : nat) (t : arr A) : res (arr A) :=
  let q := squeeze_all t in
  if (length (ash q) <? ndim)%nat then unsqueeze q axis else Ok q.

(** * one operand split along the axis, the other replicated, L709-760.
    [l]: the extents of the split operand after front/back loading *)
Definition piece {A} (axis : nat) (t : arr A) (off len : Z) : arr A := cut (ash t) axis t off len.
Definition none_first {A} (axis ndim : nat) (c l : list nat) (ls : list (arr A)) : res (list (arr A)) :=   (* L709-733 *)
  let need := map (fun p => Z.of_nat (fst p) - Z.of_nat (snd p)) (combine c l) in          (* L716 *)
  all_ok (map (fun p => squeeze_fix axis ndim (piece axis (snd p) (zsum (firstn (fst p) need)) (nth (fst p) need 0)))
              (combine (seq 0 (length ls)) ls)).
Definition none_second {A} (axis ndim : nat) (n1 : Z) (c l : list nat) (ls : list (arr A)) : res (list (arr A)) :=  (* L735-759 *)
  let need := map (fun p => Z.of_nat (fst p) - Z.of_nat (snd p)) (combine c l) in          (* L739 *)
  all_ok (map (fun p => squeeze_fix axis ndim
                          (piece axis (snd p) (n1 - zsum (skipn (fst p) need)) (nth (fst p) need 0)))
              (combine (seq 0 (length ls)) ls)).

(** * concatenate of two arrays, L530-770.
    Simplification: when torch.cat raises on any rank the call is an error. *)
Definition concat2 {A} (dflt : A) (x0 x1 : dnd A) (axis : axis_arg) : res (dnd A) :=
  do a <- match axis with AxInt _ => sanitize_axis (length (d_gshape x0)) axis | _ => Err TypeError end;   (* L533-535 *)
  match a with
  | AxInt az =>
    let axis := Z.to_nat az in
    let ndim := length (d_gshape x0) in
    if negb (Nat.eqb ndim (length (d_gshape x1))) then Err ValueError                       (* L537-538 *)
    else if negb (fits_left axis (d_gshape x1) (d_gshape x0)) then Err ValueError           (* L540-543 *)
    else
    let P := length (d_locals x0) in
    let n0 := nth axis (d_gshape x0) 0 in let n1 := nth axis (d_gshape x1) 0 in
    let osh := upd (d_gshape x0) axis (n0 + n1) in
    match d_split x0, d_split x1 with
    | None, None => do ls <- cats axis (d_locals x0) (d_locals x1); Ok (mk_dnd ls osh None)   (* L563-568 *)
    | None, Some s =>
        if negb (Nat.eqb s axis)
        then do ls <- cats axis (map (fun p => take_chunk (d_gshape x0) s P (fst p) (snd p))   (* L574-585 *)
                                      (combine (seq 0 P) (d_locals x0))) (d_locals x1);
             do y <- array_is_split ls s; Ok (fst y)
        else
          let c := counts_of (Z.to_nat (n0 + n1)) P in
          let d1 := map (slabs axis) (d_locals x1) in
          let '(l1, tr) := back_load c (lens d1) in
          let g := map (unslabs dflt axis (d_gshape x1)) (run_trace d1 tr) in
          do f <- none_first axis ndim c l1 (d_locals x0);
          do ls <- cats axis f g;
          do y <- array_is_split ls s; Ok (fst y)
    | Some s, None =>
        if negb (Nat.eqb s axis)
        then do ls <- cats axis (d_locals x0)
                                (map (fun p => take_chunk (d_gshape x1) s P (fst p) (snd p))
                                     (combine (seq 0 P) (d_locals x1)));
             do y <- array_is_split ls s; Ok (fst y)
        else
          let c := counts_of (Z.to_nat (n0 + n1)) P in
          let d0 := map (slabs axis) (d_locals x0) in
          let '(l0, tr) := front_load c (lens d0) in
          let f := map (unslabs dflt axis (d_gshape x0)) (run_trace d0 tr) in
          do g <- none_second axis ndim n1 c l0 (d_locals x1);
          do ls <- cats axis f g;
          do y <- array_is_split ls s; Ok (fst y)
    | Some s0, Some s1 =>
        if negb (Nat.eqb s0 s1) then Err RuntimeError                                       (* L571-572 *)
        else if negb (Nat.eqb s0 axis)
        then do ls <- cats axis (d_locals x0) (d_locals x1);                                (* L588-599 *)
             do y <- array_is_split ls s0; Ok (fst y)
        else
          let c := counts_of (Z.to_nat (n0 + n1)) P in
          let d0 := map (slabs axis) (d_locals x0) in
          let d1 := map (slabs axis) (d_locals x1) in
          let f := map (unslabs dflt axis (d_gshape x0)) (run_trace d0 (snd (front_load c (lens d0)))) in
          let g := map (unslabs dflt axis (d_gshape x1)) (run_trace d1 (snd (back_load c (lens d1)))) in
          do ls <- cats axis f g;                                                           (* L761-768 *)
          do y <- array_is_split ls s0; Ok (fst y)
    end
  | _ => (* arrays without dimensions: sanitize_axis returns None; torch.cat(dim=None) *) Err TypeError
  end.

(** more than two arrays, L521-528 *)
Definition concatenate {A} (dflt : A) (xs : list (dnd A)) (axis : axis_arg) : res (dnd A) :=
  match xs with
  | x0 :: x1 :: rest =>
      fold_left (fun acc x => do r <- acc; concat2 dflt r x axis) rest (concat2 dflt x0 x1 axis)
  | _ => Err ValueError
  end.
