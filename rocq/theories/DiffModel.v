(** Model of heat/core/arithmetics.py diff L916-1051 without prepend/append (these call
    concatenate, C54).  One list entry per rank; [minus] is torch's subtraction. *)
From Verif Require Import Base LayoutModel NdSpec TensorSpec OpsModel PySpec PySpecSel IndexModel ShapeModel BinModel RollModel.
Open Scope Z_scope.

Section Diff.
Context {A : Type} (minus : A -> A -> A) (one dflt : A).
Definition ext (axis : nat) (t : arr A) : Z := nth axis (ash t) 0.

(** L1014-1019: the first slab along the axis (index 0; the whole, empty, array if the extent is 0);
    the dropped axis is kept with extent 1 here, the elements and their order are the same *)
Definition first_slab (axis : nat) (t : arr A) : arr A := mk_arr (upd (ash t) axis (Z.min (ext axis t) 1)) (adat t).
(** L1030-1041: a buffer of ones with as many elements as one slab of the receiver; a longer
    message is an MPI truncation error, a shorter one leaves the rest of the buffer *)
Definition receive (axis : nat) (t next : arr A) : res (list A) :=
  let msg := flat (first_slab axis next) in
  let size := Z.to_nat (zprod (ash (first_slab axis t))) in
  if (size <? length msg)%nat then Err RuntimeError else Ok (msg ++ repeat one (size - length msg)).
(** one iteration on rank [r]: L1022-1025 differences inside the rank, L1027-1045 the last slab *)
Definition diff_rank (axis : nat) (ts : list (arr A)) (r : nat) (t : arr A) : res (arr A) :=
  let m := ext axis t in
  let inner idx := minus (adat t (move_axis_idx axis 1 idx)) (adat t idx) in
  match nth_error ts (S r) with
  | None => Ok (mk_arr (ash t) (fun idx => if nth axis idx 0 <? m - 1 then inner idx else adat t idx))
  | Some next =>
      do buf <- receive axis t next;
      let sh1 := upd (ash t) axis (Z.min m 1) in
      Ok (mk_arr (ash t) (fun idx => if nth axis idx 0 <? m - 1 then inner idx
                                     else minus (nth (Z.to_nat (ravel sh1 (upd idx axis 0))) buf one) (adat t idx)))
  end.
Definition diff_step (axis : nat) (m : res (list (arr A))) : res (list (arr A)) :=
  do ts <- m; all_ok (map (fun p => diff_rank axis ts (fst p) (snd p)) (combine (seq 0 (length ts)) ts)).

(** L1047-1049: ret[..., :-n, ...] (C13 along the split axis, local otherwise) *)
Definition narrow (axis : nat) (n : Z) (t : arr A) : arr A := mk_arr (upd (ash t) axis (Z.max 0 (ext axis t - n))) (adat t).
Definition trim (x : dnd A) (s axis : nat) (n : Z) : res (dnd A) :=
  let gsh := upd (d_gshape x) axis (Z.max 0 (nth axis (d_gshape x) 0 - n)) in
  let ts := if Nat.eqb axis s then d_locals x else map (narrow axis n) (d_locals x) in
  let stop := if Nat.eqb axis s then Some (- n) else None in
  let d := map (slabs s) ts in
  do d' <- all_ok (map (getitem_slice d None stop None) (seq 0 (length d)));
  Ok (mk_dnd (map (unslabs dflt s gsh) d') gsh (Some s)).

(** L993-1001: not distributed *)
Definition diff_local (axis : nat) (t : arr A) : arr A :=
  mk_arr (upd (ash t) axis (Z.max 0 (ext axis t - 1))) (fun idx => minus (adat t (move_axis_idx axis 1 idx)) (adat t idx)).

Definition diff (x : dnd A) (n axis : Z) : res (dnd A) :=
  if n =? 0 then Ok x                                                                (* L951-952 *)
  else if n <? 0 then Err ValueError                                                 (* L953-954 *)
  else
    do ax <- sanitize_axis (length (d_gshape x)) (AxInt axis);                       (* L958 *)
    match ax with
    | AxInt a =>
        let a := Z.to_nat a in
        match d_split x with
        | Some s =>
            if (1 <? length (d_locals x))%nat then
              do ts <- Nat.iter (Z.to_nat n) (diff_step a) (Ok (d_locals x));
              do y <- trim (mk_dnd ts (d_gshape x) (Some s)) s a n;
              balance_nd dflt y s                                                    (* L1050 *)
            else Ok (mk_dnd (map (fun t => Nat.iter (Z.to_nat n) (diff_local a) t) (d_locals x)) (upd (d_gshape x) a (Z.max 0 (nth a (d_gshape x) 0 - n))) (Some s))
        | None => Ok (mk_dnd (map (fun t => Nat.iter (Z.to_nat n) (diff_local a) t) (d_locals x)) (upd (d_gshape x) a (Z.max 0 (nth a (d_gshape x) 0 - n))) None)
        end
    | _ => Err ValueError
    end.
End Diff.
