(** Model of heat/core/signal.py convolve L221-515 for one-dimensional signal and kernel, with the
    parts of _sanitize_conv_input (L20-174) that concern shapes, mode and stride.  Data types
    are not modelled (both operands have one element type).  One list entry per rank. *)
From Verif Require Import Base LayoutModel NdSpec TensorSpec OpsModel ShapeModel BinModel HaloModel PadSpec PadModel ConvSpec.
Open Scope nat_scope.

Section Conv.
Context {V : Type} (zero : V) (add mul : V -> V -> V).

(** torch.nn.functional.conv1d (cross-correlation) of one channel without padding *)
Definition correlate (sig w : list V) (p : nat) : V :=
  fold_right add zero (map (fun k => mul (nth (p + k) sig zero) (nth k w zero)) (seq 0 (length w))).
Definition conv1d (sig w : list V) (stride : nat) : res (list V) :=
  if length sig <? length w then Err RuntimeError
  else Ok (map (fun k => correlate sig w (k * stride)) (seq 0 ((length sig - length w) / stride + 1))).

Definition pieces (x : dnd V) : dist V := map flat (d_locals x).
Definition distributed (x : dnd V) : bool := match d_split x with Some _ => 1 <? length (d_locals x) | None => false end.
Definition extent (x : dnd V) : nat := Z.to_nat (nth 0 (d_gshape x) 0%Z).
(** lshape_map[r, 0] (dndarray.py L711-743) *)
Definition lmap (x : dnd V) (r : nat) : nat := match d_split x with Some _ => length (nth r (pieces x) []) | None => extent x end.
(** is_balanced (dndarray.py L1205-1250) with an actual check *)
Definition balanced_kernel (x : dnd V) : bool :=
  match d_split x with Some _ => forallb (fun r => Nat.eqb (lmap x r) (nth r (counts_of (extent x) (length (d_locals x))) 0)) (seq 0 (length (d_locals x))) | None => true end.

(** L402-405: fetch halos, array_with_halos, on rank [r] *)
Definition with_halo (d : dist V) (h r : nat) : res (list V) :=
  match get_halo d (Z.of_nat h) true true r (Halo None None false) with
  | HDone s => Ok (array_with_halos d r s)
  | HRaise e => Err e
  | HHang => Err OutOfFuel                                       (* a receive that never completes *)
  end.
(** L407-422: where the strided convolution of rank [r] starts *)
Definition local_index (d : dist V) (h M stride r : nat) : nat :=
  if Nat.eqb r 0 then 0
  else
    let i := Z.to_nat ((Z.of_nat (psum (lens d) r) - Z.of_nat h) mod Z.of_nat stride) in      (* L412-413 *)
    let i := if Nat.eqb i 0 then 0 else stride - i in                                          (* L415-416 *)
    if Nat.even M && Nat.eqb i 0 then stride else i.                                           (* L419-420 *)
(** the signal rank [r] convolves, L394-424 *)
Definition rank_signal (a v : dnd V) (stride r : nat) : res (list V) :=
  let d := pieces a in
  if distributed a then
    let h := fold_right Nat.max 0 (map (lmap v) (seq 0 (length (d_locals v)))) / 2 in          (* L395 *)
    do s <- with_halo d h r;
    Ok (if (1 <? stride) && negb (distributed v) then skipn (local_index d h (extent v) stride r) s else s)
  else Ok (nth r d []).

Inductive conv_res := Pieces (ls : dist V) (n : nat) (split : option nat) | Total (l : list V).

(** L493-515: the kernel is not distributed; what rank [r] returns *)
Definition conv_rank (a v : dnd V) (stride r : nat) : res (list V) :=
  do sig <- rank_signal a v stride r;
  let w := rev (nth r (pieces v) []) in                                                        (* L427, L429-436: lengths agree *)
  do out <- (if length w <=? length sig then conv1d sig w stride else Ok []);                  (* L495-501 *)
  Ok (if negb (Nat.eqb r 0) && Nat.even (extent v) && Nat.eqb stride 1 then skipn 1 out else out). (* L504-505 *)

(** L427-436, L444-491: the kernel is distributed.  flip (C38) leaves the reversed kernel in
    balanced pieces; shorter pieces are filled up with zeros in front. *)
Definition kernel_piece (v : list V) (P r : nat) : list V :=
  let cs := counts_of (length v) P in
  let p := sub (rev v) (psum cs r) (nth r cs 0) in
  repeat zero (nth 0 cs 0 - length p) ++ p.                                                    (* L429-434 *)
(** the filtered signal for the piece of rank [r], all ranks together (L451-466) *)
Definition filtered (a v : dnd V) (sigs : dist V) (r : nat) : res (list V) :=
  let w := kernel_piece (glob (pieces v)) (length (d_locals v)) r in
  do ls <- all_ok (map (fun q => do o <- conv1d (nth q sigs []) w 1;
                                 Ok (if negb (Nat.eqb q 0) && Nat.even (length w) then skipn 1 o else o)) (seq 0 (length sigs)));
  Ok (glob ls).
(** L468-485: accumulation; element-wise addition of arrays of one length (C45), slices (C13) are
    taken on the global array, layouts are not modelled *)
Definition accumulate (a v : dnd V) (sigs : dist V) (n : nat) (m : res (list V * nat)) (r : nat) : res (list V * nat) :=
  do acc <- m;
  let '(s, start) := acc in
  do g <- filtered a v sigs r;
  let sl := sub g start n in
  if Nat.eqb (length sl) n
  then Ok (map (fun p => add (fst p) (snd p)) (combine s sl), start + nth (S r) (counts_of (extent v) (length (d_locals v))) 0) (* L477-482, L485 *)
  else Err ValueError.
Definition every (stride : nat) (l : list V) : list V :=          (* l[::stride] *)
  map (fun k => nth (k * stride) l zero) (seq 0 ((length l + stride - 1) / stride)).

(** the mode argument as the caller passes it; None: any other value *)
Definition pad_size (m : conv_mode) (M : nat) : nat := match m with Full => M - 1 | Same => M / 2 | Valid => 0 end. (* L334-340 *)
Definition convolve_checked (junk : V) (a v : dnd V) (m : conv_mode) (stride : nat) : res conv_res :=
  let P := length (d_locals a) in
  if negb (balanced_kernel v) then Err ValueError                                              (* L331-332 *)
  else
    let M := extent v in
    do a' <- pad zero junk a (PInt (Z.of_nat (pad_size m M))) (CV zero);                       (* L392 *)
    let n1 := extent a + 2 * pad_size m M - M in
    if distributed a' && existsb (fun r => lmap a' r <? lmap v r) (seq 0 P) then Err ValueError (* L398-401 *)
    else if distributed v then
      do sigs <- all_ok (map (rank_signal a' v stride) (seq 0 P));
      do acc <- fold_left (accumulate a' v sigs (n1 + 1)) (seq 0 P) (Ok (repeat zero (n1 + 1), 0));
      Ok (Total (if 1 <? stride then every stride (fst acc) else fst acc))                     (* L488-491 *)
    else
      do ls <- all_ok (map (conv_rank a' v stride) (seq 0 P));
      Ok (Pieces ls (n1 / stride + 1) (d_split a)).
(** L139-167: checks and exchange of the operands *)
Definition convolve (junk : V) (a v : dnd V) (mode : option conv_mode) (stride : Z) : res conv_res :=
  let '(a, v) := if extent a <? extent v then (v, a) else (a, v) in                            (* L143-147 *)
  match mode with
  | None => Err ValueError                                                                     (* L155-156 *)
  | Some m =>
      if match m with Same => Nat.even (extent v) | _ => false end then Err ValueError         (* L157-158 *)
      else if (stride <? 1)%Z then Err ValueError                                              (* L162-163 *)
      else if (1 <? stride)%Z && match m with Same => true | _ => false end then Err ValueError (* L164-165 *)
      else convolve_checked junk a v m (Z.to_nat stride)
  end.
End Conv.
