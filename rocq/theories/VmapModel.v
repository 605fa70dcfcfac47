(** Model of heat/core/vmap.py L69-101 (the function returned by vmap).  The type checks of the
    arguments, keyword arguments, randomness and chunk_size (torch's own chunking) are not
    modelled.  [f]: the user's function on torch tensors; one list entry per rank. *)
From Verif Require Import Base LayoutModel NdSpec TensorSpec OpsModel RedistModel ShapeModel BinModel FactoryModel.
Open Scope Z_scope.

(** t.select(s, i) of a local tensor; in_dims entry None: the tensor itself *)
Definition select {A} (t : arr A) (dim : option nat) (i : Z) : arr A :=
  match dim with
  | None => t
  | Some s => mk_arr (firstn s (ash t) ++ skipn (S s) (ash t)) (fun idx => adat t (firstn s idx ++ i :: skipn s idx))
  end.
(** torch.vmap(func, in_dims, out_dims) on tensors: the mapped extents must agree, one of the
    in_dims must not be None, one out_dim per output; output k is the stack, along out_dims[k], of
    the outputs for the slices (torch infers the shapes without looking at the elements) *)
Definition torch_vmap {A B} (dflt : B) (f : list (arr A) -> list (arr B)) (out_dims : list nat) (in_dims : list (option nat)) (ts : list (arr A)) : res (list (arr B)) :=
  let sizes := flat_map (fun p => match fst p with Some s => [nth s (ash (snd p)) 0] | None => [] end) (combine in_dims ts) in
  match sizes with
  | [] => Err ValueError
  | n :: rest =>
      if existsb (fun m => negb (m =? n)) rest then Err ValueError
      else
        let call i := f (map (fun p => select (snd p) (fst p) i) (combine in_dims ts)) in
        let outs := call 0 in
        if negb (Nat.eqb (length out_dims) (length outs)) then Err ValueError
        else if existsb (fun p => (length (ash (snd p)) <? fst p)%nat) (combine out_dims outs) then Err IndexError
        else Ok (map (fun k =>
                   let d := nth k out_dims 0%nat in
                   let sh := ash (nth k outs (mk_arr [] (fun _ => dflt))) in
                   mk_arr (firstn d sh ++ n :: skipn d sh)
                          (fun idx => adat (nth k (call (nth d idx 0)) (mk_arr [] (fun _ => dflt))) (firstn d idx ++ skipn (S d) idx)))
                 (seq 0 (length outs)))
  end.
(** the k-th output of every rank *)
Definition column {B} (dflt : B) (outs : list (list (arr B))) (k : nat) : list (arr B) := map (fun l => nth k l (mk_arr [] (fun _ => dflt))) outs.
(** L69-101.  [out_dims]: an int is repeated for every output (L86-87) *)
Definition vmap {A B} (da : A) (dflt : B) (P : nat) (f : list (arr A) -> list (arr B)) (out_dims : list nat) (args : list (dnd A)) : res (list (dnd B)) :=
  let in_dims := map d_split args in                                                           (* L75 *)
  do outs <- all_ok (map (fun r => torch_vmap dflt f out_dims in_dims                          (* L78-81 *)
                                     (map (fun x => nth r (d_locals x) (mk_arr [] (fun _ => da))) args))
                         (seq 0 P));
  all_ok (map (fun p => do y <- array_is_split (column dflt outs (fst p)) (snd p); Ok (fst y)) (combine (seq 0 (length out_dims)) out_dims)).  (* L97-99 *)
