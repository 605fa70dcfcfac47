(** Model of heat/core/printing.py _torch_data (L187-270) and _tensor_str (L273-300): what rank 0 prints.  The result is the
    displayed tree of elements, the elements the number formatter gets to see, and the array afterwards. *)
From Verif Require Import Base LayoutModel NdSpec TensorSpec OpsModel RedistModel ShapeModel BinModel ReshapeModel FactoryModel RollModel PrintSpec.
Open Scope Z_scope.

Section Print.
Context {V : Type} (dflt : V) (e threshold : Z).                  (* PRINT_OPTS.edgeitems, PRINT_OPTS.threshold *)

(** torch.index_select(t, i, ps); torch.cat of two selections along i is the selection of both lists *)
Definition index_select (i : nat) (ps : list Z) (t : arr V) : res (arr V) :=
  if forallb (fun p => (0 <=? p) && (p <? nth i (ash t) 0)) ps
  then Ok (mk_arr (upd (ash t) i (Z.of_nat (length ps))) (fun idx => adat t (upd idx i (nth (Z.to_nat (nth i idx 0)) ps 0))))
  else Err IndexError.
(** the positions kept along dimension i by a rank with local shape [lsh] and offset [off] along the split axis (L213-251);
    None: untouched *)
Definition keep (gsh : list Z) (s : nat) (off : Z) (lsh : list Z) (i : nat) : option (list Z) :=
  let n := nth i gsh 0 in let l := nth i lsh 0 in
  if n <=? 2 * e then None                                                             (* L215 *)
  else if negb (i =? s)%nat then Some (range 0 (e + 1) ++ range (l - e) l)             (* L219-232 *)
  else if off <? e + 1 then Some (range 0 (Z.min l (e + 1 - off)))                     (* L237-239 *)
  else if n - e <? off - l then Some (range (Z.max 0 (n - e - off)) l)                 (* L240-251 *)
  else None.
Definition keep_dim gsh s off lsh (t : res (arr V)) (i : nat) : res (arr V) :=
  do t <- t; match keep gsh s off lsh i with Some ps => index_select i ps t | None => Ok t end.
Definition local_part (gsh : list Z) (s P : nat) (p : nat * arr V) : res (arr V) :=
  fold_left (keep_dim gsh s (chunk_start gsh s (fst p) P) (ash (snd p))) (seq 0 (length gsh)) (Ok (snd p)).
(** L253-268: Gatherv on rank 0; the shape is that of rank 0 with the sum of all counts along the split axis *)
Definition gather_parts (s : nat) (ls : list (arr V)) : arr V :=
  gather (upd (ash (hd (mk_arr [] (fun _ => dflt)) ls)) s (zsum (map (fun t => nth s (ash t) 0) ls))) s ls dflt.
Definition local0 (x : dnd V) : arr V := hd (mk_arr [] (fun _ => dflt)) (d_locals x).
(** L199-201: balance_ in place; L203-204, L206-207, L209-269 *)
Definition torch_data (x : bnd V) (summarize : bool) : res (dnd V * arr V) :=
  let distributed := match d_split (b_arr x) with Some _ => negb (length (d_locals (b_arr x)) =? 1)%nat | None => false end in
  do y <- match d_split (b_arr x) with
          | Some s => if distributed && negb (is_bal x) then balance_nd dflt (b_arr x) s else Ok (b_arr x)
          | None => Ok (b_arr x)
          end;
  match d_split y with
  | None => Ok (y, local0 y)
  | Some s =>
      let P := length (d_locals y) in
      if (P =? 1)%nat then Ok (y, local0 y)
      else if negb summarize then Ok (y, local0 (resplit_none dflt y))
      else do ls <- all_ok (map (local_part (d_gshape y) s P) (combine (seq 0 P) (d_locals y)));
           Ok (y, gather_parts s ls)
  end.
(** torch._tensor_str._tensor_str_with_formatter / _vector_str *)
Fixpoint torch_str (summarize : bool) (sh : list Z) (d : list Z -> V) : shown V :=
  match sh with
  | [] => Elem (d [])
  | n :: sh' =>
      let slice i := torch_str summarize sh' (fun idx => d (i :: idx)) in
      if summarize && (2 * e <? n)
      then Dots (map slice (range 0 e)) (map slice (range (n - e) n))
      else Rows (map slice (range 0 n))
  end.
(** L284-300.  Undistributed data goes to torch's own _tensor_str, which formats by the summarized data *)
Definition tensor_str (x : bnd V) : res (dnd V * list V * shown V) :=
  let n := zprod (d_gshape (b_arr x)) in
  if n =? 0 then Ok (b_arr x, [], Rows [])                                             (* L284-286 *)
  else
  let summarize := threshold <? n in                                                   (* L290 *)
  do p <- torch_data x summarize;
  let (y, t) := p in
  let distributed := match d_split y with Some _ => negb (length (d_locals y) =? 1)%nat | None => false end in
  let s := torch_str summarize (ash t) (adat t) in
  Ok (y, if distributed then map (adat t) (row_major (ash t)) else elems s, s).          (* L292-299 *)
End Print.
