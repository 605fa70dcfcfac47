(** Model of ht.split (heat/core/manipulations.py L2903-3134): cutting a distributed array
    into pieces along an axis.  One list entry per rank. *)
From Verif Require Import Base LayoutModel NdSpec TensorSpec NdLemmas OpsModel RedistModel ShapeModel ShapeSpec BinModel ReshapeModel FactoryModel ConcatModel DiagModel.
Open Scope Z_scope.

(** torch.narrow *)
Definition narrow {A} (axis : nat) (start len : Z) (t : arr A) : arr A :=
  mk_arr (upd (ash t) axis len) (fun idx => adat t (upd idx axis (nth axis idx 0 + start))).
Fixpoint narrows {A} (axis : nat) (start : Z) (sizes : list Z) (t : arr A) : list (arr A) :=
  match sizes with [] => [] | c :: l => narrow axis start c t :: narrows axis (start + c) l t end.
(** torch.split(t, list, axis) *)
Definition torch_split {A} (sizes : list Z) (axis : nat) (t : arr A) : res (list (arr A)) :=
  if existsb (fun c => c <? 0) sizes || negb (zsum sizes =? nth axis (ash t) 0) then Err RuntimeError
  else Ok (narrows axis 0 sizes t).
(** torch.split(t, int, axis): pieces of [size] elements, the last one may be smaller;
    size 0 is accepted for an empty axis only and gives one piece *)
Definition torch_split_int {A} (size : Z) (axis : nat) (t : arr A) : res (list (arr A)) :=
  let n := nth axis (ash t) 0 in
  if size <? 0 then Err RuntimeError
  else if size =? 0 then if n =? 0 then Ok [t] else Err RuntimeError
  else let k := Z.max 1 ((n + size - 1) / size) in
       Ok (narrows axis 0 (map (fun j => Z.min size (n - j * size)) (zr k)) t).

Inductive sections := SecInt (k : Z) | SecList (l : list Z).

(** l[i] = v with Python's bounds check (i >= 0 here) *)
Definition set_item (l : list Z) (i : Z) (v : Z) : res (list Z) :=
  if (0 <=? i) && (i <? Z.of_nat (length l)) then Ok (upd l (Z.to_nat i) v) else Err IndexError.
(** l[a:b] = v: clipped *)
Definition set_slice (l : list Z) (a b v : Z) : list Z :=
  map (fun p => if (a <=? Z.of_nat (fst p)) && (Z.of_nat (fst p) <? b) then v else snd p) (ranked l).

(** CASE 2, L3020-3051, for a rank that holds c > 0 elements from [offset] on; sz: section length, k: number of sections *)
Definition case2_sizes (k sz offset c : Z) : res (list Z) :=
  let idx0 := offset / sz in                                                          (* L3026 *)
  let left_chunk := sz - offset mod sz in                                             (* L3027 *)
  let zeros := repeat 0 (Z.to_nat k) in                                               (* L3030 *)
  if c <=? left_chunk then set_item zeros idx0 c                                      (* L3032-3033 *)
  else
    do l <- set_item zeros idx0 left_chunk;                                           (* L3035 *)
    let left := c - left_chunk in                                                     (* L3036 *)
    let i := idx0 + 1 in                                                              (* L3037 *)
    let full := left / sz in                                                          (* L3040 *)
    set_item (set_slice l i (full + i) sz) (full + i) (left mod sz).                  (* L3041-3048 *)

(** the difference of a list with [a] in front and [b] at the end *)
Fixpoint diffs (a : Z) (l : list Z) (b : Z) : list Z :=
  match l with [] => [b - a] | x :: l' => (x - a) :: diffs x l' b end.

(** what one rank does *)
Definition split_local {A} (x : dnd A) (sec : sections) (axis : nat) (r : nat) (t : arr A) : res (list (arr A)) :=
  let P := length (d_locals x) in
  let n := nth axis (d_gshape x) 0 in
  let along := match d_split x with Some s => Nat.eqb s axis && negb (Nat.eqb P 1) | None => false end in   (* L3006 *)
  match sec with
  | SecInt k =>
      let sz := n / k in                                                              (* L2990 *)
      if along then
        if Z.of_nat P =? k                                                            (* L3009-3015 *)
        then Ok (map (fun i => if Nat.eqb i r then t else mk_arr (upd (ash t) axis 0) (adat t)) (seq 0 (Z.to_nat k)))
        else if k <? 0 then Err RuntimeError
        else if nth axis (ash t) 0 =? 0 then Ok (repeat t (Z.to_nat k))               (* L3020-3021 *)
        else do sizes <- case2_sizes k sz (chunk_start (d_gshape x) axis r P) (nth axis (ash t) 0);
             torch_split sizes axis t                                                 (* L3050 *)
      else torch_split_int sz axis t                                                  (* L3091 *)
  | SecList l =>
      if along then
        let start := chunk_start (d_gshape x) axis r P in                             (* L3060-3061 *)
        let stop := start + nth axis (chunk_shape (d_gshape x) axis r P) 0 in
        let l1 := map (fun i => if i <=? start then start else i) l in                (* L3064-3066 *)
        let l2 := map (fun i => if stop <=? i then stop else i) l1 in                 (* L3068-3070 *)
        torch_split (diffs start l2 stop) axis t                                      (* L3076-3089 *)
      else
        let l1 := map (fun i => if i <=? n then i else n) l in                        (* L3105-3107 *)
        torch_split (diffs 0 l1 n) axis t                                             (* L3111-3125 *)
  end.

Definition split_arr {A} (dflt : A) (x : dnd A) (sec : sections) (axis : Z) : res (list (dnd A)) :=
  do a <- sanitize_axis (length (d_gshape x)) (AxInt axis);
  match a with
  | AxInt az =>
    let axis := Z.to_nat az in
    do _ <- match sec with                                                            (* L2985-2988 *)
            | SecInt k => if k =? 0 then Err ZeroDivisionError
                          else if negb (nth axis (d_gshape x) 0 mod k =? 0) then Err ValueError else Ok tt
            | SecList _ => Ok tt
            end;
    do parts <- all_ok (map (fun p => split_local x sec axis (fst p) (snd p)) (ranked (d_locals x)));
    let k := length (hd [] parts) in
    all_ok (map (fun j =>                                                             (* L3126-3134 *)
        let ls := map (fun ps => nth j ps (mk_arr [] (fun _ => dflt))) parts in
        match d_split x with
        | None => Ok (mk_dnd ls (ash (hd (mk_arr [] (fun _ => dflt)) ls)) None)
        | Some s => do y <- array_is_split ls s; balance_nd dflt (fst y)
        end) (seq 0 k))
  | _ => Err TypeError
  end.
