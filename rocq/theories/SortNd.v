(** ht.sort on n-dimensional arrays (heat/core/manipulations.py L2606-2905), return value
    (values, indices); one list entry per rank.  axis=None (flatten first) and out= are
    not modelled. *)
From Verif Require Import Base LayoutModel NdSpec TensorSpec NdLemmas OpsModel RedistModel HaloModel ShapeModel ShapeSpec BinModel FactoryModel ConcatModel DiagModel SortModel.
Open Scope Z_scope.

Definition wrap32 (z : Z) : Z := (z + 2 ^ 31) mod 2 ^ 32 - 2 ^ 31.                    (* dtype=types.int32, L2887 *)

Section SortNd.
Context {V : Type}.
Variables (dv : V) (lt : V -> V -> bool) (ts : bool -> list V -> list nat) (cast : Z -> Z).

Definition lane_of (ax : nat) (t : arr V) (idx : list Z) : list V := map (fun i => adat t (upd idx ax i)) (zr (nth ax (ash t) 0)).
(** torch.sort(t, dim=ax): values and int64 indices *)
Definition torch_sort (ax : nat) (desc : bool) (t : arr V) : arr (V * Z) :=
  mk_arr (ash t) (fun idx => let l := lane_of ax t idx in let k := nth (Z.to_nat (nth ax idx 0)) (ts desc l) 0%nat in (nth k l dv, Z.of_nat k)).
(** L2685-2885: lane by lane; an exception in one lane is one of the call.  [ash t]: the
    result has the shape of local_sorted, L2852 *)
Definition sort_split (ax : nat) (desc : bool) (x : dnd V) : res (list (arr (V * Z))) :=
  let lanes idx := sort_lane dv lt ts cast desc (nth ax (d_gshape x) 0) (map (fun t => lane_of ax t idx) (d_locals x)) in
  do _ <- all_ok (map lanes (row_major (upd (d_gshape x) ax 1)));
  Ok (map (fun p => mk_arr (ash (snd p)) (fun idx => match lanes idx with
                     | Ok out => nth (Z.to_nat (nth ax idx 0)) (nth (fst p) out []) (dv, 0)
                     | Err _ => (dv, 0)
                     end)) (ranked (d_locals x))).
Definition i32 (t : arr (V * Z)) : arr (V * Z) := mk_arr (ash t) (fun idx => let v := adat t idx in (fst v, wrap32 (snd v))).

Definition sort_nd (x : dnd V) (axis : Z) (desc : bool) : res (dnd (V * Z)) :=
  do _ <- sanitize_axis (length (d_gshape x)) (AxInt axis);                           (* L2667: the result is not used *)
  let dim := norm (length (d_gshape x)) axis in                                       (* torch accepts negative axes *)
  do ls <- (match d_split x with
            | Some s => if (1 <? length (d_locals x))%nat && (axis =? Z.of_nat s)      (* L2681 *)
                        then sort_split s desc x
                        else Ok (map (torch_sort dim desc) (d_locals x))              (* L2683 *)
            | None => Ok (map (torch_sort dim desc) (d_locals x))
            end);
  match d_split x with                                                                (* L2886-2902: factories.array(is_split=a.split) *)
  | Some s => do y <- array_is_split (map i32 ls) s; Ok (fst y)
  | None => Ok (mk_dnd (map i32 ls) (d_gshape x) None)
  end.
End SortNd.
