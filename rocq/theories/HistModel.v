(** Model of histc and histogram, heat/core/statistics.py L637-741, on exact values (no NaN).
    [cast] is the conversion of a Python number to the element type of the tensor; the
    arithmetic of the bin position is exact; counts are exact integers. *)
From Coq Require Import QArith Qround.
From Verif Require Import Base NdSpec TensorSpec NdPerm OpsModel ShapeModel.
Open Scope Z_scope.

Definition qmin2 (a b : Q) : Q := if Qle_bool a b then a else b.
Definition qmax2 (a b : Q) : Q := if Qle_bool a b then b else a.
Definition qmin (l : list Q) : Q := match l with [] => 0%Q | x :: t => fold_left qmin2 t x end.
Definition qmax (l : list Q) : Q := match l with [] => 0%Q | x :: t => fold_left qmax2 t x end.
Definition is_nil {A} (l : list A) : bool := match l with [] => true | _ => false end.

Section Histc.
Variable cast : Q -> Q.
(** ATen/native/cpu/HistogramKernel.cpp, LINEAR_INTERPOLATION: pos = (elt - leftmost) * nbins /
    (rightmost - leftmost), the right end belongs to the last bin *)
Definition bin_pos (lo hi : Q) (n : Z) (x : Q) : Z :=
  Z.min (Qfloor ((x - lo) * inject_Z n / (hi - lo))%Q) (n - 1).
Definition hist_fill (lo hi : Q) (n : Z) (l : list Q) : list Z :=
  map (fun k => Z.of_nat (length (filter (fun x => Qle_bool lo x && Qle_bool x hi && (bin_pos lo hi n x =? k)) l))) (zr n).
(** torch.histc: histc_select_outer_bin_edges and histogram_histc of ATen/native/Histogram.cpp *)
Definition torch_histc (l : list Q) (n : Z) (mn mx : Q) : res (list Z) :=
  if n <=? 0 then Err RuntimeError else
  let '(lo, hi) := if Qeq_bool (cast mn) (cast mx) && negb (is_nil l) then (qmin l, qmax l) else (cast mn, cast mx) in
  let '(lo, hi) := if Qeq_bool lo hi then ((lo - 1)%Q, (hi + 1)%Q) else (lo, hi) in
  if Qle_bool hi lo then Err RuntimeError else Ok (hist_fill lo hi n l).

(** the local arrays of the returned DNDarray.  [out]: the local arrays of the argument. *)
Definition sum_hist (n : Z) (hs : list (list Z)) : list Z :=
  map (fun k => zsum (map (fun h => nth (Z.to_nat k) h 0) hs)) (zr n).
Definition histc (x : dnd Q) (n : Z) (mn mx : Q) (out : option (list (list Z))) : res (list (list Z)) :=
  let distr := match d_split x with None => false | Some _ => (1 <? length (d_locals x))%nat end in
  let pool t := match d_split x with None => elems t | Some _ => flat_map elems (d_locals x) end in
  do hs <- all_ok (map (fun t =>
       if Qeq_bool mn mx                                                        (* L667 *)
       then if is_nil (pool t) then Err RuntimeError                            (* neutral elements +-inf: torch.histc refuses *)
            else torch_histc (elems t) n (qmin (pool t)) (qmax (pool t))        (* L668-669: C23 *)
       else torch_histc (elems t) n mn mx)                                      (* L671-677 *)
     (d_locals x));
  if negb distr then
    match out, d_split x with
    | None, _ => Ok hs                                                          (* L680-689 *)
    | Some _, None => Ok hs                                                     (* L676: torch.histc(out=...) *)
    | Some o, Some _ => Ok o                                                    (* L676, L679: nothing is written *)
    end
  else
    match out with
    | None => Ok (map (fun _ => sum_hist n hs) hs)                              (* L691-695 *)
    | Some o => if forallb (fun l => Z.of_nat (length l) =? n) o
                then Ok (map (fun _ => sum_hist n hs) hs)                       (* L695 *)
                else Err RuntimeError                                           (* simplification: MPI truncation *)
    end.
(** L738: histogram(a, bins, range) with the other arguments at None *)
Definition histogram (x : dnd Q) (n : Z) (range : Q * Q) : res (list (list Z)) := histc x n (fst range) (snd range) None.
End Histc.
