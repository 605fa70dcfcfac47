(** Model of percentile and median, heat/core/statistics.py L1460-1738 and L1048-1083,
    for data without NaN, an int axis or axis=None.  Data are exact rationals; [cv] is the
    conversion to the float output type (L1618-1621, L1703), [rnd] the rounding of the
    float32 index arithmetic (L1683-1694).  out= and sketched=True are not modelled; the
    tuple case of axis is modelled in its shapes only. *)
From Coq Require Import QArith Qround.
From Verif Require Import Base LayoutModel NdSpec TensorSpec OpsModel RedistModel ShapeModel ShapeSpec IndexModel SortModel SortNd PercSpec.
Open Scope Z_scope.

(** torch float32: round to nearest, ties to even, 24 significant bits (no overflow to inf;
    the smallest exponent is -149) *)
Definition rne (y : Q) : Z :=
  let f := Qfloor y in
  match Qcompare (y - inject_Z f) (1 # 2) with
  | Lt => f | Gt => f + 1 | Eq => if Z.even f then f else f + 1 end.
Definition flog2 (x : Q) : Z :=
  let e := Z.log2 (Qnum x) - Z.log2 (Zpos (Qden x)) in
  if Qle_bool (Qpower 2 e) x then e else e - 1.
Definition f32pos (x : Q) : Q :=
  let u := Z.max (flog2 x - 23) (-149) in
  (inject_Z (rne (x / Qpower 2 u)) * Qpower 2 u)%Q.
Definition f32 (x : Q) : Q :=
  match Qcompare x 0 with Eq => 0%Q | Gt => f32pos x | Lt => (- f32pos (- x))%Q end.

Inductive qarg := QS (q : Q) | QL (qs : list Q).
(** [perc_indices]: integral (lower, higher, nearest) or floating point *)
Inductive pidx := PInt (k : Z) | PFloat (h : Q).

Section Perc.
Variables (rnd cv : Q -> Q) (ts : bool -> list Q -> list nat) (cast : Z -> Z).
Definition Qltb (a b : Q) : bool := negb (Qle_bool b a).

(** L1682-1698; q is a float32 (or integer) tensor, so q / 100 and the product are float32 *)
Definition raw_index (q : Q) (len : Z) : Q := rnd (rnd (rnd q / inject_Z 100) * rnd (inject_Z (len - 1)))%Q.
Definition perc_index (m : interp) (q : Q) (len : Z) : pidx :=
  let h := raw_index q len in
  match m with
  | Linear => PFloat h
  | Lower => PInt (Qfloor h)
  | Higher => PInt (Qceiling h)
  | Midpoint => PFloat (rnd ((1 # 2) * rnd (inject_Z (Qfloor h) + inject_Z (Qceiling h))))%Q
  | Nearest => PInt (rne h)                              (* torch.round: half to even *)
  end.

(** x[k], x[[k0, k1, ...]] along axis 0, heat/core/dndarray.py L974-1167 *)
Definition counts0 {A} (x : dnd A) : list Z := map (fun t => nth 0 (ash t) 0) (d_locals x).
Definition starts0 {A} (x : dnd A) : list Z := map (fun r => zsum (firstn r (counts0 x))) (seq 0 (length (d_locals x))).
Definition distributed {A} (x : dnd A) : bool :=
  match d_split x with None => false | Some _ => (1 <? length (d_locals x))%nat end.
Definition slab {A} (k : Z) (t : arr A) : arr A := mk_arr (tl (ash t)) (fun i => adat t (k :: i)).
Definition get_int (dv : Q) (x : dnd Q) (k : Z) : res (dnd Q) :=
  let n := nth 0 (d_gshape x) 0 in
  if (k <? - n) || (n <=? k) then Err IndexError else                     (* proxy, L1032 *)
  let k := if k <? 0 then k + n else k in                                 (* L1152-1153 *)
  match d_split x with
  | None => Ok (mk_dnd (map (slab k) (d_locals x)) (tl (d_gshape x)) None)         (* L1046-1050 *)
  | Some (S s) => Ok (mk_dnd (map (slab k) (d_locals x)) (tl (d_gshape x)) (Some s))   (* slice(None) on the split axis *)
  | Some 0%nat =>
      if distributed x then
        match find_last (fun b => b <=? k) (starts0 x) 0 None with        (* L1155 *)
        | None => Err IndexError
        | Some a => let t := nth a (d_locals x) (mk_arr [] (fun _ => dv)) in
            Ok (mk_dnd (map (fun _ => slab (k - nth a (starts0 x) 0) t) (d_locals x)) (tl (d_gshape x)) None)  (* L1157-1163 *)
        end
      else Ok (mk_dnd (map (slab k) (d_locals x)) (tl (d_gshape x)) None)
  end.
Definition pick {A} (ks : list Z) (t : arr A) : arr A :=
  mk_arr (Z.of_nat (length ks) :: tl (ash t)) (fun i => adat t (nth (Z.to_nat (nth 0 i 0)) ks 0 :: tl i)).
Definition get_list (dv : Q) (x : dnd Q) (ks : list Z) : res (dnd Q) :=
  let n := nth 0 (d_gshape x) 0 in
  if existsb (fun k => (k <? - n) || (n <=? k)) ks then Err IndexError else
  let wrap k := if k <? 0 then k + n else k in                            (* torch's own treatment of negative indices *)
  let gsh := Z.of_nat (length ks) :: tl (d_gshape x) in
  match d_split x with
  | Some 0%nat =>
      if distributed x then
        if (length ks <=? 1)%nat                                          (* L1070-1073, L1144: neither branch; arr of L1053 *)
        then Ok (mk_dnd (map (fun _ => mk_arr [0] (fun _ => dv)) (d_locals x)) gsh (Some 0%nat))
        else Ok (mk_dnd (map (fun p => let '(st, t) := p in
                    let inds := filter (fun k => (st <=? k) && (k <? st + nth 0 (ash t) 0)) ks in   (* L1089 *)
                    pick (map (fun k => k - st) inds) t)                                            (* L1097-1101 *)
                  (combine (starts0 x) (d_locals x))) gsh (Some 0%nat))
      else Ok (mk_dnd (map (pick (map wrap ks)) (d_locals x)) gsh (Some 0%nat))
  | sp => Ok (mk_dnd (map (pick (map wrap ks)) (d_locals x)) gsh sp)
  end.

(** ceils.redistribute_(target_map=floors.lshape_map), L1716 (data movement: C06) *)
Definition redist_like (dv : Q) (c f : dnd Q) : dnd Q :=
  match d_split c, d_split f with
  | Some s, Some _ =>
      let cn := map (fun t => nth s (ash t) 0) (d_locals f) in
      let g := gather (d_gshape c) s (d_locals c) dv in
      mk_dnd (map (fun p => mk_arr (upd (d_gshape c) s (snd p)) (fun i => adat g (move_axis_idx s (zsum (firstn (fst p) cn)) i)))
                  (combine (seq 0 (length cn)) cn)) (d_gshape c) (Some s)
  | _, _ => c
  end.
(** L1711-1727: floors + (ceils - floors) * fractional_indices; [fr] gives the fraction at
    a global index.  The element-wise operations on equal layouts are those of C45. *)
Definition mix (dv : Q) (gather_all : bool) (f c : dnd Q) (fr : list Z -> Q) : dnd Q :=
  let f := if gather_all then resplit_none dv f else f in
  let c := if gather_all then resplit_none dv c else redist_like dv c f in
  let cn := match d_split f with Some s => map (fun t => nth s (ash t) 0) (d_locals f) | None => [] end in
  let at_global r i := match d_split f with Some s => move_axis_idx s (zsum (firstn r cn)) i | None => i end in
  mk_dnd (map (fun p => let '(r, (a, b)) := p in
            mk_arr (ash a) (fun i => adat a i + (adat b i - adat a i) * fr (at_global r i))%Q)
          (combine (seq 0 (length (d_locals f))) (combine (d_locals f) (d_locals c)))) (d_gshape f) (d_split f).

(** L1700-1735 on data whose axis 0 is the one to reduce *)
Definition map_dnd {A B} (g : A -> B) (x : dnd A) : dnd B :=
  mk_dnd (map (fun t => mk_arr (ash t) (fun i => g (adat t i))) (d_locals x)) (d_gshape x) (d_split x).
Definition frac (h : Q) : Q := (h - inject_Z (Qfloor h))%Q.                 (* L1717 *)
Definition perc_core (m : interp) (q : qarg) (gather_all : bool) (x : dnd Q) : res (dnd Q) :=
  let n := nth 0 (d_gshape x) 0 in                                        (* L1682 *)
  do y <- sort_nd 0%Q Qltb ts cast x 0 false;                             (* L1701 *)
  let s := map_dnd (fun v => cv (fst v)) y in                             (* L1703 *)
  match q with
  | QS q =>
      match perc_index m q n with
      | PInt k => get_int 0%Q s k                                         (* L1734 *)
      | PFloat h => do f <- get_int 0%Q s (Qfloor h); do c <- get_int 0%Q s (Qceiling h);   (* L1708-1709 *)
                    Ok (mix 0%Q gather_all f c (fun _ => frac h))
      end
  | QL qs =>
      let ps := map (fun q => perc_index m q n) qs in
      match m with
      | Lower | Higher | Nearest => get_list 0%Q s (map (fun p => match p with PInt k => k | PFloat _ => 0 end) ps)
      | Linear | Midpoint =>
          let hs := map (fun p => match p with PFloat h => h | PInt _ => 0%Q end) ps in
          do f <- get_list 0%Q s (map Qfloor hs); do c <- get_list 0%Q s (map Qceiling hs);
          Ok (mix 0%Q gather_all f c (fun i => frac (nth (Z.to_nat (nth 0 i 0)) hs 0%Q)))
      end
  end.

(** L1590-1613: output_split for an int axis; only whether it is None is used later *)
Definition out_split_none (x : dnd Q) (axis : nat) (keepdims : bool) : bool :=
  match d_split x with None => true | Some s => negb keepdims && Nat.eqb s axis end.
Definition percentile (x : dnd Q) (q : qarg) (axis : Z) (m : interp) (keepdims : bool) : res (dnd Q) :=
  let nd := length (d_gshape x) in
  do a <- sanitize_axis nd (AxInt axis);                                  (* L1576 *)
  match a with
  | AxInt z =>
      let ax := Z.to_nat z in
      do x1 <- transpose x (Some (map Z.of_nat (ax :: seq 0 ax ++ seq (S ax) (nd - S ax))));    (* L1662-1663 *)
      do x2 <- (if keepdims then expand_dims x1 (AxInt (z + 1)) else Ok x1);                (* L1665-1666 *)
      perc_core m q (out_split_none x ax keepdims) x2
  | _ => Err TypeError                                                    (* 0-d data: axis becomes None; see percentile_flat *)
  end.
(** axis=None, L1630-1635: flatten, then expand_dims *)
Definition of_dist (d : dist Q) (sp : option nat) (n : Z) : dnd Q :=
  mk_dnd (map (fun l => mk_arr [Z.of_nat (length l)] (fun i => nth (Z.to_nat (nth 0 i 0)) l 0%Q)) d) [n] sp.
Definition percentile_flat (x : dnd Q) (q : qarg) (m : interp) (keepdims : bool) : res (dnd Q) :=
  let nd := length (d_gshape x) in
  do f <- flatten 0%Q (length (d_locals x)) x;
  let x1 := of_dist (fst f) (snd f) (zprod (d_gshape x)) in
  do x2 <- (if keepdims && negb (Nat.eqb nd 0) then expand_dims x1 (AxTuple (map Z.of_nat (seq 1 nd))) else Ok x1);
  perc_core m q true x2.
End Perc.

(** median, L1048-1083: percentile(x, q=50, axis, keepdims) with linear interpolation *)
Definition median rnd cv ts cast (x : dnd Q) (axis : Z) (keepdims : bool) : res (dnd Q) :=
  percentile rnd cv ts cast x (QS (inject_Z 50)) axis Linear keepdims.

(** L1636-1658, axis a tuple: shape that the transposed data are reshaped to.  The extents
    of the remaining axes are read from the already transposed array (L1645), and the new
    split axis may be left undefined (L1647-1654). *)
Definition non_op (nd : nat) (axis : list nat) : list nat := filter (fun d => negb (mem_nat d axis)) (seq 0 nd).
Definition tuple_shape (gsh : list Z) (axis : list nat) : list Z :=
  let others := non_op (length gsh) axis in
  let tsh := map (fun a => nth a gsh 0) (axis ++ others) in
  let rest := map (fun d => nth d tsh 0) others in
  (zprod gsh / zprod rest) :: rest.
(** UnboundLocalError is an AttributeError-like failure; any error value will do *)
Definition tuple_split (nd : nat) (axis : list nat) (split : option nat) : res (option nat) :=
  match split with
  | None => Ok None
  | Some s0 =>
      match find_idx (Nat.eqb s0) (axis ++ non_op nd axis) with
      | None => Err ValueError
      | Some s =>
          if mem_nat s axis then Ok (Some (fold_right Nat.min (hd 0%nat axis) axis))
          else if (fold_right Nat.max 0%nat axis <? s)%nat then Ok (Some (s - (length axis - 1))%nat)
          else Err RuntimeError                                            (* reshaped_split is unbound at L1655 *)
      end
  end.
