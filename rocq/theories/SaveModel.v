(** Model of heat/core/io.py save_csv L1194-1320.

    A number type is given by its kind (integer or floating with a number of decimals), the value
    of an element and the text Python's "%d" / "%.<decimals>f" gives it without padding.  [lg] is
    int(log10(x)) computed in floating point.  Simplifications: finite elements; dtypes other than
    integer and floating leave fmt empty (TypeError); 1-D and 2-D arrays only; decimals is not
    negative once the default -1 is replaced by 7 or 15 (L1274-1275); a header given as Iterable
    is represented by what its first and its second enumeration yield. *)
From Coq Require Import QArith Qabs Qminmax.
From Verif Require Import Base LayoutModel NdSpec TensorSpec OpsModel ShapeModel CsvSpec.
Open Scope nat_scope.

Inductive kind := KInt | KFloat (decimals : nat).
Record numtype (V : Type) := { nt_kind : kind; nt_val : V -> Q; nt_text : V -> list nat }.
Arguments nt_kind {V}. Arguments nt_val {V}. Arguments nt_text {V}.

(** Python's % with a width: right justified; a negative width is the flag "-" *)
Definition fmt_pad (w : Z) (t : list nat) : list nat :=
  let pad := repeat 32 (Z.to_nat (Z.abs w) - length t) in
  if (w <? 0)%Z then t ++ pad else pad ++ t.

(** smin / smax over the whole array, L1256-1257; they raise on an array without elements *)
Definition extreme {V} (pick : Q -> Q -> Q) (nt : numtype V) (x : dnd V) : res Q :=
  match map (nt_val nt) (flat_map flat (d_locals x)) with
  | [] => Err ValueError
  | q :: qs => Ok (fold_left pick qs q)
  end.
Definition qpos (q : Q) : bool := (0 <? Qnum q)%Z.
Definition qneg (q : Q) : bool := (Qnum q <? 0)%Z.
Definition sign_width (lo : Q) : Z := if qneg lo then 1 else 0.                      (* L1258 *)
(** L1259-1262 *)
Definition pre_point_digits (lg : Q -> Z) (lo hi : Q) : Z :=
  if qpos (Qabs hi) || qpos (Qabs lo) then (lg (Qmax (Qabs hi) (Qabs lo)) + 1)%Z else 1%Z.
(** L1264-1279: the width inside fmt *)
Definition fmt_width (k : kind) (sign ppd : Z) : Z :=
  match k with
  | KInt => if (sign =? 1)%Z then ppd + 1 else ppd
  | KFloat d => if (sign =? 1)%Z then ppd + Z.of_nat d + 2 else ppd + Z.of_nat d + 1
  end.
(** L1282: decimals + dec_sep + sign + pre_point_digits *)
Definition item_size (k : kind) (sign ppd : Z) : Z :=
  (match k with KInt => 0 + 0 | KFloat d => Z.of_nat d + 1 end + sign + ppd)%Z.

(** L1242-1252: the header.  hl_displacement and the writes of rank 0 through its own file
    pointer. *)
Definition ends_nl (l : list nat) : bool := match rev l with 10 :: _ => true | _ => false end.
Definition hl_displacement (h : option (list (list nat) * list (list nat))) : Z :=
  match h with
  | None => 0
  | Some (h1, h2) => Z.of_nat (list_sum (map (@length nat) h1) + length (filter (fun l => negb (ends_nl l)) h2))
  end.
Fixpoint header_writes (enc : list nat -> list nat) (pos : nat) (h2 : list (list nat)) : list (Z * list nat) :=
  match h2 with
  | [] => []
  | l :: t => let b := enc (if ends_nl l then l else l ++ [10]) in
              (Z.of_nat pos, b) :: header_writes enc (pos + length b) t
  end.

(** L1300-1317: the rows written by one rank; [off] the offset of its first row *)
Definition row_writes {V} (fmt : V -> list nat) (sep : list nat) (newline : bool) (row_width : Z)
    (t : arr V) (off : Z) : list (Z * list nat) :=
  match ash t with
  | [n] => map (fun i => ((off + Z.of_nat i * row_width)%Z, fmt (adat t [Z.of_nat i]) ++ if newline then [10] else sep))
               (seq 0 (Z.to_nat n))
  | [n; c] => if (c =? 0)%Z then []                                                  (* L1305-1306 *)
              else map (fun i => ((off + Z.of_nat i * row_width)%Z,
                                  join sep (map (fun j => fmt (adat t [Z.of_nat i; Z.of_nat j])) (seq 0 (Z.to_nat c)))
                                  ++ if newline then [10] else sep)) (seq 0 (Z.to_nat n))
  | _ => []
  end.

(** all writes, one list per rank; an MPI write at a negative offset is an error *)
Definition save_csv {V} (lg : Q -> Z) (enc : list nat -> list nat) (nt : numtype V) (x : dnd V)
    (header : option (list (list nat) * list (list nat))) (sep : list nat) : res (list (list (nat * list nat))) :=
  let P := length (d_locals x) in
  do _ <- match d_split x with None | Some 0 | Some 1 => Ok tt | _ => Err ValueError end;    (* L1233-1234 *)
  do _ <- match length (d_gshape x) with 1 | 2 => Ok tt | _ => Err TypeError end;
  do lo <- extreme Qmin nt x;
  do hi <- extreme Qmax nt x;
  let sign := sign_width lo in
  let ppd := pre_point_digits lg lo hi in
  let fmt v := fmt_pad (fmt_width (nt_kind nt) sign ppd) (nt_text nt v) in
  let isz := item_size (nt_kind nt) sign ppd in
  let row_width := match d_gshape x with                                              (* L1284-1286 *)
                   | [_; c] => (c * (isz + 1))%Z
                   | _ => (isz + 1)%Z
                   end in
  let counts a := map (fun t => nth a (ash t) 0%Z) (d_locals x) in
  let displ a r := zsum (firstn r (counts a)) in                                      (* counts_displs *)
  let offset r := match d_split x with                                                (* L1288-1294 *)
                  | Some 0 => (hl_displacement header + displ 0%nat r * row_width)%Z
                  | Some 1 => (hl_displacement header + displ 1%nat r * (isz + 1))%Z
                  | _ => hl_displacement header
                  end in
  let newline r (t : arr V) := match d_split x with                                   (* L1309-1315 *)
                               | Some 1 => (displ 1%nat r + nth 1%nat (ash t) 0 =? nth 1%nat (d_gshape x) 0)%Z
                               | _ => true
                               end in
  let ws := map (fun rt => let '(r, t) := rt in
    (if r =? 0 then match header with Some (_, h2) => header_writes enc 0 h2 | None => [] end else []) ++
    (if match d_split x with None => r =? 0 | Some _ => true end                      (* L1317 *)
     then row_writes fmt sep (newline r t) row_width t (offset r) else []))
    (combine (seq 0 P) (d_locals x)) in
  if forallb (forallb (fun w => (0 <=? fst w)%Z)) ws
  then Ok (map (map (fun w => (Z.to_nat (fst w), snd w))) ws)
  else Err RuntimeError.
