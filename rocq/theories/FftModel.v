(** Model of heat/fft/fft.py __fft_op (L39-142) for the transforms that are not real-to-complex: fft, ifft,
    and hfft, irfft (L590-592, L928-930, which pass the default n themselves).  One list entry per rank.
    [F n]: torch's one-dimensional transform of a list to n outputs (padding, cropping and norm= included).
    The dtypes are not modelled; n must be positive (torch raises otherwise). *)
From Verif Require Import Base LayoutModel NdSpec TensorSpec OpsModel RedistModel ShapeModel BinModel ReshapeModel FactoryModel RepeatModel TileModel TraceModel.
Open Scope Z_scope.

Section Fft.
Context {A B : Type} (da : A) (db : B) (F : Z -> list A -> list B).
(** fft_op(local_x, n=n, dim=axis) *)
Definition torch_fft (n : Z) (axis : nat) (t : arr A) : arr B :=
  mk_arr (upd (ash t) axis n)
         (fun idx => nth (Z.to_nat (nth axis idx 0)) (F n (map (fun j => adat t (upd idx axis j)) (zr (nth axis (ash t) 0)))) db).
(** L78-97: along an axis that is not split; an empty local tensor gives an empty tensor, and
    local_shape[None] = 0 is a TypeError *)
Definition fft_local (n : Z) (axis : nat) (x : dnd A) : res (dnd B) :=
  let osh := upd (d_gshape x) axis n in                                                 (* L63-75 *)
  do ls <- all_ok (map (fun t => if existsb (Z.eqb 0) (ash t)
                                 then match d_split x with
                                      | Some s => Ok (mk_arr (upd osh s 0) (fun _ => db))
                                      | None => Err TypeError end
                                 else Ok (torch_fft n axis t)) (d_locals x));
  Ok (mk_dnd ls osh (d_split x)).
Definition axes01 (s nd : nat) : list Z := swap s (map Z.of_nat (seq 0 nd)) 0.
Definition fft (n : option Z) (axis : Z) (x : dnd A) : res (dnd B) :=
  let nd := length (d_gshape x) in
  if (nd =? 0)%nat then Err TypeError else                                              (* L58: x.shape[None] *)
  do a <- match sanitize_axis nd (AxInt axis) with Ok (AxInt a) => Ok (Z.to_nat a) | _ => Err IndexError end;   (* L50-53 *)
  let n := match n with Some n => n | None => nth a (d_gshape x) 0 end in               (* L56-58 *)
  let along := match d_split x with Some s => (s =? a)%nat | None => false end in       (* L77 *)
  if negb (is_dist x) || negb along then fft_local n a x
  else
    do x1 <- (if (a =? 0)%nat then Ok x else transpose x (Some (axes01 a nd)));         (* L100-107 *)
    let x2 := resplit da x1 (if (1 <? nd)%nat then Some 1%nat else None) in             (* L112-115 *)
    do y <- fft_local n 0 x2;                                                           (* L121 *)
    let y := resplit db y (Some 0%nat) in                                               (* L124 *)
    if (a =? 0)%nat then Ok y else transpose y (Some (axes01 a nd)).                    (* L125-128 *)
End Fft.
