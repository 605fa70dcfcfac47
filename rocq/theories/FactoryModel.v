(** Model of heat/core/factories.py: array (split / is_split) L411-494, the common
    factory behind zeros/ones/full/empty L749-802, eye L709-746, arange L95-148 (integers)
    and linspace L1233-1280 (exact rationals instead of floats).
    One list entry per rank. *)
From Coq Require Import QArith.
From Verif Require Import Base LayoutModel NdSpec TensorSpec OpsModel ShapeModel ReshapeModel BinModel.
Open Scope Z_scope.

(** comm.chunk(shape, split): offset and local shape of rank r (communication.py L197-254) *)
Definition chunk_off (sh : list Z) (split : option nat) (r P : nat) : Z :=
  match split with Some s => chunk_start sh s r P | None => 0 end.
Definition chunk_lsh (sh : list Z) (split : option nat) (r P : nat) : list Z :=
  match split with Some s => chunk_shape sh s r P | None => sh end.
(** sanitize_axis(shape, split) for a split argument that is an int or None *)
Definition split_arg (ndim : nat) (split : axis_arg) : res (option nat) :=
  do a <- sanitize_axis ndim split;
  match a with AxNone => Ok None | AxInt k => Ok (Some (Z.to_nat k)) | _ => Err TypeError end.

(** * array(obj, split=...), L412-434: every rank passes the same object *)
Definition array_split {A} (P : nat) (t : arr A) (split : axis_arg) : res (dnd A) :=
  do sp <- split_arg (length (ash t)) split;
  Ok (mk_dnd (map (fun r =>
                match sp with
                | Some s => if (P =? 1)%nat then t                                  (* L424-426 *)
                            else mk_arr (chunk_shape (ash t) s r P)                   (* L430-431 *)
                                        (fun idx => adat t (move_axis_idx s (chunk_start (ash t) s r P) idx))
                | None => t
                end) (seq 0 P)) (ash t) sp).

(** * array(obj, is_split=s), L437-484.  [MIN64]: np.iinfo(int64).min.
    Every rank marks its extent with MIN64 when its shape does not fit its left neighbour. *)
Definition MIN64 : Z := - 2 ^ 63.
Definition fits_left (s : nat) (left own : list Z) : bool :=
  Nat.eqb (length left) (length own) &&                                              (* L454 *)
  forallb (fun i => Nat.eqb i s || (nth i own 0 =? nth i left 0)) (seq 0 (length own)). (* L461-464 *)
Definition mark (s : nat) (shs : list (list Z)) (r : nat) : Z :=
  let own := nth r shs [] in
  match r with
  | O => nth s own 0
  | S l => if fits_left s (nth l shs []) own then nth s own 0 else MIN64
  end.
(** result: array and cached balanced flag; [s]: is_split after sanitize_axis *)
Definition array_is_split {A} (ls : list (arr A)) (s : nat) : res (dnd A * bool) :=
  let P := length ls in
  match ls with
  | [t] => Ok (mk_dnd ls (ash t) (Some s), true)                                     (* L424-426 *)
  | _ =>
    let shs := map ash ls in
    let marks := map (mark s shs) (seq 0 P) in
    if fold_right Z.min 0 marks <? 0 then Err ValueError                             (* L468-473; 0 is neutral for the test *)
    else
      let total := zsum marks in                                                     (* L475-477 *)
      let gsh := upd (nth 0 shs []) s total in
      let good r := eqb_idx (chunk_shape gsh s r P) (nth r shs []) in                (* L480-482 *)
      Ok (mk_dnd ls gsh (Some s), forallb good (seq 0 P))
  end.

(** * zeros / ones / full / empty: __factory, L787-802 *)
Definition full {A} (P : nat) (sh : list Z) (v : A) (split : axis_arg) : res (dnd A) :=
  if existsb (fun n => n <? 0) sh then Err ValueError                                (* sanitize_shape L787 *)
  else do sp <- split_arg (length sh) split;
       Ok (mk_dnd (map (fun r => mk_arr (chunk_lsh sh sp r P) (fun _ => v)) (seq 0 P)) sh sp).

(** * eye, L709-746, for a two-dimensional shape *)
(** L729-734: the positions set to one, in order, until the break *)
Fixpoint eye_pos (is0 is1 : bool) (off n m : Z) (k : nat) (i : Z) : list (Z * Z) :=
  match k with
  | O => []
  | S k' => let px := if is0 then i else i + off in
            let py := if is1 then i else i + off in
            if (n <=? px) || (m <=? py) then [] else (px, py) :: eye_pos is0 is1 off n m k' (i + 1)
  end.
Definition eye (P : nat) (n m : Z) (split : axis_arg) : res (dnd Z) :=
  do sp <- split_arg 2 split;
  Ok (mk_dnd (map (fun r =>
        let lsh := chunk_lsh [n; m] sp r P in
        let ln := nth 0 lsh 0 in let lm := nth 1 lsh 0 in
        let ones := eye_pos (match sp with Some O => true | _ => false end)
                            (match sp with Some 1%nat => true | _ => false end)
                            (chunk_off [n; m] sp r P) ln lm (Z.to_nat (Z.min ln lm)) 0 in
        mk_arr lsh (fun idx => if existsb (fun p => (fst p =? nth 0 idx 0) && (snd p =? nth 1 idx 0)) ones
                               then 1 else 0)) (seq 0 P)) [n; m] sp).

(** * arange with integer arguments, L95-148.  numpy's ceil((stop-start)/step) is taken in
    exact arithmetic; torch.arange of integers has ceil((stop-start)/step) elements and
    raises when the direction of the bounds contradicts the step. *)
Definition cdiv (a b : Z) : Z := - ((- a) / b).
Definition torch_arange (start stop step : Z) : res (arr Z) :=
  if step =? 0 then Err RuntimeError
  else if (0 <? step) && (stop <? start) then Err RuntimeError
  else if (step <? 0) && (start <? stop) then Err RuntimeError
  else Ok (mk_arr [cdiv (stop - start) step] (fun idx => start + nth 0 idx 0 * step)).
Definition arange (P : nat) (start stop step : Z) (split : axis_arg) : res (dnd Z) :=
  if step =? 0 then Err ZeroDivisionError                                            (* L122 *)
  else
    let num := cdiv (stop - start) step in                                           (* L108, L115, L122 *)
    do sp <- split_arg 1 split;
    do ls <- all_ok (map (fun r =>
        let start' := start + chunk_off [num] sp r P * step in                       (* L138 *)
        let stop' := start' + nth 0 (chunk_lsh [num] sp r P) 0 * step in             (* L139 *)
        torch_arange start' stop' step) (seq 0 P));
    Ok (mk_dnd ls [num] sp).

(** * linspace, L1233-1280 in exact rationals *)
(** torch.linspace(a, b, n): n points, the i-th is a + i (b - a) / (n - 1); rationals are kept
    in lowest terms so that equal values are equal terms *)
Definition torch_linspace (a b : Q) (n : Z) : arr Q :=
  mk_arr [n] (fun idx => Qred (if (n =? 1)%Z then a else (a + inject_Z (nth 0%nat idx 0%Z) * ((b - a) / inject_Z (n - 1)))%Q)).
Definition lin_step (start stop : Q) (num : Z) (endpoint : bool) : Q :=
  ((stop - start) / inject_Z (Z.max 1 (if endpoint then num - 1 else num)))%Q.       (* L1239 *)
Definition linspace (P : nat) (start stop : Q) (num : Z) (endpoint : bool) (split : axis_arg) : res (dnd Q) :=
  if num <? 0 then Err ValueError                                                    (* L1237-1238 *)
  else
    let step := lin_step start stop num endpoint in
    do sp <- split_arg 1 split;
    Ok (mk_dnd (map (fun r =>
        let n := nth 0 (chunk_lsh [num] sp r P) 0 in
        let start' := (start + inject_Z (chunk_off [num] sp r P) * step)%Q in        (* L1252 *)
        let stop' := (start' + inject_Z n * step - step)%Q in                        (* L1253 *)
        torch_linspace start' stop' n) (seq 0 P)) [num] sp).
