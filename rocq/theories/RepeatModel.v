(** Model of heat/core/manipulations.py repeat L1862-2090.  The array is a DNDarray; the
    repetitions are an int, a sequence of ints (list, tuple, np.ndarray) or a DNDarray of
    int64.  Warnings, dtypes and the conversion of [a] from Python objects are not modelled.
    One list entry per rank. *)
From Verif Require Import Base LayoutModel NdSpec TensorSpec OpsModel RedistModel ShapeModel BinModel RollModel ReshapeModel FactoryModel.
Open Scope Z_scope.

(** torch.repeat_interleave: a single count is used for every element, otherwise there must be
    one count per element; counts must not be negative *)
Definition torch_counts (n : nat) (reps : list Z) : res (list Z) :=
  let reps := match reps with [k] => repeat k n | _ => reps end in
  if negb (Nat.eqb (length reps) n) then Err RuntimeError
  else if existsb (fun k => k <? 0) reps then Err RuntimeError else Ok reps.
(** every element of [l] as often as its count says *)
Definition spread {A} (l : list A) (reps : list Z) : list A :=
  flat_map (fun p => repeat (fst p) (Z.to_nat (snd p))) (combine l reps).
Definition vector {A} (dflt : A) (l : list A) : arr A :=
  mk_arr [Z.of_nat (length l)] (fun idx => nth (Z.to_nat (nth 0 idx 0)) l dflt).
Definition torch_repeat {A} (dflt : A) (t : arr A) (reps : list Z) (axis : option nat) : res (arr A) :=
  match axis with
  | None => do r <- torch_counts (length (flat t)) reps; Ok (vector dflt (spread (flat t) r))
  | Some a => do r <- torch_counts (length (slabs a t)) reps; Ok (unslabs dflt a (ash t) (spread (slabs a t) r))
  end.

Inductive rep_arg := RInt (k : Z) | RSeq (l : list Z) | RArr (c : dnd Z).
(** factories.array(repeats, is_split=None), L1956-1959 *)
Definition replicated (P : nat) (l : list Z) : dnd Z := mk_dnd (repeat (vector 0 l) P) [Z.of_nat (length l)] None.
(** manipulations.resplit L3842-3931: same split: a copy; from None: the local chunk; data movement: C16, C17 *)
Definition resplit {A} (dflt : A) (x : dnd A) (b : option nat) : dnd A :=
  match d_split x, b with
  | None, Some k => cut_map x k (zcounts (nth k (d_gshape x) 0) (length (d_locals x)))
  | _, _ => resplit_any dflt x b
  end.
Definition oeqb (a b : option nat) : bool :=
  match a, b with None, None => true | Some i, Some j => Nat.eqb i j | _, _ => false end.
Definition to_split {A} (dflt : A) (x : dnd A) (b : option nat) : dnd A := if oeqb (d_split x) b then x else resplit dflt x b.

(** L1983-1995, L2081-2083: torch's function on every rank; [cs]: the local counts *)
Definition local_repeats {A} (dflt : A) (a : dnd A) (cs : list (list Z)) (axis : option nat) : res (list (arr A)) :=
  all_ok (map (fun p => torch_repeat dflt (fst p) (snd p) axis) (combine (d_locals a) cs)).
(** L2085-2088: array(is_split=a.split), then balance_() *)
Definition assemble {A} (dflt : A) (split : option nat) (ls : list (arr A)) : res (dnd A) :=
  match split with
  | None => Ok (mk_dnd ls (ash (nth 0 ls (mk_arr [] (fun _ => dflt)))) None)
  | Some s => do p <- array_is_split ls s; balance_nd dflt (fst p) s
  end.

Definition repeat_core {A} (dflt : A) (a : dnd A) (r : Z + dnd Z) (axis : option nat) : res (dnd A) :=
  let P := length (d_locals a) in
  if existsb (Z.eqb 0) (d_gshape a) then Ok a                                               (* L1973-1974 *)
  else
    let by_rows := match axis with None => to_split dflt a (match d_split a with None => None | Some _ => Some 0%nat end) | Some _ => a end in
    match r with
    | inl k => do ls <- local_repeats dflt by_rows (repeat [k] P) axis; assemble dflt (d_split by_rows) ls   (* L1977-1984 *)
    | inr c =>
        if zprod (d_gshape c) =? 1 then                                                     (* L1986-1995 *)
          do ls <- local_repeats dflt by_rows (map flat (d_locals (to_split 0 c None))) axis; assemble dflt (d_split by_rows) ls
        else
          match d_split a, axis with
          | None, _ =>                                                                      (* L2001-2024 *)
              let c := to_split 0 c None in
              if negb (match axis with
                       | None => zprod (d_gshape a) =? zprod (d_gshape c)
                       | Some k => nth k (d_gshape a) 0 =? zprod (d_gshape c) end) then Err ValueError
              else do ls <- local_repeats dflt a (map flat (d_locals c)) axis; assemble dflt None ls
          | Some s, None =>                                                                 (* L2026-2055 *)
              if negb (zprod (d_gshape a) =? zprod (d_gshape c)) then Err ValueError
              else
                do p <- reshape 0 c (d_gshape a) AxNone;
                let c := to_split 0 (fst p) (Some 0%nat) in
                do ls <- local_repeats dflt by_rows (map flat (d_locals c)) None; assemble dflt (Some 0%nat) ls
          | Some s, Some k =>
              if Nat.eqb s k then                                                           (* L2057-2063: no comparison of sizes *)
                let c := to_split 0 c (Some 0%nat) in
                do ls <- local_repeats dflt a (map flat (d_locals c)) axis; assemble dflt (Some s) ls
              else                                                                          (* L2066-2079 *)
                let c := to_split 0 c None in
                if negb (nth k (d_gshape a) 0 =? zprod (d_gshape c)) then Err ValueError
                else do ls <- local_repeats dflt a (map flat (d_locals c)) axis; assemble dflt (Some s) ls
          end
    end.
(** the names of this library's list function and of Heat's function clash *)
Definition ht_repeat {A} (dflt : A) (a : dnd A) (r : rep_arg) (axis : option Z) : res (dnd A) :=
  let P := length (d_locals a) in
  do ax <- match axis with                                                                  (* L1912-1918 *)
           | None => Ok None
           | Some k => if (Z.of_nat (length (d_gshape a)) <=? k) || (k <? 0) then Err ValueError else Ok (Some (Z.to_nat k))
           end;
  do r <- match r with                                                                      (* L1921-1968 *)
          | RInt k => Ok (inl k)
          | RSeq l => match l with [] => Err ValueError | _ => Ok (inr (replicated P l)) end
          | RArr c => if zprod (d_gshape c) =? 0 then Err ValueError
                      else if negb (Nat.eqb (length (d_gshape c)) 1) then Err ValueError else Ok (inr c)
          end;
  repeat_core dflt a r ax.
