(** Model of heat/core/io.py load_csv L968-1191 (all three values of [split]).

    A file is the list of its bytes (natural numbers).  [fl] is Python's float() followed by the
    conversion to the requested type (L1058, L1146-1147): from the bytes of one field to a value
    or an exception.  Simplifications: the separator is one byte (a longer separator is never
    counted as a column by L1105); an ASCII compatible encoding, so that decoding a line and
    splitting it is splitting its bytes; header_lines is not negative; reading and writing the
    file cannot fail.  An exception on one rank is the result of the whole call (the other ranks
    are then left waiting in Recv or Allreduce). *)
From Verif Require Import Base LayoutModel RedistModel NdSpec OpsModel ShapeModel FactoryModel.
Open Scope nat_scope.

Notation byte := nat (only parsing).
Definition LF : byte := 10.
Definition CR : byte := 13.

(** str.split(sep) for a separator of one character *)
Fixpoint split_on (sep : byte) (l : list byte) : list (list byte) :=
  match l with
  | [] => [[]]
  | b :: t => match split_on sep t with
              | [] => [[b]]                                   (* never *)
              | f :: fs => if b =? sep then [] :: f :: fs else (b :: f) :: fs
              end
  end.
(** [float(val) for val in line.split(sep)], L1057-1058, L1146, L1178-1179 *)
Definition parse {V} (fl : list byte -> res V) (sep : byte) (l : list byte) : res (list V) :=
  all_ok (map fl (split_on sep l)).

(** the tensor with the given rows of [c] values each *)
Definition of_rows {V} (dv : V) (c : nat) (rows : list (list V)) : arr V :=
  mk_arr [Z.of_nat (length rows); Z.of_nat c]
         (fun idx => nth (Z.to_nat (nth 1 idx 0%Z)) (nth (Z.to_nat (nth 0 idx 0%Z)) rows []) dv).
(** torch.tensor of a list of rows: they must have equal lengths *)
Definition tensor_of {V} (dv : V) (rows : list (list V)) : res (arr V) :=
  match rows with
  | [] => Ok (mk_arr [0%Z] (fun _ => dv))
  | r0 :: _ => if forallb (fun r => length r =? length r0) rows then Ok (of_rows dv (length r0) rows)
               else Err ValueError
  end.

(** * text mode, L1052-1058 and L1174-1187: open(path) translates \r\n and \r to \n, readlines /
    readline give one line per \n; the callers then delete the terminator.  Lines are given
    without it. *)
Fixpoint text_lines (cur f : list byte) : list (list byte) :=
  match f with
  | [] => match cur with [] => [] | _ => [cur] end
  | b :: f' =>
      if b =? LF then cur :: text_lines [] f'
      else if b =? CR then
        match f' with
        | b' :: f'' => if b' =? LF then cur :: text_lines [] f'' else cur :: text_lines [] f'
        | [] => [cur]
        end
      else text_lines (cur ++ [b]) f'
  end.

(** split=None, L1051-1062 *)
Definition load_none {V} (dv : V) fl sep (P h : nat) (file : list byte) : res (dnd V) :=
  do rows <- all_ok (map (parse fl sep) (skipn h (text_lines [] file)));
  do t <- tensor_of dv rows;
  array_split P t AxNone.

(** split=1, L1171-1189.  L1175-1179: the first line after the header; at the end of the file
    readline gives the empty line. *)
Definition load_cols {V} (dv : V) fl sep (P h : nat) (file : list byte) : res (dnd V) :=
  let ls := skipn h (text_lines [] file) in
  do first <- parse fl sep (match ls with [] => [] | l :: _ => l end);
  let '(chunk, displs, _) := counts_displs_shape [1; length first] 1 0 P in        (* L1182 *)
  do more <- all_ok (map (parse fl sep) (tl ls));                                  (* L1185-1187 *)
  do ts <- all_ok (map (fun r => tensor_of dv (map (fun v => sub v (nth r displs 0) (nth r chunk 0)) (first :: more)))
                       (seq 0 P));                                                 (* L1183, L1188 *)
  do y <- array_is_split ts 1;                                                     (* L1189 *)
  Ok (fst y).

(** * split=0, L1064-1169 *)
(** r[pos - 1]: at position 0 this is the last byte of the rank's own share *)
Definition prev_byte (r : list byte) (pos : nat) : byte :=
  match pos with O => last r 0 | S p => nth p r 0 end.
Definition crlf_at (r : list byte) (pos : nat) : bool :=                            (* L1080 *)
  (nth pos r 0 =? CR) && (pos + 1 <? length r) && (nth (pos + 1) r 0 =? LF).
(** L1073-1084: the line start found at byte [pos] of the share [r] *)
Definition start_at (r : list byte) (pos : nat) : list nat :=
  if nth pos r 0 =? LF then if prev_byte r pos =? CR then [] else [pos + 1]         (* L1074-1077 *)
  else if nth pos r 0 =? CR then if crlf_at r pos then [pos + 2] else [pos + 1]     (* L1078-1084 *)
  else [].
Definition line_starts (r : list byte) : list nat := flat_map (start_at r) (seq 0 (length r)).
Definition lineter_len (r : list byte) : nat :=                                     (* L1067, L1082 *)
  if existsb (crlf_at r) (seq 0 (length r)) then 2 else 1.
(** L1102-1108 *)
Definition count_columns (sep : byte) (r : list byte) (ls : list nat) : nat :=
  match ls with
  | a :: b :: _ => 1 + length (filter (Nat.eqb sep) (sub r a (b - a)))
  | _ => 0
  end.
(** f.read(n) after f.seek(at): everything when n is negative, L1139-1140 *)
Definition read_at (file : list byte) (at_ upto : nat) : list byte :=
  if upto <? at_ then skipn at_ file else sub file at_ (upto - at_).
(** L1137-1142: the bytes of every line of the rank *)
Fixpoint lines_of (file r : list byte) (displ lt last_line : nat) (ls : list nat) : list (list byte) :=
  match ls with
  | [] => []
  | s :: t => match t with
              | [] => [read_at file (displ + s) last_line]
              | s' :: _ => sub r s (s' - lt - s) :: lines_of file r displ lt last_line t
              end
  end.
(** L1147: local_tensor[i] = torch.tensor(values): equal length or one value, which is
    repeated *)
Definition assign_row {V} (c : nat) (v : list V) : res (list V) :=
  if length v =? c then Ok v
  else match v with [x] => Ok (repeat x c) | _ => Err RuntimeError end.
(** L1145: empty lines are passed over *)
Definition nonempty (l : list byte) : bool := match l with [] => false | _ => true end.
Definition local_rows {V} (fl : list byte -> res V) sep c (lines : list (list byte)) : res (list (list V)) :=
  all_ok (map (fun l => do v <- parse fl sep l; assign_row c v) (filter nonempty lines)).
(** torch.tensor(x, dtype=int32) *)
Definition int32_ok (n : nat) : bool := (Z.of_nat n <? 2 ^ 31)%Z.

Definition load_rows {V} (dv : V) fl sep (P h : nat) (file : list byte) : res (dnd V) :=
  let fs := length file in
  let '(counts, displs, _) := counts_displs_shape [fs; 1] 0 0 P in                  (* L1065 *)
  let share r := sub file (nth r displs 0) (nth r counts 0) in                      (* L1070-1072 *)
  let ls0 := map (fun r => (if r =? 0 then [0] else []) ++ line_starts (share r)) (seq 0 P) in  (* L1086-1087 *)
  let cum r := psum (lens ls0) (S r) in                                             (* L1090-1093 *)
  match find (fun i => h <? cum i) (seq 0 P) with                                   (* L1094 *)
  | None => Err StopIteration
  | Some st =>
    let ls r := if r <? st then []                                                  (* L1095-1099 *)
                else if r =? st then skipn (h - match st with O => 0 | S q => cum q end) (nth r ls0 [])
                else nth r ls0 [] in
    let columns := fold_right Nat.max 0 (map (fun r => count_columns sep (share r) (ls r)) (seq 0 P)) in  (* L1101-1111 *)
    let last_line r :=                                                              (* L1113-1128 *)
      if (st <=? r) && (r + 1 <? P) then
        match ls (r + 1) with
        | [] => Err IndexError                                                      (* L1121, L1125 *)
        | s :: _ => if int32_ok (nth (r + 1) displs 0 + s - 1) then Ok (nth (r + 1) displs 0 + s - 1) else Err RuntimeError
        end
      else Ok fs in
    do rows <- all_ok (map (fun r => do e <- last_line r;
                             local_rows fl sep columns
                               (lines_of file (share r) (nth r displs 0) (lineter_len (share r)) e (ls r)))
                           (seq 0 P));
    do d <- balance P rows;                                                         (* L1153-1169 *)
    Ok (mk_dnd (map (of_rows dv columns) d) [Z.of_nat (length (glob rows)); Z.of_nat columns] (Some 0))
  end.

(** load_csv: [split] is None, 0 or 1 (L1038-1039) *)
Definition load_csv {V} (dv : V) (fl : list byte -> res V) (sep : byte) (split : option nat) (P h : nat) (file : list byte) : res (dnd V) :=
  match split with
  | None => load_none dv fl sep P h file
  | Some 0 => load_rows dv fl sep P h file
  | Some 1 => load_cols dv fl sep P h file
  | _ => Err ValueError
  end.
