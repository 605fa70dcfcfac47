(** Model of solve_triangular, heat/core/linalg/solver.py L430-623.  Elements are in a type
    with exact operations.  A distributed matrix is given by its global entries and the
    extents of the local pieces (lshape_map); every process runs in lockstep, a collective is
    one step.  For stacks of matrices with the rows or columns distributed the code does the
    same for each matrix of the stack, the model has one. *)
From Verif Require Import Base LayoutModel NdSpec OpsModel TriSpec.
Open Scope nat_scope.

Section Tri.
Context {F : Type}.
Variables (f0 : F) (fadd fmul fsub fdiv : F -> F -> F).
Notation fsum := (fsum f0 fadd).
(** a local tensor with its shape *)
Record blk := mk_blk { br : nat; bc : nat; be : nat -> nat -> F }.
Definition noblk : blk := mk_blk 0 0 (fun _ _ => f0).
(** t[lo:hi, :] and t[:, lo:hi] *)
Definition rows_of (lo hi : nat) (B : blk) : blk :=
  let hi := Nat.min hi (br B) in mk_blk (hi - lo) (bc B) (fun i j => be B (lo + i) j).
Definition cols_of (lo hi : nat) (B : blk) : blk :=
  let hi := Nat.min hi (bc B) in mk_blk (br B) (hi - lo) (fun i j => be B i (lo + j)).
(** torch.linalg.solve_triangular(D, B, upper=True): back substitution; the entries below the
    diagonal are not read.  [back m t] has the last t entries of the solution. *)
Fixpoint back (m : nat) (D : nat -> nat -> F) (b : nat -> F) (t : nat) : list F :=
  match t with
  | 0 => []
  | S t => let xs := back m D b t in let r := m - S t in
           fdiv (fsub (b r) (fsum (map (fun u => fmul (D r (r + 1 + u)) (nth u xs f0)) (seq 0 t)))) (D r r) :: xs
  end.
Definition tsolve (D B : blk) : res blk :=
  if Nat.eqb (br D) (bc D) && Nat.eqb (br D) (br B)
  then Ok (mk_blk (br B) (bc B) (fun i k => nth i (back (br D) (be D) (fun i => be B i k) (br D)) f0))
  else Err RuntimeError.
(** @ *)
Definition matmul (A B : blk) : res blk :=
  if Nat.eqb (bc A) (br B)
  then Ok (mk_blk (br A) (bc B) (fun i k => fsum (map (fun j => fmul (be A i j) (be B j k)) (seq 0 (bc A)))))
  else Err RuntimeError.
(** a -= b; b may have one row, which is then used for every row of a *)
Definition isub (a b : blk) : res blk :=
  if negb (Nat.eqb (bc a) (bc b)) then Err RuntimeError
  else if Nat.eqb (br a) (br b) then Ok (mk_blk (br a) (bc a) (fun i k => fsub (be a i k) (be b i k)))
  else if Nat.eqb (br b) 1 then Ok (mk_blk (br a) (bc a) (fun i k => fsub (be a i k) (be b 0 k)))
  else Err RuntimeError.
(** what a process gets from Scatterv with this count and displacement into a buffer of [count]
    rows.  A message longer in bytes than the buffer is truncated, that is an MPI error
    (RuntimeError here); reading beyond the send buffer is undefined (RuntimeError here). *)
Definition scatterv (send_size recv_size : nat) (S : blk) (count displ : nat) : res blk :=
  if (recv_size * (count * bc S) <? send_size * (count * bc S)) || (br S <? displ + count) then Err RuntimeError
  else Ok (mk_blk count (bc S) (fun i k => be S (displ + i) k)).

Section Run.
(** number of processes, rows of the system; [cn]: extents of x = zeros_like(b), that is the
    canonical layout; [cs]: extents of A or b, whose cumulated sums are the displacements *)
Variables (p n K : nat) (cs : list nat) (send_size recv_size : nat).
Definition cn : list nat := counts_of n p.
Definition cum (r : nat) : nat := psum cs r.
Definition bt_ (bt : list blk) (r : nat) : blk := nth r bt noblk.
(** the loops of L508-535 and L563-592: each process has all rows of its columns of A *)
Fixpoint by_columns (A : nat -> blk) (is : list nat) (bt xs : list blk) : res (list blk * list blk) :=
  match is with
  | [] => Ok (bt, xs)
  | i :: is =>
      do xi <- tsolve (rows_of (cum i) (cum (i + 1)) (A i)) (bt_ bt i);
      do s <- matmul (A i) xi;
      do bt' <- all_ok (map (fun r => if r <? i then do v <- scatterv send_size recv_size s (nth r cn 0) (cum r); isub (bt_ bt r) v
                                     else Ok (bt_ bt r)) (seq 0 p));
      by_columns A is bt' (upd xs i xi)
  end.
Definition cols_solve (A : nat -> blk) (bt : list blk) : res (list blk) :=
  let xs := map (fun r => mk_blk (nth r cn 0) K (fun _ _ => f0)) (seq 0 p) in
  do s <- by_columns A (rev (seq 1 (p - 1))) bt xs;
  do x0 <- tsolve (rows_of 0 (cum 1) (A 0)) (bt_ (fst s) 0);
  Ok (upd (snd s) 0 x0).
(** the loop of L595-621: each process has all columns of its rows of A; the solution of
    process i is broadcast.  The buffers of the broadcast must have equal extents. *)
Fixpoint by_rows (A : nat -> blk) (is : list nat) (bt xs : list blk) : res (list blk * list blk) :=
  match is with
  | [] => Ok (bt, xs)
  | i :: is =>
      do xi <- tsolve (cols_of (cum i) (cum (i + 1)) (A i)) (bt_ bt i);
      if negb (Nat.eqb (br xi) (nth i cn 0)) then Err RuntimeError
      else
        do bt' <- all_ok (map (fun r => if r <? i then do v <- matmul (cols_of (cum i) (cum (i + 1)) (A r)) xi; isub (bt_ bt r) v
                                       else Ok (bt_ bt r)) (seq 0 p));
        by_rows A is bt' (upd xs i xi)
  end.
Definition rows_solve (A : nat -> blk) (bt : list blk) : res (list blk) :=
  let xs := map (fun r => mk_blk (nth r cn 0) K (fun _ _ => f0)) (seq 0 p) in
  do s <- by_rows A (rev (seq 1 (p - 1))) bt xs;
  do x0 <- tsolve (cols_of 0 (cum 1) (A 0)) (bt_ (fst s) 0);
  Ok (upd (snd s) 0 x0).
End Run.

(** how A is split (None, columns, rows) and b (None, rows), with the extents *)
Inductive asplit := ANone | ACols (cs : list nat) | ARows (cs : list nat).
Inductive bsplit := BNone | BRows (cs : list nat).
Definition pieces (p : nat) (B : blk) (cs : list nat) : list blk := map (fun r => rows_of (psum cs r) (psum cs (r + 1)) B) (seq 0 p).
(** the result: is it split along the rows, and the local pieces.  [bsize]: bytes of an element *)
Definition solve_la (p n K bsize : nat) (sa : asplit) (sb : bsplit) (A b : nat -> nat -> F) : res (bool * list blk) :=
  let A := mk_blk n n A in let b := mk_blk n K b in
  match sa, sb with
  | ANone, BNone => do x <- tsolve A b; Ok (false, repeat x p)                                            (* L490-494 *)
  | ANone, BRows cs =>                                                                                    (* L495-535 *)
      (* res_recv has the default dtype, float32: 4 bytes (L515) *)
      do l <- cols_solve p n K cs bsize 4 (fun r => cols_of (psum cs r) (psum cs (r + 1)) A) (pieces p b cs); Ok (true, l)
  | ACols cs, BNone => do l <- cols_solve p n K cs bsize bsize (fun r => cols_of (psum cs r) (psum cs (r + 1)) A) (pieces p b cs); Ok (true, l)
  | ACols cs, BRows cb =>
      if list_eq_dec Nat.eq_dec cs cb then do l <- cols_solve p n K cs bsize bsize (fun r => cols_of (psum cs r) (psum cs (r + 1)) A) (pieces p b cs); Ok (true, l)
      else Err RuntimeError                                                                               (* L479-482 *)
  | ARows cs, BNone => do l <- rows_solve p n K cs (fun r => rows_of (psum cs r) (psum cs (r + 1)) A) (pieces p b cs); Ok (true, l)
  | ARows cs, BRows cb =>
      if list_eq_dec Nat.eq_dec cs cb then do l <- rows_solve p n K cs (fun r => rows_of (psum cs r) (psum cs (r + 1)) A) (pieces p b cs); Ok (true, l)
      else Err RuntimeError
  end.

(** the stack is distributed, L537-541: torch solves the local stacks; local stacks of
    different sizes are broadcast.  [ca], [cb]: numbers of matrices per process. *)
Definition solve_batch (p n K : nat) (ca cb : list nat) (A b : nat -> nat -> nat -> F) : res (list (list blk)) :=
  all_ok (map (fun r =>
    let na := nth r ca 0 in let nb := nth r cb 0 in
    let one s t := tsolve (mk_blk n n (A (psum ca r + s))) (mk_blk n K (b (psum cb r + t))) in
    if Nat.eqb na nb then all_ok (map (fun s => one s s) (seq 0 na))
    else if Nat.eqb na 1 then all_ok (map (fun s => one 0 s) (seq 0 nb))
    else if Nat.eqb nb 1 then all_ok (map (fun s => one s 0) (seq 0 na))
    else Err RuntimeError) (seq 0 p)).

(** L448-482: the checks of the arguments (both DNDarrays) *)
Definition opt_lt (s : option nat) (k : nat) : bool := match s with Some s => s <? k | None => false end.
Definition opt_eqb (s t : option nat) : bool := match s, t with Some s, Some t => Nat.eqb s t | None, None => true | _, _ => false end.
Definition shape_eqb (a b : list nat) : bool := if list_eq_dec Nat.eq_dec a b then true else false.
Definition check (ash bsh : list nat) (sa sb : option nat) : res unit :=
  let na := length ash in let bd := na - 2 in
  if na <? 2 then Err ValueError                                                                          (* L450-451 *)
  else if negb (Nat.eqb (length bsh) na) then Err ValueError                                              (* L452-453 *)
  else if negb (Nat.eqb (nth (na - 2) ash 0) (nth (na - 1) ash 0)) then Err ValueError                    (* L454-455 *)
  else if negb (shape_eqb (firstn bd ash) (firstn bd bsh)) then Err ValueError                            (* L460-461 *)
  else if opt_eqb sb (Some (bd + 1)) then Err ValueError                                                  (* L462-463 *)
  else if negb (Nat.eqb (nth bd bsh 0) (nth (na - 1) ash 0)) then Err ValueError                          (* L464-465 *)
  else if (opt_lt sa bd || opt_lt sb bd) && negb (opt_eqb sa sb) then Err ValueError                      (* L467-473 *)
  else Ok tt.
End Tri.
Arguments blk : clear implicits.
