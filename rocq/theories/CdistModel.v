(** Model of the pairwise distance ring: heat/spatial/distance.py L209-479, function
    [_dist], the common back end of cdist, rbf and manhattan.

    A 2-D operand split along axis 0 is its list of row blocks, one per process.
    [R] is the type of a row, [V] of an entry of the result.

    Simplifications.  (1) [metric(A, B)] : in the theorems, entry (i,j) is a function
    of row i of A and row j of B; in particular its rounding does not depend on the
    other rows of the tile (the [quadratic_expand] variants of L20-200 are of this form
    up to the BLAS kernel torch picks for a given tile size).  (2) L262-263 Probe +
    Get_count + Recv is one receive of as many rows as were sent.  (3) a Python slice
    assignment whose width differs from the slice raises in torch; here it is
    [setcols], which would change the row length instead; with X laid out in balanced
    form (the only case the theorems speak of) the widths agree.  (4) the element
    type promotion of L237-254, L396-410 is not modelled. *)
From Verif Require Import Base LayoutModel SchedModel.
Set Implicit Arguments.

Section Cdist.
Variables R V : Type.
Variable zero : V.
Variable metric : list R -> list R -> list (list V).

(** local state of a process: X.larray, the stationary operand, [moving], [d_ij],
    [symmetric] and [d.larray] *)
Record cst := Cst {
  c_x : list R; c_y : list R; c_moving : list R;
  c_dij : list (list V); c_sym : list (list V); c_d : list (list V) }.

(** payload of a message: rows of the moving operand or a computed tile *)
Inductive cmsg := Rows (l : list R) | Tile (t : list (list V)).

(** [d.larray[:, c1:c2] = t] *)
Definition setcols (c1 c2 : nat) (d t : list (list V)) : list (list V) :=
  map (fun p => firstn c1 (fst p) ++ snd p ++ skipn c2 (fst p)) (combine d t).

(** [t.transpose(0, 1)] of a matrix with [ncols] columns *)
Definition transp (ncols : nat) (t : list (list V)) : list (list V) :=
  map (fun j => map (fun row => nth j row zero) t) (seq 0 ncols).

(** L266, L278-280, L302-304, L425, L449-451: the column range of process [p] *)
Definition cols (n size p : nat) : nat * nat :=
  let displ := displs_from 0 (counts_of n size) in
  (nth p displ 0, if Nat.eqb p (size - 1) then n else nth (p + 1) displ 0).

Definition set_block (n size p : nat) (d t : list (list V)) : list (list V) :=
  setcols (fst (cols n size p)) (snd (cols n size p)) d t.

(** L256, L412 [factories.zeros]; L264-270 / L421-431: the state after the 0th iteration *)
Definition start_state (n size rank : nat) (x y : list R) : cst :=
  let d_ij := metric x y in
  let d := map (fun _ => repeat zero n) x in
  Cst x y [] d_ij [] (set_block n size rank d d_ij).

(** L298-299, L471-472 *)
Definition calc (n size sender : nat) (s : cst) : cst :=
  let d_ij := metric (c_x s) (c_moving s) in
  Cst (c_x s) (c_y s) (c_moving s) d_ij (c_sym s) (set_block n size sender (c_d s) d_ij).
(** L287, L296 [comm.Recv(moving, ...)] *)
Definition store_moving (s : cst) (m : cmsg) : cst :=
  match m with
  | Rows l => Cst (c_x s) (c_y s) l (c_dij s) (c_sym s) (c_d s)
  | Tile _ => s
  end.
(** L312, L317 [comm.Recv(symmetric, ...)] *)
Definition store_sym (s : cst) (m : cmsg) : cst :=
  match m with
  | Tile t => Cst (c_x s) (c_y s) (c_moving s) (c_dij s) t (c_d s)
  | Rows _ => s
  end.
(** L318 [d.larray[:, scolumns] = symmetric.transpose(0, 1)]; [symmetric] has as many
    columns as this process has rows *)
Definition set_sym (n size receiver : nat) (s : cst) : cst :=
  Cst (c_x s) (c_y s) (c_moving s) (c_dij s) (c_sym s)
      (set_block n size receiver (c_d s) (transp (length (c_x s)) (c_sym s))).

Definition send_rows (s : cst) : cmsg := Rows (c_y s).
Definition send_dij (s : cst) : cmsg := Tile (c_dij s).

(** L272-299 and L433-472: one ring step.  The purely local computation that follows a
    communication is attached to that communication. *)
Definition ring_step (n size rank iter : nat) : list (act cst cmsg) :=
  let receiver := (rank + iter) mod size in
  let sender := (rank + size - iter) mod size in
  if negb (Nat.eqb (rank / iter) 0) then
    [ARecv sender iter store_moving;
     ASend receiver iter (fun s => (send_rows s, calc n size sender s))]
  else
    [ASend receiver iter (fun s => (send_rows s, s));
     ARecv sender iter (fun s m => calc n size sender (store_moving s m))].

(** L301-318: the tile goes back to where the rows came from *)
Definition back_step (n size rank iter : nat) : list (act cst cmsg) :=
  let receiver := (rank + iter) mod size in
  let sender := (rank + size - iter) mod size in
  if negb (Nat.eqb (rank / iter) 0) then
    [ARecv receiver iter store_sym;
     ASend sender iter (fun s => (send_dij s, set_sym n size receiver s))]
  else
    [ASend sender iter (fun s => (send_dij s, s));
     ARecv receiver iter (fun s m => set_sym n size receiver (store_sym s m))].

(** L320-356: the extra half step for an even number of processes *)
Definition half_step (n size rank : nat) : list (act cst cmsg) :=
  let iter := (size + 1) / 2 in
  let receiver := (rank + iter) mod size in
  let sender := (rank + size - iter) mod size in
  if Nat.ltb rank (size / 2) then
    [ARecv sender iter (fun s m => calc n size sender (store_moving s m));
     ASend sender iter (fun s => (send_dij s, s))]
  else
    [ASend receiver iter (fun s => (send_rows s, s));
     ARecv receiver iter (fun s m => set_sym n size receiver (store_sym s m))].

(** L258-356: the program of a process when Y is None and X.split == 0 *)
Definition sym_prog (n size rank : nat) : list (act cst cmsg) :=
  flat_map (fun iter => ring_step n size rank iter ++ back_step n size rank iter)
           (seq 1 ((size + 1) / 2 - 1))
  ++ (if Nat.eqb ((size + 1) mod 2) 0 then [] else half_step n size rank).

(** L421-472: the program of a process when X.split == 0 and Y.split == 0 *)
Definition pair_prog (n size rank : nat) : list (act cst cmsg) :=
  flat_map (fun iter => ring_step n size rank iter) (seq 1 (size - 1)).

(** The two distributed runs, before any communication. *)
Definition sym_start (n : nat) (X : dist R) : config cst cmsg :=
  Config (map (fun r => sym_prog n (length X) r) (seq 0 (length X)))
         (map (fun r => start_state n (length X) r (nth r X []) (nth r X [])) (seq 0 (length X))) [].
Definition pair_start (n : nat) (X Y : dist R) : config cst cmsg :=
  Config (map (fun r => pair_prog n (length X) r) (seq 0 (length X)))
         (map (fun r => start_state n (length X) r (nth r X []) (nth r Y [])) (seq 0 (length X))) [].
End Cdist.

(** L373-395, L416-477: which of the branches is taken.  [RLocal] is
    [d.larray = metric(X.larray, Y.larray)] without communication, [RZero] is falling
    through: the second [elif X.split == 0] (L474) repeats the condition of L419 and is
    never reached, and inside L419 only Y.split None and 0 are handled. *)
Inductive cbranch := RLocal (split : option nat) | RSym | RPair | RZero | RRaise.
Definition cdist_branch (xsplit : option nat) (y : option (option nat)) (same_f : bool) : cbranch :=
  match y with
  | None => match xsplit with None => RLocal None | Some 0 => RSym | Some _ => RRaise end
  | Some ysplit =>
      match xsplit, ysplit with
      | None, None => RLocal None
      | None, Some 0 => RLocal (Some 1)
      | None, Some _ => RRaise
      | Some 0, None => RLocal (Some 0)
      | Some 0, Some 0 => if same_f then RPair else RRaise
      | Some 0, Some _ => RZero
      | Some _, _ => RRaise
      end
  end.

(** L359 / L417 / L422 / L412: the local part of the result of a process in the branches
    without communication; [x], [y] are X.larray and Y.larray of that process, [n] the
    global number of rows of Y.  None stands for an exception. *)
Definition local_part {R V} (zero : V) (metric : list R -> list R -> list (list V)) (n : nat)
    (b : cbranch) (x y : list R) : option (list (list V)) :=
  match b with
  | RLocal _ => Some (metric x y)
  | RZero => Some (map (fun _ => repeat zero n) x)
  | _ => None
  end.

(** L47-67 [_quadratic_expand] in exact arithmetic, one entry:
    [x_norm + y_norm - 2.0 * torch.mm(x, y_t)], clamped to [0, inf) *)
Definition zdot (a b : list Z) : Z := fold_right Z.add 0%Z (map (fun p => (fst p * snd p)%Z) (combine a b)).
Definition quadratic_expand (a b : list Z) : Z := Z.max 0 (zdot a a + zdot b b - 2 * zdot a b).
(** L133 [_manhattan_fast], one entry *)
Definition manhattan_fast (a b : list Z) : Z :=
  fold_right Z.add 0%Z (map (fun p => Z.abs (fst p - snd p)) (combine a b)).
