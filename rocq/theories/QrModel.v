(** Model of heat/core/linalg/qr.py (L16-371), two-dimensional arrays.  A distributed matrix is the list of its local
    blocks (rows for split=0, columns for split=1), one entry per rank.  [qr]: torch.linalg.qr(., mode="reduced") on a
    local matrix, None when it raises.  For mode="r" the Q factors are not formed; torch's R is the same. *)
From Verif Require Import Base QrSpec OpsModel.
Open Scope nat_scope.
Section Qr.
Context {V : Type} (zero : V) (add mul : V -> V -> V) (qr : mat V -> option (mat V * mat V)).
Notation M := (mat V).
Definition local_qr (a : M) : res (M * M) := match qr a with Some p => Ok p | None => Err RuntimeError end.
Definition m0 : M := Mat 0 0 (fun _ _ => zero).
(** a @ b: torch raises when the inner dimensions differ *)
Definition matmul_t (a b : M) : res M := if mc a =? mr b then Ok (mmul zero add mul a b) else Err RuntimeError.
(** rows lo .. lo+c-1 *)
Definition rows_of (a : M) (lo c : nat) : M := Mat c (mc a) (fun i j => me a (lo + i) j).

(** L273, L344: comm.Split(comm.rank // procs_to_merge): the members of the g-th group of current_procs *)
Definition group (q : nat) (cp : list nat) (g : nat) : list nat := firstn q (skipn (g * q) cp).
(** current_comm.rank of rank r: its position in current_procs (L340-341); None: not a member *)
Fixpoint pos (r : nat) (cp : list nat) : option nat :=
  match cp with [] => None | h :: t => if h =? r then Some 0 else option_map S (pos r t) end.
(** L281-316 on rank r: gather the R factors of the group on its first member, factorize, scatter the rows of Q_buf into
    buffers with n columns (Scatterv of rows with another number of columns than the receive buffer: erroneous, an error here).
    Result: (scattered_Q_buf if bound, R_loc) *)
Definition merge (reduced : bool) (n q : nat) (cp : list nat) (Rs : list M) (r : nat) : res (option M * M) :=
  let Rr := nth r Rs m0 in
  match pos r cp with
  | None => Ok (None, Rr)
  | Some i =>
      let g := group q cp (i / q) in
      if length g <=? 1 then Ok (None, Rr) else
      let Rg := map (fun k => nth k Rs m0) g in
      do f <- local_qr (vstack zero n Rg);
      do s <- (if reduced then
                 if mr Rr =? 0 then Ok (Some (Mat 0 n (fun _ _ => zero)))
                 else if mc (fst f) =? n then Ok (Some (rows_of (fst f) (list_sum (map mr (firstn (i mod q) Rg))) (mr Rr))) else Err RuntimeError
               else Ok None);
      Ok (s, if i mod q =? 0 then snd f else Rr)
  end.
(** L320-338: the first rank of every leave_comm (groups of [leaf] consecutive ranks) broadcasts its scattered_Q_buf,
    and all multiply Q_loc with it; nothing happens if it is unbound *)
Definition update_q (leaf : nat) (sc : list (option M * M)) (Qs : list M) (r : nat) : res M :=
  match fst (nth (r / leaf * leaf) sc (None, m0)) with
  | None => Ok (nth r Qs m0)
  | Some s => matmul_t (nth r Qs m0) s
  end.
(** L335-337: [current_procs[i] for i in range(len(current_procs)) if i % procs_to_merge == 0] *)
Definition next_procs (q : nat) (cp : list nat) : list nat := map (fun i => nth i cp 0) (filter (fun i => i mod q =? 0) (seq 0 (length cp))).
(** L279-351, [leaf] = procs_to_merge ** (level - 1) *)
Fixpoint merge_loop (fuel : nat) (reduced : bool) (n q leaf : nat) (cp : list nat) (Qs Rs : list M) : res (list M * list M) :=
  if length cp <=? 1 then Ok (Qs, Rs) else
  match fuel with
  | 0 => Err OutOfFuel
  | S fuel =>
      let P := length Rs in
      do sc <- all_ok (map (merge reduced n q cp Rs) (seq 0 P));
      do Qs' <- (if reduced then all_ok (map (update_q leaf sc Qs) (seq 0 P)) else Ok Qs);
      merge_loop fuel reduced n q (leaf * q) (next_procs q cp) Qs' (map snd sc)
  end.
(** L269-371: TS-QR of the blocks of rows [As] (all with n columns); the result: the blocks of Q (mode="reduced") and R on
    every rank; receiving R in an n x n buffer (L353-356) *)
Definition tsqr (reduced : bool) (n q : nat) (As : list M) : res (option (list M) * M) :=
  do f <- all_ok (map local_qr As);
  do l <- merge_loop (length As) reduced n q 1 (seq 0 (length As)) (map fst f) (map snd f);
  let R := nth 0 (snd l) m0 in
  if (mr R =? n) && (mc R =? n) then Ok (if reduced then Some (fst l) else None, R) else Err RuntimeError.
(** L73-128, L236-240 for a two-dimensional array with split=0 on several processes: the argument checks and the test that
    TS-QR applies.  None: the other algorithm (L240-266), not modelled *)
Definition qr_rows (reduced : bool) (n : nat) (procs_to_merge : Z) (As : list M) : option (res (option (list M) * M)) :=
  if (procs_to_merge <? 0)%Z || (procs_to_merge =? 1)%Z then Some (Err ValueError) else
  let q := if (procs_to_merge =? 0)%Z then length As else Z.to_nat procs_to_merge in
  if fold_right Nat.max 0 (map mr As) <? n then None else Some (tsqr reduced n q As).
End Qr.
