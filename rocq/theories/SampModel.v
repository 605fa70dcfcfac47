(** Model of heat/utils/data/datatools.py DistributedSampler (L296-583).  [d]: per rank, the list of local rows; each row is a block of [bl] elements, so the
    memory of rank r is [concat (nth r d [])].  Random permutations are inputs. *)
From Verif Require Import Base LayoutModel OpsModel.
Open Scope nat_scope.

(** _in_slice L348-370 for a slice without step *)
Definition in_slice (idx : nat) (sl : nat * nat) : bool := negb ((idx <? fst sl) || (snd sl <=? idx)).
(** L403-405 comm.chunk((N,), split=0, rank=i)[-1][0] *)
Definition rank_slices (N P : nat) : list (nat * nat) := map (fun r => (psum (counts_of N P) r, psum (counts_of N P) r + nth r (counts_of N P) 0)) (seq 0 P).
(** L414-421: the loop stops at the first rank whose slice holds the index; without
    a match the variable keeps the last rank *)
Fixpoint holder (sls : list (nat * nat)) (k idx : nat) : nat :=
  match sls with
  | [] => k - 1
  | sl :: t => if in_slice idx sl then k else holder t (S k) idx
  end.
(** L412-425: indice_buffers[q] on rank [rank] *)
Definition indice_buffer (sls : list (nat * nat)) (indices : list nat) (rank q : nat) : list nat :=
  flat_map (fun p => let '(i, idx) := p in
    let data_send_rank := holder sls 0 idx in
    let data_recv_rank := holder sls 0 i in
    if data_recv_rank =? rank then (if q =? rank then [idx] else [])
    else if data_send_rank =? rank then (if q =? data_recv_rank then [idx] else []) else [])
  (combine (seq 0 (length indices)) indices).
(** L431-437 *)
Definition send_indice (sls : list (nat * nat)) (indices : list nat) (rank q : nat) : list nat :=
  let b := indice_buffer sls indices rank q in
  if q =? rank then filter (fun idx => in_slice idx (nth rank sls (0, 0))) b else b.

Section Exchange.
Context {E : Type}.
(** one block of [bl] elements at element offset [off] of the local memory; a displacement outside
    the memory is an invalid read *)
Definition read_block (mem : list E) (off : Z) (bl : nat) : res (list E) :=
  if ((off <? 0) || (Z.of_nat (length mem) <? off + Z.of_nat bl))%Z then Err RuntimeError else Ok (sub mem (Z.to_nat off) bl).
Fixpoint read_blocks (mem : list E) (offs : list Z) (bl : nat) : res (list E) :=
  match offs with
  | [] => Ok []
  | off :: t => do b <- read_block mem off bl; do rest <- read_blocks mem t bl; Ok (b ++ rest)
  end.
(** L438-449: what rank [r] sends to rank [q]; the struct type lists the blocks in the order of the
    buffer, relative to the first row of the rank (local_displacement, L409) *)
Definition message (bl : nat) (sls : list (nat * nat)) (indices displs : list nat) (mems : list (list E)) (r q : nat) : res (list E) :=
  read_blocks (nth r mems []) (map (fun disp => Z.of_nat (disp * bl) - Z.of_nat (nth r displs O * bl))%Z (send_indice sls indices r q)) bl.
(** L451-457 *)
Definition recv_count (sls : list (nat * nat)) (indices : list nat) (rank i : nat) : nat :=
  length (filter (fun idx => (holder sls 0 idx =? i) && in_slice idx (nth i sls (0, 0))) (indice_buffer sls indices rank rank)).
(** L462-487: rank [q] receives the blocks of rank 0, 1, ... one behind the other; a message whose
    size differs from the receive type is an MPI error *)
Fixpoint receive_all (bl : nat) (sls : list (nat * nat)) (indices displs : list nat) (mems : list (list E)) (q : nat) (srcs : list nat) : res (list E) :=
  match srcs with
  | [] => Ok []
  | r :: t => do m <- message bl sls indices displs mems r q;
              if length m =? recv_count sls indices q r * bl then do rest <- receive_all bl sls indices displs mems q t; Ok (m ++ rest) else Err RuntimeError
  end.
(** rows of a flat buffer *)
Definition rows (bl n : nat) (mem : list E) : list (list E) := map (fun k => sub mem (k * bl) bl) (seq 0 n).

(** torch.argsort(keys, stable=True): positions with key 0, then with key 1, ..., in order *)
Definition stable_argsort (keys : list nat) : list nat :=
  flat_map (fun k => filter (fun j => nth j keys 0 =? k) (seq 0 (length keys))) (seq 0 (S (list_max keys))).
Fixpoint position (x : nat) (l : list nat) : nat := match l with [] => 0 | y :: t => if x =? y then 0 else S (position x t) end.

(** L494-511 *)
Definition correct_order (sls : list (nat * nat)) (loc : list nat) (larray buf : list (list E)) : list (list E) :=
  let idx_to_rank_map := map (holder sls 0) loc in
  let sort_idx := stable_argsort idx_to_rank_map in
  let local_slices_sorted := map (fun j => nth j loc 0) sort_idx in
  fold_left (fun a p => let '(i, idx) := p in upd a (position idx loc) (nth i buf [])) (combine (seq 0 (length local_slices_sorted)) local_slices_sorted) larray.

(** _alltoall_shuffle L387-513: [indices] is the permutation broadcast by rank 0 *)
Definition alltoall_shuffle (bl : nat) (correction : bool) (indices : list nat) (d : dist (list E)) : res (dist (list E)) :=
  let P := length d in
  let N := list_sum (lens d) in
  let sls := rank_slices N P in
  let displs := map (psum (lens d)) (seq 0 P) in
  let mems := map (@concat E) d in
  let one q := do buf <- receive_all bl sls indices displs mems q (seq 0 P);
               let larray := nth q d [] in
               if length larray * bl <? length buf then Err RuntimeError else   (* local_recv_buffer has the shape of larray, L429 *)
               let buf := rows bl (length larray) buf in
               let sl := nth q sls (0, 0) in
               Ok (if correction then correct_order sls (sub indices (fst sl) (snd sl - fst sl)) larray buf else buf) in
  all_ok (map one (seq 0 P)).
End Exchange.

(** _shuffle L372-385, shuffle_type "local": rank r reorders its rows by its own permutation *)
Definition local_shuffle {A} (dflt : A) (perms : list (list nat)) (d : dist A) : dist A :=
  map (fun p => map (fun k => nth k (snd p) dflt) (fst p)) (combine perms d).
(** __iter__ L574-579: the row numbers a rank yields *)
Definition sampler_iter (global : bool) (perm : list nat) (n : nat) : list nat := if global then seq 0 n else perm.

(** create_train_val_split L585-666.  Both arrays are shuffled with the same seed, so rank 0 draws the
    same [indices] for both (L609-611); [perms]: torch.randperm(lshape[0]) on each rank (L616).  p is
    the fraction pn/pd; int(l * p) (L613) is taken exactly, without the rounding of the float product.
    [None]: AssertionError (L621). *)
Definition train_rows (pn pd l : nat) : nat := l * pn / pd.
(** L618-619: perm[:train_rows] and perm[-val_rows:] *)
Definition train_idx (perm : list nat) (tr : nat) : list nat := firstn tr perm.
Definition val_idx (perm : list nat) (val : nat) : list nat := if val =? 0 then perm else skipn (length perm - val) perm.
Definition take {A} (dflt : A) (l : list A) (idx : list nat) : list A := map (fun k => nth k l dflt) idx.
(** [n]: X.lshape[0], used for both arrays *)
Definition split_rank {A} (dflt : A) (pn pd : nat) (perm : list nat) (n : nat) (l : list A) : option (list A * list A) :=
  let tr := train_rows pn pd n in
  let ti := train_idx perm tr in
  let vi := val_idx perm (n - tr) in
  if length ti + length vi =? n then Some (take dflt l ti, take dflt l vi) else None.
Fixpoint split_ranks {A} (dflt : A) (pn pd : nat) (perms : list (list nat)) (ns : list nat) (d : dist A) : option (dist A * dist A) :=
  match perms, ns, d with
  | perm :: ps, n :: ms, l :: t => match split_rank dflt pn pd perm n l, split_ranks dflt pn pd ps ms t with
                                   | Some (a, b), Some (ta, tb) => Some (a :: ta, b :: tb)
                                   | _, _ => None
                                   end
  | _, _, _ => Some ([], [])
  end.
Definition train_val_split {E F} (blx bly pn pd : nat) (indices : list nat) (perms : list (list nat)) (X : dist (list E)) (Y : dist (list F)) :
  res (option ((dist (list E) * dist (list F)) * (dist (list E) * dist (list F)))) :=
  do x <- alltoall_shuffle blx false indices X;
  do y <- alltoall_shuffle bly false indices Y;
  Ok (match split_ranks [] pn pd perms (lens x) x, split_ranks [] pn pd perms (lens x) y with
      | Some (tx, vx), Some (ty, vy) => Some ((tx, ty), (vx, vy))
      | _, _ => None
      end).
