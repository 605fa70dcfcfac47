(** Model of heat/utils/data/partial_dataset.py for a partial dataset: the three threads of one epoch.
    consumer: PartialH5DataLoaderIter._next_data (L289-306); converter: __thread_convert_all (L327-360);
    loader: queue_thread (L21-30) running thread_replace_converted_batches (L185-219).
    Every access to shared state is one step; threads interleave arbitrarily.  A condition variable wakes
    up only when notified (CPython has no spurious wake-ups).  [file]: per dataset name the rows of the file;
    [dataset[ind]] reads one dataset after the other (the user's __getitem__); transforms and devices are left out. *)
From Verif Require Import Base.
Open Scope nat_scope.

Section Pds.
Context {A : Type} (dflt : A).
Variables (file : list (list A)) (total size bs load_len needed : nat).
(** an element of a batch: its index (kept for the specification) and what was read, one entry per dataset *)
Definition item := (nat * list A)%type.
Inductive owner := Free | ByConv | ByLoad.
Inductive conv_pc :=
| CNext (rest : list nat) (conv : list item)                                  (* L332 *)
| CRead (ind : nat) (rest : list nat) (got : list A) (conv : list item)       (* L334: single_item = self.dataset[ind] *)
| CUsed (ind : nat) (rest : list nat) (conv : list item)                      (* L344: used_indices.append *)
| CFull (rest : list nat) (conv : list item)                                  (* L345 *)
| CAcq (rest : list nat) (conv : list item)                                   (* L350: with loading_condition *)
| CNotify (rest : list nat) (conv : list item)                                (* L351, lock held *)
| CPut (rest : list nat) (conv : list item)                                   (* L359: ready_batches.append *)
| CDone.
(** [k]: passes of the loop still to come after this one; [hold]: hold<d> for each dataset *)
Inductive load_pc :=
| LIdle                                              (* q.get() *)
| LRead (k : nat)                                    (* loop head, L195 *)
| LAcq (k : nat) (hold : list (list A))              (* L206 *)
| LEnter (k : nat) (hold : list (list A))            (* lock held, about to wait *)
| LWait (k : nat) (hold : list (list A))             (* waiting, lock given up *)
| LWoken (k : nat) (hold : list (list A))            (* notified, wants the lock back *)
| LRepl (k : nat) (hold : list (list A)) (j : nat)   (* L208-215, lock held: dataset j *)
| LReset (k : nat)                                   (* L217 *)
| LLeave (k : nat).                                  (* release, L218 *)
Record pstate := mk_p { mem : list (list A); used : list nat; lock : owner; cpc : conv_pc; lpc : load_pc; queued : nat;
                       loads_left : nat; load_start : nat; load_end : nat; ready : list (list item); taken : list (list item) }.
Definition ncols := length file.

(** what to do when the batch has [length conv] elements: L345 *)
Definition after_append (rest : list nat) (conv : list item) : conv_pc := if length conv =? bs then CFull rest conv else CNext rest conv.
Definition set_c (s : pstate) (c : conv_pc) := mk_p (mem s) (used s) (lock s) c (lpc s) (queued s) (loads_left s) (load_start s) (load_end s) (ready s) (taken s).
Definition set_l (s : pstate) (l : load_pc) := mk_p (mem s) (used s) (lock s) (cpc s) l (queued s) (loads_left s) (load_start s) (load_end s) (ready s) (taken s).
Definition set_lock (s : pstate) (o : owner) := mk_p (mem s) (used s) o (cpc s) (lpc s) (queued s) (loads_left s) (load_start s) (load_end s) (ready s) (taken s).
Definition set_used (s : pstate) (u : list nat) := mk_p (mem s) u (lock s) (cpc s) (lpc s) (queued s) (loads_left s) (load_start s) (load_end s) (ready s) (taken s).

(** the converter thread; None: blocked or finished *)
Definition conv_step (s : pstate) : option pstate :=
  match cpc s with
  | CNext [] conv => Some (set_c s CDone)
  | CNext (i :: rest) conv => Some (set_c s (CRead i rest [] conv))
  | CRead i rest got conv =>
      if length got <? ncols then Some (set_c s (CRead i rest (got ++ [nth i (nth (length got) (mem s) []) dflt]) conv))
      else Some (set_c s (CUsed i rest (conv ++ [(i, got)])))
  | CUsed i rest conv => Some (set_c (set_used s (used s ++ [i])) (after_append rest conv))
  | CFull rest conv => Some (set_c s (if (length (used s) =? load_len) && (0 <? loads_left s) then CAcq rest conv else CPut rest conv))
  | CAcq rest conv => match lock s with Free => Some (set_c (set_lock s ByConv) (CNotify rest conv)) | _ => None end
  | CNotify rest conv =>                                       (* notify, then leave the with block *)
      let s := match lpc s with LWait k h => set_l s (LWoken k h) | _ => s end in
      Some (set_c (set_lock s Free) (CPut rest conv))
  | CPut rest conv => Some (mk_p (mem s) (used s) (lock s) (CNext rest []) (lpc s) (queued s) (loads_left s) (load_start s) (load_end s) (ready s ++ [conv]) (taken s))
  | CDone => None
  end.

(** dset[idx] = new, row by row *)
Definition put_rows (dset : list A) (idx : list nat) (new : list A) : list A := fold_left (fun a p => upd a (fst p) (snd p)) (combine idx new) dset.
(** the loader thread *)
Definition load_step (s : pstate) : option pstate :=
  match lpc s with
  | LIdle => match queued s with
             | 0 => None
             | S q => Some (mk_p (mem s) (used s) (lock s) (cpc s) (LRead needed) q needed (load_start s) (load_end s) (ready s) (taken s))
             end
  | LRead 0 => Some (set_l s LIdle)
  | LRead (S k) =>
      let hold := map (fun col => sub col (load_start s) (load_end s - load_start s)) file in
      let le := if total <? load_end s + size then 0 else load_end s in
      Some (mk_p (mem s) (used s) (lock s) (cpc s) (LAcq k hold) (queued s) (loads_left s) le (le + load_len) (ready s) (taken s))
  | LAcq k h => match lock s with Free => Some (set_l (set_lock s ByLoad) (LEnter k h)) | _ => None end
  | LEnter k h => Some (set_l (set_lock s Free) (LWait k h))
  | LWait k h => None
  | LWoken k h => match lock s with Free => Some (set_l (set_lock s ByLoad) (LRepl k h 0)) | _ => None end
  | LRepl k h j =>
      if j <? ncols then
        let new := nth j h [] in
        let new_top := firstn (length (used s)) new in
        let lnew := length new_top in
        let dset := put_rows (nth j (mem s) []) (firstn lnew (used s)) new_top in
        Some (mk_p (upd (mem s) j dset) (used s) (lock s) (cpc s) (LRepl k (upd h j (skipn lnew new)) (S j)) (queued s) (loads_left s) (load_start s) (load_end s) (ready s) (taken s))
      else Some (set_l s (LReset k))
  | LReset k => Some (set_l (set_used s []) (LLeave k))
  | LLeave k => Some (mk_p (mem s) (used s) Free (cpc s) (LRead k) (queued s) (loads_left s - 1) (load_start s) (load_end s) (ready s) (taken s))
  end.

(** the consumer: next() takes a batch as long as there are batches to come ([len] = __len__) *)
Definition next_step (len : nat) (s : pstate) : option pstate :=
  if length (taken s) =? len then None
  else match ready s with
       | [] => None                                            (* sleeps *)
       | b :: t => Some (mk_p (mem s) (used s) (lock s) (cpc s) (lpc s) (queued s) (loads_left s) (load_start s) (load_end s) t (taken s ++ [b]))
       end.

Inductive thread := Consumer | Converter | Loader.
Definition pstep (len : nat) (t : thread) (s : pstate) : option pstate :=
  match t with Consumer => next_step len s | Converter => conv_step s | Loader => load_step s end.
(** a schedule: which thread is given the processor; a thread that cannot go on does nothing *)
Fixpoint run (len : nat) (sched : list thread) (s : pstate) : pstate :=
  match sched with [] => s | t :: ts => run len ts (match pstep len t s with Some s' => s' | None => s end) end.
(** how many of the scheduled steps did something *)
Fixpoint work (len : nat) (sched : list thread) (s : pstate) : nat :=
  match sched with [] => 0 | t :: ts => match pstep len t s with Some s' => S (work len ts s') | None => work len ts s end end.
(** L257-270: an iterator over index list [idx]; the loader may still be busy with an earlier epoch *)
Definition start_epoch (idx : list nat) (s : pstate) : pstate :=
  mk_p (mem s) (used s) (lock s) (CNext idx []) (lpc s) (S (queued s)) (loads_left s) (load_start s) (load_end s) [] [].
Definition batches (idx : list nat) : nat := length idx / bs.
End Pds.

(** L119-150: the dataset after construction on rank [rank], when initial_load <= total / size *)
Definition new_dataset_p {A} (file : list (list A)) (total size rank initial load_len : nat) : pstate (A := A) :=
  let full := total / size in
  let start := rank * full in
  let needed := (full + load_len - 1) / load_len in
  mk_p (map (fun col => sub col start initial) file) [] Free CDone LIdle 0 needed (start + initial) (start + initial + load_len) [] [].
