(** Model of heat/utils/data/datatools.py: Dataset (L163-263), DataLoader.__iter__ and
    _full_dataset_shuffle_iter (L125-160), dataset_shuffle (L669-721), dataset_ishuffle (L724-763),
    dataset_irecv (L766-799), for arrays split along axis 0 with a DNDarray behind every attribute.
    An attribute: per rank, the rows of the DNDarray ([ht]) and the rows handed out ([data]). *)
From Verif Require Import Base LayoutModel OpsModel.
Open Scope nat_scope.

Section Dset.
Context {A : Type} (dflt : A).
Record attr := mk_attr { ht : dist A; data : dist A }.
(** L219-227: min_data_split = gshape[0] // size, lcl_half = min_data_split // 2, data = larray[:min_data_split] *)
Definition min_split (d : dist A) : nat := list_sum (lens d) / length d.
Definition half_of (mn : nat) : nat := mn / 2.
Definition new_dataset (d : dist A) : attr := mk_attr d (map (firstn (min_split d)) d).

(** L707-709 / L756-758: the previous rank, around the end *)
Definition ring_src (P r : nat) : nat := if r =? 0 then P - 1 else r - 1.
(** L700-711: rank r receives the first [half] rows of the previous rank; its buffer has the shape of
    what it sends itself: a longer message is an MPI truncation error (a shorter one would leave
    the rest of the buffer uninitialised; counted as an error too) *)
Definition received (half : nat) (dat : dist A) (r : nat) : res (list A) :=
  let msg := firstn half (nth (ring_src (length dat) r) dat []) in
  if length msg =? length (firstn half (nth r dat [])) then Ok msg else Err RuntimeError.
(** L714-719 / L784-789: ht[:half] = new_data; shuffled = ht[prm]; data = shuffled[:min_data_split] *)
Definition insert_shuffle (mn half : nat) (h new : list A) (prm : list nat) : res (list A * list A) :=
  if length new =? length (firstn half h) then
    let h' := new ++ skipn half h in
    if forallb (fun k => k <? length h') prm then
      let shuffled := map (fun k => nth k h' dflt) prm in Ok (shuffled, firstn mn shuffled)
    else Err IndexError
  else Err RuntimeError.
Definition on_ranks (mn half : nat) (a : attr) (news : list (list A)) (prms : list (list nat)) : res attr :=
  do out <- all_ok (map (fun r => insert_shuffle mn half (nth r (ht a) []) (nth r news []) (nth r prms [])) (seq 0 (length (ht a))));
  Ok (mk_attr (map fst out) (map snd out)).
Definition exchange (half : nat) (a : attr) : res (list (list A)) := all_ok (map (received half (data a)) (seq 0 (length (data a)))).
(** dataset_shuffle, one attribute; [prms]: the permutation of each rank (the same for all attributes) *)
Definition shuffle (mn half : nat) (prms : list (list nat)) (a : attr) : res attr :=
  do news <- exchange half a; on_ranks mn half a news prms.

(** the loader: [first]: _first_iter; [rcv]: dataset.rcv_list *)
Record loader := mk_loader { att : attr; first : bool; rcv : option (list (list A)) }.
(** L144-160 with ishuffle = False: one call of iter() *)
Definition iter_blocking (mn half : nat) (test_set : bool) (prms : list (list nat)) (s : loader) : res loader :=
  if first s then Ok (mk_loader (att s) false (rcv s))
  else if test_set then Ok s
  else do a <- shuffle mn half prms (att s); Ok (mk_loader a false (rcv s)).
(** L152-160 with ishuffle = True.  The messages of dataset_ishuffle are matched in the order they were
    posted, so each receive gets the rows sent in the same call *)
Definition iter_ishuffle (mn half : nat) (test_set last_epoch : bool) (prms : list (list nat)) (s : loader) : res loader :=
  do s1 <- (if last_epoch || test_set then Ok s else do news <- exchange half (att s); Ok (mk_loader (att s) (first s) (Some news)));
  if first s1 then Ok (mk_loader (att s1) false (rcv s1))
  else match rcv s1 with
       | None => Err AttributeError                    (* getattr(dataset, "rcv_list") *)
       | Some news => do a <- on_ranks mn half (att s1) news prms; Ok (mk_loader a false (rcv s1))
       end.
Fixpoint epochs (step : list (list nat) -> loader -> res loader) (ps : list (list (list nat))) (s : loader) : res loader :=
  match ps with [] => Ok s | p :: t => do s' <- step p s; epochs step t s' end.
End Dset.
