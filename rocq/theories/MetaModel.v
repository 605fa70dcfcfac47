(** Layout metadata kept by a DNDarray next to its local arrays: the cached
    lshape_map and the per-rank balanced flag (heat/core/dndarray.py).  Only sizes
    matter here, so a local array is represented by its extent along the split axis. *)
From Verif Require Import Base LayoutModel RedistModel.

Record meta := Meta {
  m_shape  : list nat;                    (* gshape *)
  m_split  : option nat;                  (* split *)
  m_counts : list nat;                    (* actual extent of larray along split, per rank *)
  m_cache  : option (list (list nat));    (* __lshape_map, identical on all ranks *)
  m_bal    : list (option bool)           (* __balanced, per rank *)
}.
Definition m_size (m : meta) : nat := length (m_counts m).   (* comm.size *)

(** The local shapes that really exist (self.lshape on every rank). *)
Definition actual_map (m : meta) : list (list nat) :=
  match m_split m with
  | None => repeat (m_shape m) (m_size m)
  | Some s => map (fun c => upd (m_shape m) s c) (m_counts m)
  end.

(** dndarray.py L1234-1238 *)
Definition distributed (m : meta) : bool :=
  match m_split m with None => false | Some _ => 1 <? m_size m end.

Definition set_cache (m : meta) (c : option (list (list nat))) : meta :=
  Meta (m_shape m) (m_split m) (m_counts m) c (m_bal m).
Definition set_bal (m : meta) (b : option bool) : meta :=
  Meta (m_shape m) (m_split m) (m_counts m) (m_cache m) (repeat b (m_size m)).

(** is_balanced(force_check=True), L1219-1232 (result only) *)
Definition balanced_check (m : meta) : bool :=
  match m_split m with
  | None => true
  | Some s => if m_size m <=? 1 then true
              else eqb_list (m_counts m)
                     (map (fun r => snd (chunk_1d (nth s (m_shape m) 0) r (m_size m))) (seq 0 (m_size m)))
  end.

(** create_lshape_map, L711-743: new state and returned map *)
Definition create_lshape_map (force : bool) (m : meta) : meta * list (list nat) :=
  match (if force then None else m_cache m) with
  | Some c => (m, c)                                                   (* L722-723 *)
  | None =>
      let rows :=
        if negb (distributed m) then repeat (m_shape m) (m_size m)     (* L728-731 *)
        else match m_split m with
             | None => []
             | Some s =>
               if balanced_check m                                     (* L732-735 *)
               then map (fun r => upd (m_shape m) s (snd (chunk_1d (nth s (m_shape m) 0) r (m_size m))))
                        (seq 0 (m_size m))
               else actual_map m                                       (* L736-740 *)
             end in
      (set_cache m (Some rows), rows)
  end.

Definition col (s : nat) (rows : list (list nat)) : list nat := map (fun r => nth s r 0) rows.

(** redistribute_(target_map=target), L1369-1475, lshape_map=None *)
Definition m_redistribute (m : meta) (target : option (list (list nat))) : meta * option exn :=
  match m_split m with
  | None => (m, None)
  | Some s =>
    if negb (distributed m) then (m, None) else
    let (m, lmap) := create_lshape_map true m in
    match (match target with
           | None => inl (map (fun r => upd (nth r lmap []) s (snd (chunk_1d (nth s (m_shape m) 0) r (m_size m))))
                              (seq 0 (m_size m)))                      (* L1384-1390 *)
           | Some t => if negb (Nat.eqb (list_sum (col s t)) (nth s (m_shape m) 0)) then inr ValueError
                       else if negb (Nat.eqb (length t) (m_size m)) ||
                               existsb (fun row => negb (Nat.eqb (length row) (length (m_shape m)))) t
                            then inr ValueError
                       else inl t
           end) with
    | inr e => (m, Some e)
    | inl t =>
        let m := set_bal m (Some (match target with None => true | Some _ => false end)) in (* L1391, L1403 *)
        match redist_loop (m_size m) (col s lmap) (col s t) [] with
        | Err e => (m, Some e)
        | Ok (_, _, passes) =>
            let m := if 1 <? passes then set_bal m (Some false) else m in   (* L1473 -> L1403 *)
            (Meta (m_shape m) (m_split m) (col s t) (Some t) (m_bal m), None) (* L1475 *)
        end
    end
  end.

(** balance_, L601-603 *)
Definition m_balance (m : meta) : meta * option exn :=
  if balanced_check m then (if distributed m then m else set_bal m (Some true), None)
  else m_redistribute m None.

(** collect_, L672-682; uses the cached map for the target *)
Definition m_collect (m : meta) (r : nat) : meta * option exn :=
  if m_size m <=? r then (m, Some ValueError)
  else match m_split m with
       | None => (m, None)
       | Some s =>
         if negb (distributed m) then (m, None)
         else let (m, lmap) := create_lshape_map false m in
              let zero := map (fun row => upd row s 0) lmap in
              m_redistribute m (Some (upd zero r (upd (nth r zero []) s (nth s (m_shape m) 0))))
       end.

Definition opt_nat_eqb (a b : option nat) : bool :=
  match a, b with None, None => true | Some x, Some y => Nat.eqb x y | _, _ => false end.

(** resplit_, L1569-1622 (axis already sanitised); the new extents are those of
    comm.chunk / SplitTiles for the new axis (proved in the resplit development) *)
Definition m_resplit (m : meta) (axis : option nat) : meta * option exn :=
  let m := if Nat.eqb (m_size m) 1 then Meta (m_shape m) axis (match axis with None => m_counts m | Some a => [nth a (m_shape m) 0] end) (m_cache m) (m_bal m) else m in
  if opt_nat_eqb axis (m_split m) then (m, None)
  else match axis with
       | None => (Meta (m_shape m) None (m_counts m) None (m_bal m), None)
       | Some a => (Meta (m_shape m) (Some a) (counts_of (nth a (m_shape m) 0) (m_size m)) None (m_bal m), None)
       end.

(** larray setter, L147-169: rank r stores a local array of extent [nth r counts];
    only the flag of ranks whose extent changed is reset; the cache is kept. *)
Definition m_set_larray (m : meta) (counts : list nat) : meta :=
  match m_split m with
  | None => m
  | Some _ =>
      Meta (m_shape m) (m_split m) counts (m_cache m)
           (map (fun r => if Nat.eqb (nth r counts 0) (nth r (m_counts m) 0) then nth r (m_bal m) None else None)
                (seq 0 (m_size m)))
  end.

Inductive mop :=
| OpMap                                   (* reading x.lshape_map *)
| OpRedist (t : option (list (list nat))) (* x.redistribute_(target_map=t) *)
| OpBalance | OpCollect (r : nat) | OpResplit (a : option nat)
| OpSet (c : list nat).                   (* x.larray = ... on all ranks *)

Definition mstep (m : meta) (o : mop) : meta :=
  match o with
  | OpMap => fst (create_lshape_map false m)
  | OpRedist t => fst (m_redistribute m t)
  | OpBalance => fst (m_balance m)
  | OpCollect r => fst (m_collect m r)
  | OpResplit a => fst (m_resplit m a)
  | OpSet c => m_set_larray m c
  end.
Definition mrun (m : meta) (ops : list mop) : meta := fold_left mstep ops m.

(** What the user sees: x.lshape_map (L308-312), x.counts_displs() (L690-700). *)
Definition reported_map (m : meta) : list (list nat) := snd (create_lshape_map false m).

(** is_balanced() without force_check, L1219-1232: which ranks enter the Allreduce. *)
Definition enters_allreduce (m : meta) (r : nat) : bool :=
  distributed m && match nth r (m_bal m) None with Some _ => false | None => true end.
