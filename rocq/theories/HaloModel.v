(** Model of DNDarray.get_halo, array_with_halos (heat/core/dndarray.py L364-469).
    Slabs along the split axis; [d] lists the ranks' local arrays, the cached
    lshape_map is assumed to be the actual one (C11). *)
From Verif Require Import Base.

(** state of the three private attributes on one rank *)
Record halo_st (A : Type) := Halo { h_prev : option (list A); h_next : option (list A); h_is : bool }.
Arguments Halo {A}. Arguments h_prev {A}. Arguments h_next {A}. Arguments h_is {A}.

(** L410 torch.nonzero(lshape_map[:, split]) *)
Definition populated {A} (d : dist A) : list nat :=
  filter (fun r => negb (Nat.eqb (length (nth r d [])) 0)) (seq 0 (length d)).

(** list.index *)
Fixpoint index_of (x : nat) (l : list nat) : nat :=
  match l with [] => 0 | y :: t => if Nat.eqb y x then 0 else S (index_of x t) end.

(** L412-417; a rank that is not the last (first) populated one has a next (previous) one *)
Definition next_rank {A} (d : dist A) (r : nat) : option nat :=
  let p := populated d in
  if Nat.eqb r (last p 0) then None else Some (nth (index_of r p + 1) p 0).
Definition prev_rank {A} (d : dist A) (r : nat) : option nat :=
  let p := populated d in
  if Nat.eqb r (hd 0 p) then None else Some (nth (index_of r p - 1) p 0).

(** L364-381 __prephalo(0, h) and __prephalo(-h, None) *)
Definition a_prev {A} (h : nat) (l : list A) : list A := firstn h l.
Definition a_next {A} (h : nat) (l : list A) : list A := skipn (length l - h) l.

(** The Isends of rank [r], in program order: L436-437 and L445-446. *)
Definition halo_sends {A} (d : dist A) (h : nat) (prev next : bool) (r : nat) : list (nat * list A) :=
  (if prev then match next_rank d r with Some q => [(q, a_next h (nth r d []))] | None => [] end else []) ++
  (if next then match prev_rank d r with Some q => [(q, a_prev h (nth r d []))] | None => [] end else []).
(** What an Irecv on rank [r] from rank [q] completes with: the first message [q]
    sent to [r].  (At most one message per ordered pair is sent.) *)
Definition recv_from {A} (d : dist A) (h : nat) (prev next : bool) (q r : nat) : option (list A) :=
  match filter (fun m => Nat.eqb (fst m) r) (halo_sends d h prev next q) with
  | m :: _ => Some (snd m)
  | [] => None          (* the Wait at L454 never returns *)
  end.

Inductive halo_res (A : Type) := HDone (s : halo_st A) | HRaise (e : exn) | HHang.
Arguments HDone {A}. Arguments HRaise {A}. Arguments HHang {A}.

(** get_halo(h, prev, next) on rank [r], L383-458. *)
Definition get_halo {A} (d : dist A) (h : Z) (prev next : bool) (r : nat) (s : halo_st A) : halo_res A :=
  if (h <? 0)%Z then HRaise ValueError else                          (* L400-403 *)
  if (length d <=? 1) || (h =? 0)%Z then HDone s else                (* L405 *)
  let h := Z.to_nat h in
  let p := populated d in
  if Nat.eqb (length p) 1 then HRaise TypeError else
     (* L410: squeeze() of a 1-element tensor is 0-d, tolist() then is an int and
        [rank in int] at L411 raises *)
  if negb (existsb (Nat.eqb r) p) then HDone s else                  (* L418-420 *)
  if existsb (fun q => length (nth q d []) <? h) p then HRaise ValueError else   (* L422-426 *)
  match (if prev then match prev_rank d r with                        (* L435-442 *)
                      | None => Some None
                      | Some q => option_map Some (recv_from d h prev next q r) end
         else Some None),
        (if next then match next_rank d r with                        (* L444-451 *)
                      | None => Some None
                      | Some q => option_map Some (recv_from d h prev next q r) end
         else Some None) with
  | Some hp, Some hn => HDone (Halo hp hn true)                       (* L453-458 *)
  | _, _ => HHang
  end.

(** __cat_halo, L460-469 (array_with_halos returns it) *)
Definition array_with_halos {A} (d : dist A) (r : nat) (s : halo_st A) : list A :=
  let o (x : option (list A)) := match x with Some l => l | None => [] end in
  if length d <=? 1 then nth r d [] else o (h_prev s) ++ nth r d [] ++ o (h_next s).
