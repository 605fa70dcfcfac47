(** Model of DNDarray.redistribute_, __redistribute_shuffle, balance_, collect_,
    is_balanced and the cached layout metadata (heat/core/dndarray.py).

    All ranks compute the same bookkeeping (lshape_map, target_map, cumsums), so
    the bookkeeping is one sequential program whose effect on the data is the list
    of blocking Send/Recv pairs it issues: the trace.  [lmap], [target] are the
    split columns of lshape_map and target_map. *)
From Verif Require Import Base LayoutModel.

(** One __redistribute_shuffle(snd_pr, send_amt, rcv_pr) call. *)
Record xfer := Xfer { x_snd : nat; x_rcv : nat; x_amt : nat }.

(** dndarray.py L1477-1522: the effect of one Send/Recv pair on the local arrays. *)
Definition shuffle {A} (d : dist A) (x : xfer) : dist A :=
  let s := nth (x_snd x) d [] in
  let r := nth (x_rcv x) d [] in
  if x_snd x <? x_rcv x then
    (* off the bottom of snd, onto the top of rcv: L1503-1507, L1519-1520 *)
    upd (upd d (x_snd x) (firstn (length s - x_amt x) s))
        (x_rcv x) (skipn (length s - x_amt x) s ++ r)
  else if x_rcv x <? x_snd x then
    (* off the top of snd, onto the bottom of rcv: L1508-1510, L1521-1522 *)
    upd (upd d (x_snd x) (skipn (x_amt x) s)) (x_rcv x) (r ++ firstn (x_amt x) s)
  else d.  (* snd = rcv never happens: L1448 sets send_amt = 0, see trace_wf *)

Definition run_trace {A} (d : dist A) (tr : list xfer) : dist A := fold_left shuffle tr d.

Definition absdiff (a b : nat) : nat := (a - b) + (b - a).

(** State of the bookkeeping: lshape_map[:, split], lshape_cumsum, shuffles issued. *)
Definition bk := (list nat * list Z * list xfer)%type.

(** dndarray.py L1439-1458: body of the loop over snd_pr. [need] = sp - st. *)
Definition inner_step (size rcv need : nat) (b : bk) (snd_pr : nat) : bk :=
  let '(lmap, cs, tr) := b in
  if Nat.eqb snd_pr size then b else                                     (* L1440-1441 *)
  let data_required := absdiff need (nth rcv lmap 0) in                   (* L1442 *)
  let amt := if data_required <=? nth snd_pr lmap 0 then data_required
             else nth snd_pr lmap 0 in                                    (* L1443-1447 *)
  let amt := if (need <=? nth rcv lmap 0) || Nat.eqb snd_pr rcv then 0 else amt in (* L1448-1449 *)
  let tr := if Nat.eqb amt 0 then tr else tr ++ [Xfer snd_pr rcv amt] in   (* L1451-1454 *)
  let cs := upd cs snd_pr (nth snd_pr cs 0 - Z.of_nat amt)%Z in           (* L1455 *)
  let cs := upd cs rcv (nth rcv cs 0 + Z.of_nat amt)%Z in                 (* L1456 *)
  let lmap := upd lmap rcv (nth rcv lmap 0 + amt) in                      (* L1457 *)
  let lmap := upd lmap snd_pr (nth snd_pr lmap 0 - amt) in                (* L1458 *)
  (lmap, cs, tr).

(** first position >= [from] whose entry satisfies [f] (torch.nonzero(...)[0] + from) *)
Fixpoint find_from {A} (f : A -> bool) (l : list A) (i from : nat) : option nat :=
  match l with
  | [] => None
  | x :: t => if (from <=? i) && f x then Some i else find_from f t (S i) from
  end.

(** dndarray.py L1413-1468: body of the loop over rcv_pr. *)
Definition outer_step (target : list nat) (b : res bk) (rcv : nat) : res bk :=
  do b0 <- b;
  let '(lmap, cs, tr) := b0 in
  let size := length target in
  let st := psum target rcv in                                            (* L1414 *)
  let sp := psum target (S rcv) in                                        (* L1415 *)
  do range <-
    (if nth rcv target 0 <=? nth rcv lmap 0 then Ok (rcv, rcv)            (* L1417-1420 *)
     else match find_from (fun c => 0 <? c) lmap 0 rcv with               (* L1425-1430 *)
          | None => Err IndexError                 (* torch.nonzero(...)[0] on an empty result *)
          | Some st_pr =>
              Ok (st_pr, match find_from (fun c => Z.of_nat sp <=? c)%Z cs 0 rcv with
                         | Some p => p | None => size end)                (* L1431-1435 *)
          end);
  let '(st_pr, sp_pr) := range in
  let '(lmap, cs, tr) :=
    fold_left (inner_step size rcv (sp - st)) (seq st_pr (S sp_pr - st_pr)) (lmap, cs, tr) in
  if nth rcv target 0 <? nth rcv lmap 0 then                              (* L1459-1468 *)
    let amt := nth rcv lmap 0 - nth rcv target 0 in
    let tr := tr ++ [Xfer rcv (S rcv) amt] in
    let cs := upd cs rcv (nth rcv cs 0 - Z.of_nat amt)%Z in
    let cs := upd cs (S rcv) (nth (S rcv) cs 0 + Z.of_nat amt)%Z in
    let lmap := upd lmap rcv (nth rcv lmap 0 - amt) in
    let lmap := upd lmap (S rcv) (nth (S rcv) lmap 0 + amt) in
    Ok (lmap, cs, tr)
  else Ok (lmap, cs, tr).

(** torch.cumsum(lshape_map[..., split]) L1404 *)
Definition cumsum (l : list nat) : list Z := map (fun k => Z.of_nat (psum l (S k))) (seq 0 (length l)).

(** one pass over all receivers, L1404-1468 *)
Definition redist_pass (lmap target : list nat) : res (list nat * list xfer) :=
  do b <- fold_left (outer_step target) (seq 0 (length target - 1)) (Ok (lmap, cumsum lmap, []));
  let '(lmap', _, tr) := b in Ok (lmap', tr).

Definition eqb_list (a b : list nat) : bool :=
  if list_eq_dec Nat.eq_dec a b then true else false.

(** L1470-1473: repeat the pass until the maps agree (recursion in the source;
    explicit fuel here, [OutOfFuel] would be unbounded recursion). *)
Fixpoint redist_loop (fuel : nat) (lmap target : list nat) (tr : list xfer) : res (list nat * list xfer * nat) :=
  match fuel with
  | 0 => Err OutOfFuel
  | S fuel =>
      do p <- redist_pass lmap target;
      let '(lmap', tr') := p in
      if eqb_list lmap' target then Ok (lmap', tr ++ tr', 1)
      else do q <- redist_loop fuel lmap' target (tr ++ tr');
           let '(l, t, k) := q in Ok (l, t, S k)
  end.

(** redistribute_(target_map = target) on an array with local arrays [d]; the
    lshape_map is created with force_check=True (L1375), i.e. it is [lens d].
    [None] = no target map: the chunk map is used (L1383-1391). *)
Definition redistribute {A} (fuel : nat) (d : dist A) (target : option (list nat)) : res (dist A) :=
  let size := length d in
  if size <=? 1 then Ok d                                                 (* L1369-1370 *)
  else
    let n := list_sum (lens d) in
    do t <- match target with
            | None => Ok (counts_of n size)
            | Some t => if negb (Nat.eqb (list_sum t) n) then Err ValueError     (* L1394-1397 *)
                        else if negb (Nat.eqb (length t) size) then Err ValueError (* L1398-1401 *)
                        else Ok t
            end;
    do r <- redist_loop fuel (lens d) t [];
    let '(_, tr, _) := r in Ok (run_trace d tr).

(** is_balanced(force_check=True), L1226-1232: every rank compares its local shape
    with its chunk, the votes are summed. *)
Definition is_balanced_check {A} (d : dist A) : bool :=
  let n := list_sum (lens d) in
  Nat.eqb (list_sum (map (fun r => if Nat.eqb (snd (chunk_1d n r (length d))) (length (nth r d [])) then 1 else 0)
                         (seq 0 (length d))))
          (length d).

(** balance_, L565-603 *)
Definition balance {A} (fuel : nat) (d : dist A) : res (dist A) :=
  if is_balanced_check d then Ok d else redistribute fuel d None.

(** collect_(target_rank), L637-682 (target_rank a natural number) *)
Definition collect {A} (fuel : nat) (d : dist A) (r : nat) : res (dist A) :=
  if length d <=? r then Err ValueError
  else if length d <=? 1 then Ok d
  else redistribute fuel d (Some (upd (repeat 0 (length d)) r (list_sum (lens d)))).
