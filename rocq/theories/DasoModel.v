(** Model of heat/optim/dp_optimizer.py DASO: epoch_loss_logic (L353-446), _global_sync (L448-493),
    _gs_send_params / _gs_rcv_update_params / _gs_rcv_update_params_last_batch / _local_update (L519-690),
    step (L757-845), for [loc] GPUs per node and [nodes] nodes, loc >= 2 (DASO.__init__ builds its MPI groups only then).
    Rank = (node, gpu); the MPI group [g] holds the ranks (_, g), which act alike, so outstanding transfers are kept
    per group.  A model parameter is one rational per rank (tensors: pointwise; precision and the bfloat16 cast, the
    split of the send buffer into chunks and NaNs are left out).  The local optimizer's step is an input of every
    batch: an arbitrary change of all the parameters.  The averaged loss of an epoch is an input. *)
From Coq Require Import List QArith ZArith Bool.
From Verif Require Import Base PlatSpec PlatModel.
Import ListNotations.
Open Scope nat_scope.

Definition params := nat -> nat -> Q.                    (* node, gpu *)
(** an entry of _prev_params of the ranks of a group: the batch of sending, the sum over the nodes (MPI.SUM), batches_to_wait *)
Record transfer := mk_tr { sent_at : nat; total : Q; between : Z }.

Record daso := mk_daso {
  epoch : nat; current_batch : nat; send_mod : nat; send_mod_m1 : option nat;
  global_skip : nat; local_skip : nat; batches_to_wait : Z; gs8_waited : nat; stability : plateau;
  prev : list (list transfer);         (* _prev_params of the ranks of each group *)
  par : params;
  local_sync : bool;                   (* module.require_backward_grad_sync *)
  sends : list (nat * nat);            (* for the specification: (group, batch) of every sending so far *)
  recvs : list (nat * nat) }.          (* ... and of every transfer received so far *)

(** the constants of a run: GPUs per node, nodes, last_batch, and __init__'s arguments *)
Record conf := mk_conf { loc : nat; nodes : nat; last_batch : nat; warmup : nat; cooldown_epochs : nat; total_epochs : nat; max_gs : nat; reduction : nat; local_factor : nat }.
Definition new_daso (c : conf) (level : Q) (p : params) : daso :=
  mk_daso 0 0 0 None 0 0 0%Z 0 (new_plateau true 2 level true 0) (repeat [] (loc c)) p true [] [].

(** L489, L493: m + 1 if m <= loc_gpus - 2 else 0 *)
Definition next_mod (c : conf) (m : nat) : nat := if m + 2 <=? loc c then m + 1 else 0.
Definition qsum (l : list Q) : Q := fold_right Qplus 0%Q l.
(** the sum over the ranks of group g *)
Definition group_sum (c : conf) (p : params) (g : nat) : Q := qsum (map (fun n => p n g) (seq 0 (nodes c))).
Definition qn (n : nat) : Q := inject_Z (Z.of_nat n).
(** _gs_rcv_update_params L535-551: numer, denom, factor; param *= factor; param += update *)
Definition merge (c : conf) (t : transfer) (x : Q) : Q :=
  let numer := if (0 <? between t)%Z then (inject_Z (between t) * 2)%Q else 1%Q in
  let denom := (qn (nodes c) + numer)%Q in
  (x * (numer / denom) + total t / denom)%Q.
Definition on_group (g : nat) (f : nat -> Q -> Q) (p : params) : params := fun n k => if k =? g then f n (p n k) else p n k.
(** _local_update L680-690: the parameters of one GPU go to all the GPUs of the node; nothing for None *)
Definition local_update (g : option nat) (p : params) : params := match g with None => p | Some g => fun n _ => p n g end.

Definition set_comm (s : daso) (pv : list (list transfer)) (p : params) (rc : list (nat * nat)) : daso :=
  mk_daso (epoch s) (current_batch s) (send_mod s) (send_mod_m1 s) (global_skip s) (local_skip s) (batches_to_wait s) (gs8_waited s) (stability s) pv p (local_sync s) (sends s) rc.
(** _gs_rcv_update_params L519-577 (the group of the last sending takes its oldest transfer, if any) and the _local_update behind it (L467, L814) *)
Definition rcv_update (c : conf) (s : daso) : daso :=
  match send_mod_m1 s with
  | None => s
  | Some k => match nth k (prev s) [] with
              | [] => set_comm s (prev s) (local_update (Some k) (par s)) (recvs s)
              | t :: r => set_comm s (upd (prev s) k r) (local_update (Some k) (on_group k (fun _ => merge c t) (par s))) (recvs s ++ [(k, sent_at t)])
              end
  end.
(** _gs_send_params L609-670 *)
Definition send_params (c : conf) (btw : Z) (s : daso) : daso :=
  let m := send_mod s in
  mk_daso (epoch s) (current_batch s) m (send_mod_m1 s) (global_skip s) (local_skip s) (batches_to_wait s) (gs8_waited s) (stability s)
          (upd (prev s) m (nth m (prev s) [] ++ [mk_tr (current_batch s) (group_sum c (par s) m) btw])) (par s) (local_sync s) (sends s ++ [(m, current_batch s)]) (recvs s).
(** _global_sync L448-493 *)
Definition global_sync (c : conf) (btw : Z) (s : daso) : res daso :=
  let m := send_mod s in
  let s1 := send_params c btw s in
  let s2 := if (batches_to_wait s =? 0)%Z then s1 else rcv_update c s1 in
  if (current_batch s =? last_batch c) || (batches_to_wait s =? 0)%Z then
    match nth m (prev s2) [] with
    | [t] =>
        if forallb (fun g => (g =? m) || (length (nth g (prev s2) []) =? 0)) (seq 0 (loc c)) then
          let e := current_batch s =? last_batch c in
          Ok (mk_daso (if e then epoch s + 1 else epoch s) (if e then 0 else current_batch s + 1) (if e then 0 else next_mod c m) None
                      (global_skip s) (local_skip s) (batches_to_wait s) (gs8_waited s) (stability s) (upd (prev s2) m [])
                      (local_update (Some m) (on_group m (fun _ _ => total t / qn (nodes c))%Q (par s2)))
                      (local_sync s) (sends s2) (recvs s2 ++ [(m, sent_at t)]))
        else Err ValueError                                       (* DEBUG: OFF RANKS! *)
    | [] => Err IndexError                                        (* pop from empty list *)
    | _ => Err ValueError                                         (* length of previous params > 1 *)
    end
  else Ok (mk_daso (epoch s) (current_batch s + 1) (next_mod c m) (Some m) (global_skip s) (local_skip s) (batches_to_wait s) (gs8_waited s) (stability s) (prev s2) (par s2) (local_sync s) (sends s2) (recvs s2)).

Definition advance (s : daso) (sync : bool) : daso :=
  mk_daso (epoch s) (current_batch s + 1) (send_mod s) (send_mod_m1 s) (global_skip s) (local_skip s) (batches_to_wait s) (gs8_waited s) (stability s) (prev s) (par s) sync (sends s) (recvs s).
(** step L785-845, behind the torch optimizer's step *)
Definition sync_step (c : conf) (s : daso) : res daso :=
  let batch := current_batch s in
  let nb := batch + 1 in
  let gs := global_skip s in
  let ls := local_skip s in
  let gmod := if 0 <? gs then batch mod gs else 0 in
  let lmod := if 0 <? ls then batch mod ls else 0 in
  let btw := if (batches_to_wait s + Z.of_nat batch <=? Z.of_nat (last_batch c))%Z then batches_to_wait s else (Z.of_nat (last_batch c) - Z.of_nat batch)%Z in
  if (batch =? last_batch c) || (gmod =? 0) then global_sync c btw s
  else if gs =? 0 then Err ZeroDivisionError
  else if nb mod gs =? 0 then Ok (advance s true)
  else if (Z.of_nat gmod <? btw)%Z then Ok (advance s (if nb =? last_batch c then true else local_sync s))
  else
    let s1 := if (Z.of_nat gmod =? btw)%Z then rcv_update c s else s in
    let sync1 := if (Z.of_nat gmod =? btw)%Z && (1 <? ls) then false else local_sync s in
    if (ls =? 1) && negb (nb =? last_batch c) then Ok (advance s1 true)
    else if negb (lmod =? 0) && (ls =? 0) then Err ZeroDivisionError
    else
      let sync2 := if lmod =? 0 then false else if nb mod ls =? 0 then true else sync1 in
      Ok (advance s1 (if nb =? last_batch c then true else sync2)).
(** step L757-845: the local optimizer, then the synchronisation *)
Definition step (c : conf) (opt : params -> params) (s : daso) : res daso := sync_step c (set_comm s (prev s) (opt (par s)) (recvs s)).

(** epoch_loss_logic L353-446 for the averaged loss *)
Definition with_skips (s : daso) (g l : nat) (b : Z) (w : nat) (st : plateau) : daso :=
  mk_daso (epoch s) (current_batch s) (send_mod s) (send_mod_m1 s) g l b w st (prev s) (par s) (local_sync s) (sends s) (recvs s).
Definition epoch_loss_logic (c : conf) (loss : metric) (s : daso) : daso :=
  if epoch s <? warmup c then with_skips s 0 0 0 (gs8_waited s) (stability s)
  else
    let s := if warmup c =? epoch s then with_skips s 4 1 1 (gs8_waited s) (stability s) else s in
    if total_epochs c <=? epoch s + cooldown_epochs c then with_skips s 0 0 0 (gs8_waited s) (stability s)
    else
      let w := if (global_skip s =? max_gs c) && (4 <? max_gs c) then gs8_waited s + 1 else gs8_waited s in
      let '(st, stable) := test_if_improving loss (stability s) in
      if stable && (1 <? global_skip s) then
        let g := global_skip s / reduction c in
        let l := local_skip s / reduction c in
        let b := (batches_to_wait s - 1)%Z in
        with_skips s g (if (0 <? g) && (l =? 0) then 1 else l) (if (0 <? g) && (b =? 0)%Z then 1%Z else b) 0 st
      else if (global_skip s =? 1) && stable then
        with_skips s (max_gs c) (max_gs c / local_factor c) (Z.of_nat (max_gs c / local_factor c)) 0 st
      else with_skips s (global_skip s) (local_skip s) (batches_to_wait s) w st.

Fixpoint steps (c : conf) (opts : list (params -> params)) (s : daso) : res daso := match opts with [] => Ok s | o :: t => do s' <- step c o s; steps c t s' end.
(** a training run as in examples/nn/imagenet-DASO.py: the batches of an epoch, then epoch_loss_logic with its loss *)
Fixpoint train (c : conf) (run : list (list (params -> params) * metric)) (s : daso) : res daso :=
  match run with [] => Ok s | (o, l) :: t => do s' <- steps c o s; train c t (epoch_loss_logic c l s') end.
