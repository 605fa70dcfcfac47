(** Model of heat/nn/data_parallel.py DataParallel (L53-296) with heat/optim/dp_optimizer.py DataParallelOptimizer (L851-892),
    on P processes.  A parameter with its optimizer state is an abstract [PS]; torch optimizers treat the parameters one by one,
    skipping those without a gradient.  A gradient is one rational (tensors: pointwise; casts left out).  All processes run the
    same layers in the same order, so the reductions match; the wait handle of a reduction is its result, read when waited for.
    Layers are numbers; [mods] tells which of them are submodules (the layer name of a parameter of the top module itself is not). *)
From Coq Require Import List QArith ZArith Bool.
From Verif Require Import Base DpSpec.
Import ListNotations.
Open Scope nat_scope.

(** the layer of every parameter in the order of named_parameters, and the submodules *)
Record net := mk_net { lay : list nat; mods : nat -> bool }.
(** _param_slices L109-126 *)
Fixpoint slices_from (idx start prev : nat) (rest : list nat) : list (nat * (nat * nat)) :=
  match rest with
  | [] => [(prev, (start, idx))]
  | l :: t => if l =? prev then slices_from (idx + 1) start prev t else (prev, (start, idx)) :: slices_from (idx + 1) idx l t
  end.
Definition param_slices (lay : list nat) : list (nat * (nat * nat)) := match lay with [] => [] | l :: t => slices_from 1 0 l t end.
(** a dictionary: the last entry of a key counts *)
Definition slice_of (lay : list nat) (l : nat) : nat * nat :=
  match find (fun e => fst e =? l) (rev (param_slices lay)) with Some e => snd e | None => (0, 0) end.

Section M.
Variable PS : Type.
Variable opt : PS -> Q -> PS.

(** the state of one process: parameters, their .grad, _layer_wait_handles, _active_layers, update_next *)
Record proc := mk_proc { ps : nat -> PS; gr : nat -> option Q; handles : list (nat * list (nat * Q)); active : list nat; update_next : bool }.
Definition fresh (p : nat -> PS) : proc := mk_proc p (fun _ => None) [] [] false.

Definition has (l : nat) (h : list (nat * list (nat * Q))) : bool := existsb (fun e => fst e =? l) h.
Definition handles_of (l : nat) (h : list (nat * list (nat * Q))) : list (nat * Q) := match find (fun e => fst e =? l) h with Some e => snd e | None => [] end.
Definition discard (l : nat) (a : list nat) : list nat := filter (fun x => negb (x =? l)) a.
(** .grad += x; a parameter with a wait handle has a .grad (its hook returned zeros), so None does not occur *)
Definition add_grad (g : nat -> option Q) (i : nat) (x : Q) : nat -> option Q := fun j => if j =? i then match g i with Some y => Some (y + x)%Q | None => None end else g j.
(** torch's accumulation at the end of backward: the first gradient is stored, later ones are added *)
Definition accumulate (g : nat -> option Q) (i : nat) (x : Q) : nat -> option Q := fun j => if j =? i then match g i with Some y => Some (y + x)%Q | None => Some x end else g j.
(** torch_optimizer.step on the parameters lo <= i < hi *)
Definition torch_step (lo hi : nat) (s : proc) : proc :=
  mk_proc (fun i => if (lo <=? i) && (i <? hi) then match gr s i with Some g => opt (ps s i) g | None => ps s i end else ps s i) (gr s) (handles s) (active s) (update_next s).

(** _iparam_update L190-218: the wait handles of the layers (given in the order of the loop); stops without a step at an inactive layer *)
Fixpoint wait_layers (ls : list nat) (s : proc) : proc * bool :=
  match ls with
  | [] => (s, true)
  | l :: t => if existsb (Nat.eqb l) (active s)
              then let hs := handles_of l (handles s) in
                   wait_layers t (mk_proc (ps s) (fold_left (fun g e => add_grad g (fst e) (snd e)) hs (gr s)) (handles s)
                                          (match hs with [] => active s | _ => discard l (active s) end) (update_next s))
              else (s, false)
  end.
Definition iparam_update (lo hi : nat) (ls : list nat) (s : proc) : proc :=
  let '(s', ok) := wait_layers (rev ls) s in if ok && update_next s' then torch_step lo hi s' else s'.
(** _forward_hook L278-296 *)
Definition forward_hook (n : net) (l : nat) (s : proc) : proc := let '(lo, hi) := slice_of (lay n) l in iparam_update lo hi [l] s.

(** the module's forward with its pre-hooks (registered L142-149 for the submodules with wait handles): layer by layer; [seen] collects
    the parameter values in use; the parameters of the top module itself are used as they are at the start *)
Fixpoint run_module (n : net) (hooked : nat -> bool) (ls : list nat) (s : proc) (seen : nat -> PS) : proc * (nat -> PS) :=
  match ls with
  | [] => (s, seen)
  | l :: t => let s' := if hooked l then forward_hook n l s else s in
              run_module n hooked t s' (fun i => if nth i (lay n) 0 =? l then (if i <? length (lay n) then ps s' i else seen i) else seen i)
  end.
(** forward L137-170 in training mode, non-blocking *)
Definition forward (n : net) (ls : list nat) (s : proc) : proc * (nat -> PS) :=
  let hooked := fun l => mods n l && has l (handles s) in
  let '(s1, seen) := run_module n hooked ls s (ps s) in
  let s2 := fold_left (fun s l => forward_hook n l s) (active s1) s1 in
  (mk_proc (ps s2) (gr s2) [] (active s2) false, seen).
(** forward in evaluation mode, or blocking: no hooks (L166-170 still clear the state) *)
Definition forward_plain (s : proc) : proc * (nat -> PS) := (mk_proc (ps s) (gr s) [] (active s) false, ps s).

(** the mean computed by the hooks: each process scales its gradient by 1/size, then MPI.SUM (L233-235, L255-257) *)
Definition reduced (P : nat) (g : nat -> Q) : Q := fold_right Qplus 0%Q (map (fun r => g r * (1 / inject_Z (Z.of_nat P)))%Q (seq 0 P)).
(** _nonblocking_hook L253-274 for parameter i with the result x of the reduction; zeros go to .grad *)
Definition nb_hook (n : net) (i : nat) (x : Q) (s : proc) : proc :=
  let l := nth i (lay n) 0 in
  mk_proc (ps s) (accumulate (gr s) i 0)
          (if has l (handles s) then map (fun e => if fst e =? l then (l, snd e ++ [(i, x)]) else e) (handles s) else handles s ++ [(l, [(i, x)])])
          (if existsb (Nat.eqb l) (active s) then active s else active s ++ [l]) (update_next s).
(** _blocking_hook L220-236 *)
Definition b_hook (i : nat) (x : Q) (s : proc) : proc := mk_proc (ps s) (accumulate (gr s) i x) (handles s) (active s) (update_next s).
(** zero_grad L886-892 with set_to_none=False *)
Definition zero_grad (s : proc) : proc := mk_proc (ps s) (fun i => match gr s i with Some _ => Some 0%Q | None => None end) (handles s) (active s) (update_next s).
(** DataParallelOptimizer.step L876-884 *)
Definition nb_step (s : proc) : proc := mk_proc (ps s) (gr s) (handles s) (active s) true.
Definition b_step (n : net) (s : proc) : proc := torch_step 0 (length (lay n)) s.
(** model.eval(): __setattr__ L128-135 *)
Definition eval_mode (n : net) (s : proc) : proc := iparam_update 0 (length (lay n)) (map fst (handles s)) s.

(** the processes together *)
Definition world := nat -> proc.
Definition all (f : proc -> proc) (w : world) : world := fun r => f (w r).
(** one mini-batch of a training loop; [zero_first]: zero_grad before the forward pass (examples/nn/mnist.py), otherwise between
    forward and backward (examples/nn/imagenet.py) *)
Definition zeroing (b : bool) (w : world) : world := if b then all zero_grad w else w.
Definition iterate_nb (n : net) (P : nat) (zero_first : bool) (w : world) (b : batch PS) : world :=
  let w0 := zeroing zero_first w in
  let f := fun r => forward n (run_layers b) (w0 r) in
  let w1 := zeroing (negb zero_first) (fun r => fst (f r)) in
  let x := fun i => reduced P (fun r => gradient b r i (snd (f r))) in
  all nb_step (all (fun s => fold_left (fun s i => nb_hook n i (x i) s) (used b) s) w1).
Definition iterate_b (n : net) (P : nat) (zero_first : bool) (w : world) (b : batch PS) : world :=
  let w0 := zeroing zero_first w in
  let f := fun r => forward_plain (w0 r) in
  let w1 := zeroing (negb zero_first) (fun r => fst (f r)) in
  let x := fun i => reduced P (fun r => gradient b r i (snd (f r))) in
  all (b_step n) (all (fun s => fold_left (fun s i => b_hook i (x i) s) (used b) s) w1).
(** an epoch: its batches, then model.eval(), some evaluations, and model.train() *)
Definition epoch_nb (n : net) (P : nat) (zero_first : bool) (w : world) (e : list (batch PS) * nat) : world :=
  Nat.iter (snd e) (all (fun s => fst (forward_plain s))) (all (eval_mode n) (fold_left (iterate_nb n P zero_first) (fst e) w)).
End M.
Arguments mk_proc {PS}. Arguments ps {PS}. Arguments gr {PS}. Arguments handles {PS}. Arguments active {PS}. Arguments update_next {PS}.
Arguments fresh {PS}. Arguments torch_step {PS}. Arguments wait_layers {PS}. Arguments iparam_update {PS}. Arguments forward_hook {PS}.
Arguments run_module {PS}. Arguments forward {PS}. Arguments forward_plain {PS}. Arguments nb_hook {PS}. Arguments b_hook {PS}. Arguments zero_grad {PS}.
Arguments nb_step {PS}. Arguments b_step {PS}. Arguments eval_mode {PS}. Arguments all {PS}. Arguments zeroing {PS}. Arguments iterate_nb {PS}. Arguments iterate_b {PS}. Arguments epoch_nb {PS}.
