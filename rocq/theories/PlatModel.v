(** Model of heat/optim/utils.py DetectMetricPlateau (L14-206).  Floats are exact extended numbers
    (no rounding); patience and cooldown are natural numbers. *)
From Coq Require Import List QArith Bool.
From Verif Require Import PlatSpec.
Import ListNotations.
Open Scope nat_scope.

Definition qlt (a b : Q) : bool := negb (Qle_bool b a).
(** a < b on floats *)
Definition flt (a b : metric) : bool :=
  match a, b with
  | NaN, _ | _, NaN => false
  | NInf, NInf => false | NInf, _ => true
  | Fin x, Fin y => qlt x y | Fin _, PInf => true | Fin _, NInf => false
  | PInf, _ => false
  end.
(** a * q and a + q for a finite q *)
Definition fmul (a : metric) (q : Q) : metric :=
  match a with
  | NaN => NaN
  | Fin x => Fin (x * q)
  | PInf => if Qeq_bool q 0 then NaN else if qlt 0 q then PInf else NInf
  | NInf => if Qeq_bool q 0 then NaN else if qlt 0 q then NInf else PInf
  end.
Definition fadd (a : metric) (q : Q) : metric := match a with Fin x => Fin (x + q) | _ => a end.
(** best >= 0 *)
Definition fge0 (a : metric) : bool := match a with Fin x => Qle_bool 0 x | PInf => true | _ => false end.

(** the attributes, L57-69; mode "min" and threshold_mode "rel" as booleans *)
Record plateau := mk_plateau {
  patience : nat; cooldown : nat; cooldown_counter : nat; mode_min : bool; threshold : Q; mode_rel : bool;
  best : metric; num_bad_epochs : nat; mode_worse : metric; last_epoch : nat }.

(** is_better L155-187 *)
Definition is_better (s : plateau) (a b : metric) : bool :=
  if mode_min s && mode_rel s then
    let rel_epsilon := (1 - threshold s)%Q in
    let comp := if fge0 b then fmul b rel_epsilon else fmul b (1 + threshold s) in
    flt a comp
  else if mode_min s && negb (mode_rel s) then flt a (fadd b (- threshold s))
  else if negb (mode_min s) && mode_rel s then
    let rel_epsilon := (threshold s + 1)%Q in flt (fmul b rel_epsilon) a
  else flt (fadd b (threshold s)) a.

(** reset L105-111 *)
Definition reset (s : plateau) : plateau :=
  mk_plateau (patience s) (cooldown s) 0 (mode_min s) (threshold s) (mode_rel s) (mode_worse s) 0 (mode_worse s) (last_epoch s).
(** __init__ L49-69 with _init_is_better L189-206 *)
Definition new_plateau (min : bool) (pat : nat) (thr : Q) (rel : bool) (cool : nat) : plateau :=
  reset (mk_plateau pat cool 0 min thr rel NaN 0 (if min then PInf else NInf) 0).

(** test_if_improving L113-147 *)
Definition test_if_improving (current : metric) (s : plateau) : plateau * bool :=
  let epoch := last_epoch s + 1 in
  let '(b, bad) := if is_better s current (best s) then (current, 0) else (best s, num_bad_epochs s + 1) in
  let '(cc, bad) := if 0 <? cooldown_counter s then (cooldown_counter s - 1, 0) else (cooldown_counter s, bad) in
  let '(cc, bad, ret) := if patience s <? bad then (cooldown s, 0, true) else (cc, bad, false) in
  (mk_plateau (patience s) (cooldown s) cc (mode_min s) (threshold s) (mode_rel s) b bad (mode_worse s) epoch, ret).
(** the answers to a history of metrics *)
Fixpoint answers (s : plateau) (ms : list metric) : list bool :=
  match ms with [] => [] | m :: t => let '(s', r) := test_if_improving m s in r :: answers s' t end.
Definition after (s : plateau) (ms : list metric) : plateau := fold_left (fun s m => fst (test_if_improving m s)) ms s.

(** get_state L71-86: the dictionary, one entry per key *)
Record dict := mk_dict {
  k_patience : nat; k_cooldown : nat; k_cooldown_counter : nat; k_mode : bool; k_threshold : Q; k_threshold_mode : bool;
  k_best : metric; k_num_bad_epochs : nat; k_mode_worse : metric; k_last_epoch : nat }.
Definition get_state (s : plateau) : dict :=
  mk_dict (patience s) (cooldown s) (cooldown_counter s) (mode_min s) (threshold s) (mode_rel s) (best s) (num_bad_epochs s) (mode_worse s) (last_epoch s).
(** set_state L88-103: every attribute of [s] is overwritten *)
Definition set_state (d : dict) (s : plateau) : plateau :=
  mk_plateau (k_patience d) (k_cooldown d) (k_cooldown_counter d) (k_mode d) (k_threshold d) (k_threshold_mode d) (k_best d) (k_num_bad_epochs d) (k_mode_worse d) (k_last_epoch d).
