(** Operational semantics of processes that exchange point-to-point messages with
    blocking MPI Send / Recv (mpi4py; heat/core/communication.py L600-790 wraps
    them without reordering).

    A process is a list of actions.  MPI may buffer a standard-mode Send or make it
    wait for the matching Recv; both behaviours are steps here.  Messages between a
    pair of processes with equal tag are non-overtaking (MPI 3.1, 3.5). *)
From Verif Require Import Base.
Set Implicit Arguments.

Section Sched.
Variables S M : Type.     (* local state of a process, message *)

(** One matched exchange of the global plan. *)
Record event := Event {
  e_src : nat; e_dst : nat; e_tag : nat;
  e_send : S -> M * S;     (* message and sender's new state *)
  e_recv : S -> M -> S     (* receiver's new state *)
}.

Inductive act :=
| ASend (dst tag : nat) (f : S -> M * S)
| ARecv (src tag : nat) (f : S -> M -> S).

Record msg := Msg { g_src : nat; g_dst : nat; g_tag : nat; g_val : M }.

Record config := Config {
  progs : list (list act);   (* remaining program of each process *)
  st    : list S;            (* local states *)
  net   : list msg           (* sent, not yet received, in sending order *)
}.

Definition matches (src dst tag : nat) (m : msg) : bool :=
  Nat.eqb (g_src m) src && Nat.eqb (g_dst m) dst && Nat.eqb (g_tag m) tag.

(** remove the first message satisfying [f] *)
Fixpoint take_first (f : msg -> bool) (l : list msg) : option (msg * list msg) :=
  match l with
  | [] => None
  | m :: t => if f m then Some (m, t)
              else match take_first f t with None => None | Some (x, t') => Some (x, m :: t') end
  end.

(** a buffered send *)
Inductive step_send : config -> config -> Prop :=
| Step_send c i dst tag f rest s :
    nth i (progs c) [] = ASend dst tag f :: rest -> nth_error (st c) i = Some s ->
    step_send c (Config (upd (progs c) i rest) (upd (st c) i (snd (f s)))
                        (net c ++ [Msg i dst tag (fst (f s))])).
(** receiving a message that is in flight *)
Inductive step_recv : config -> config -> Prop :=
| Step_recv c j src tag f rest s m net' :
    nth j (progs c) [] = ARecv src tag f :: rest -> nth_error (st c) j = Some s ->
    take_first (matches src j tag) (net c) = Some (m, net') ->
    step_recv c (Config (upd (progs c) j rest) (upd (st c) j (f s (g_val m))) net').
(** rendezvous: an unbuffered send handed directly to a waiting receiver; only when
    no earlier matching message is in flight *)
Inductive step_sync : config -> config -> Prop :=
| Step_sync c i j tag f g resti restj si sj :
    i <> j ->
    nth i (progs c) [] = ASend j tag f :: resti ->
    nth j (progs c) [] = ARecv i tag g :: restj ->
    nth_error (st c) i = Some si -> nth_error (st c) j = Some sj ->
    take_first (matches i j tag) (net c) = None ->
    step_sync c (Config (upd (upd (progs c) i resti) j restj)
                        (upd (upd (st c) i (snd (f si))) j (g sj (fst (f si)))) (net c)).

Definition step (c c' : config) : Prop := step_send c c' \/ step_recv c c' \/ step_sync c c'.
Inductive steps : nat -> config -> config -> Prop :=
| Steps_O c : steps 0 c c
| Steps_S n c c' c'' : steps n c c' -> step c' c'' -> steps (Datatypes.S n) c c''.

Definition final (c : config) : Prop := forall i, nth i (progs c) [] = [].

(** What process [i] does in a global plan: its events, in plan order. *)
Definition proj1 (i : nat) (e : event) : list act :=
  if Nat.eqb (e_src e) i then [ASend (e_dst e) (e_tag e) (e_send e)]
  else if Nat.eqb (e_dst e) i then [ARecv (e_src e) (e_tag e) (e_recv e)] else [].
Definition proj (i : nat) (G : list event) : list act := flat_map (proj1 i) G.

Definition initial (P : nat) (G : list event) (s0 : list S) : config :=
  Config (map (fun i => proj i G) (seq 0 P)) s0 [].

(** Specification: the plan executed one exchange at a time. *)
Definition exec1 (s : list S) (e : event) : list S :=
  match nth_error s (e_src e), nth_error s (e_dst e) with
  | Some a, Some b => upd (upd s (e_src e) (snd (e_send e a))) (e_dst e) (e_recv e b (fst (e_send e a)))
  | _, _ => s
  end.
Definition exec (s : list S) (G : list event) : list S := fold_left exec1 G s.

Definition plan_ok (P : nat) (G : list event) : Prop :=
  forall e, In e G -> e_src e < P /\ e_dst e < P /\ e_src e <> e_dst e.
End Sched.
