(** Shared vocabulary: exceptions as values, list helpers, distributed arrays.

    Heat is SPMD Python: every rank runs the same program.  A distributed array
    (DNDarray, heat/core/dndarray.py L24-140) split along an axis is modelled as
    the list of its per-rank local arrays ("larray"); a local array is the list of
    its slabs along the split axis, a slab being an arbitrary value of type [A]
    (everything at one index of the split axis).  The global array is the
    concatenation of the local ones in rank order. *)
From Coq Require Export List Arith ZArith Lia Bool.
From Coq Require Export ZifyBool ZifyNat.
Export ListNotations.
Ltac Zify.zify_post_hook ::= Z.div_mod_to_equations.
Set Implicit Arguments.
Global Arguments list_sum l : simpl never.

(** Python exceptions that the modelled code raises. *)
Inductive exn := ValueError | TypeError | IndexError | RuntimeError
               | NotImplementedErr | AttributeError | StopIteration | ZeroDivisionError | OverflowErr | OutOfFuel.

Inductive res (A : Type) := Ok (a : A) | Err (e : exn).
Arguments Err {A} e.

Definition bind {A B} (m : res A) (f : A -> res B) : res B :=
  match m with Ok a => f a | Err e => Err e end.
Notation "'do' x <- m ; f" := (bind m (fun x => f))
  (at level 200, x pattern, m at level 100, f at level 200, right associativity).

Definition is_ok {A} (m : res A) : bool := match m with Ok _ => true | Err _ => false end.

(** Distributed array along its split axis: per-rank lists of slabs. *)
Definition dist (A : Type) := list (list A).
Definition glob {A} (d : dist A) : list A := concat d.
Definition lens {A} (d : dist A) : list nat := map (@length A) d.

(** Replace position [k] of a list (Python: l[k] = v; no-op when out of range). *)
Fixpoint upd {A} (l : list A) (k : nat) (v : A) : list A :=
  match l, k with
  | [], _ => []
  | _ :: t, 0 => v :: t
  | h :: t, S k' => h :: upd t k' v
  end.

(** Exclusive prefix sum up to [k]. *)
Definition psum (l : list nat) (k : nat) : nat := list_sum (firstn k l).

(** Contiguous sub-list [a, a+len). *)
Definition sub {A} (l : list A) (a len : nat) : list A := firstn len (skipn a l).
