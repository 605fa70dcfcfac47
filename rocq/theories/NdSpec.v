(** Specification of distributed n-dimensional arrays by their elements.  A local
    array is a shape and an element function; a distributed array is one local
    array per rank.  Nothing here refers to Heat's code. *)
From Verif Require Import Base TensorSpec.
Open Scope Z_scope.

Record arr (A : Type) := mk_arr { ash : list Z; adat : list Z -> A }.
Arguments mk_arr {A} _ _. Arguments ash {A} _. Arguments adat {A} _ _.

Definition zsum (l : list Z) : Z := fold_right Z.add 0 l.

(** the multi-index moved by [d] along axis [a] *)
Definition move_axis_idx (a : nat) (d : Z) (idx : list Z) : list Z := upd idx a (nth a idx 0 + d).

(** [t] is an array of shape [sh] whose elements are given by [F] *)
Definition agrees {A} (t : arr A) (sh : list Z) (F : list Z -> A) : Prop :=
  ash t = sh /\ forall idx, in_bounds sh idx -> adat t idx = F idx.

(** [locals] is the global array [G] of shape [gsh]: either every rank holds all of
    it (split = None), or it is cut along axis [a] into pieces of extents [cnts]. *)
Definition represents {A} (G : list Z -> A) (gsh : list Z) (split : option nat)
    (cnts : list Z) (locals : list (arr A)) : Prop :=
  length locals = length cnts /\ Forall (fun n => 0 <= n) gsh /\
  match split with
  | None => forall t, In t locals -> agrees t gsh G
  | Some a =>
      (a < length gsh)%nat /\ Forall (fun c => 0 <= c) cnts /\ zsum cnts = nth a gsh 0 /\
      forall r t, nth_error locals r = Some t ->
        agrees t (upd gsh a (nth r cnts 0)) (fun idx => G (move_axis_idx a (zsum (firstn r cnts)) idx))
  end.

(** remove the entries at the positions listed in [axes] *)
Fixpoint drop_from {A} (i : nat) (axes : list nat) (l : list A) : list A :=
  match l with
  | [] => []
  | x :: t => if existsb (Nat.eqb i) axes then drop_from (S i) axes t else x :: drop_from (S i) axes t
  end.
Definition drop_axes {A} := @drop_from A 0.
(** overwrite the entries at the positions listed in [axes] by [v] *)
Fixpoint fill_from {A} (i : nat) (axes : list nat) (v : A) (l : list A) : list A :=
  match l with
  | [] => []
  | x :: t => (if existsb (Nat.eqb i) axes then v else x) :: fill_from (S i) axes v t
  end.
Definition fill_axes {A} := @fill_from A 0.

Fixpoint eqb_idx (a b : list Z) : bool :=
  match a, b with
  | [], [] => true
  | x :: a', y :: b' => (x =? y) && eqb_idx a' b'
  | _, _ => false
  end.

(** the combination of all elements of [G] whose index becomes [idx'] when the
    reduced axes are removed ([drop]) or collapsed to 0 ([keep]) *)
Definition big {A} (op : A -> A -> A) (e : A) (l : list A) : A := fold_right op e l.
Definition reduce_drop {A} (op : A -> A -> A) (e : A) (G : list Z -> A) (gsh : list Z) (axes : list nat)
    (idx' : list Z) : A :=
  big op e (map G (filter (fun i => eqb_idx (drop_axes axes i) idx') (row_major gsh))).
Definition reduce_keep {A} (op : A -> A -> A) (e : A) (G : list Z -> A) (gsh : list Z) (axes : list nat)
    (idx' : list Z) : A :=
  big op e (map G (filter (fun i => eqb_idx (fill_axes axes 0 i) idx') (row_major gsh))).

(** commutative monoid on the elements satisfying [ok] *)
Definition comm_monoid {A} (ok : A -> Prop) (op : A -> A -> A) (e : A) : Prop :=
  ok e /\ (forall x y, ok x -> ok y -> ok (op x y)) /\
  (forall x, ok x -> op e x = x) /\
  (forall x y, ok x -> ok y -> op x y = op y x) /\
  (forall x y z, ok x -> ok y -> ok z -> op x (op y z) = op (op x y) z).

(** inclusive scan of a sequence *)
Fixpoint scan_from {A} (op : A -> A -> A) (acc : A) (l : list A) : list A :=
  match l with [] => [] | x :: t => op acc x :: scan_from op (op acc x) t end.
Definition scan {A} (op : A -> A -> A) (l : list A) : list A :=
  match l with [] => [] | x :: t => x :: scan_from op x t end.
