(** k-means vocabulary (C81): points and centers are functions from feature index to Q. *)
From Coq Require Import List Arith QArith.
From Verif Require Import GnbSpec.
Import ListNotations.
Open Scope Q_scope.

Definition vec := nat -> Q.
(** squared Euclidean distance over d features *)
Definition dist2 (d : nat) (x c : vec) : Q := qsum (map (fun f => (x f - c f) * (x f - c f)) (seq 0 d)).
(** [l] is a center nearest to x, the first one among equals *)
Definition nearest (d k : nat) (C : nat -> vec) (x : vec) (l : nat) : Prop :=
  (l < k)%nat /\ (forall c, (c < k)%nat -> dist2 d x (C l) <= dist2 d x (C c)) /\ (forall c, (c < l)%nat -> dist2 d x (C l) < dist2 d x (C c)).
(** v is the k-means cost of the centers C: the sum over the points of the squared distance to a nearest center *)
Definition is_cost (d k : nat) (rows : list vec) (C : nat -> vec) (v : Q) : Prop :=
  exists ds, v == qsum ds /\ Forall2 (fun x dx => exists l, nearest d k C x l /\ dx == dist2 d x (C l)) rows ds.
(** the points with label c *)
Definition members (c : nat) (rows : list vec) (labels : list nat) : list vec :=
  map fst (filter (fun p => Nat.eqb (snd p) c) (combine rows labels)).
(** m is the mean of the points in feature f *)
Definition is_mean (pts : list vec) (f : nat) (m : Q) : Prop :=
  pts <> [] /\ m == qsum (map (fun x => x f) pts) / inject_Z (Z.of_nat (length pts)).
