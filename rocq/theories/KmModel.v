(** Model of KMeans.fit and predict (heat/cluster/kmeans.py L76-148, heat/cluster/_kcluster.py
    L352-415) and of the update of KMedoids (heat/cluster/kmedoids.py L57-115), in exact
    rational arithmetic.  x is split along the samples or not split: the list of the local
    lists of rows, in any layout.  Argmin over Euclidean distances is argmin over their squares.
    Not modelled: x split along the features, the initialisations other than "random" and given
    centers, the labels' container (keepdims). *)
From Coq Require Import List ZArith QArith Qabs Bool Arith.
From Verif Require Import Base LayoutModel GnbSpec KmSpec.
Import ListNotations.
Open Scope Q_scope.

Section KMeans.
Variables (d k : nat).
(** argmin of a list: the first of the smallest *)
Fixpoint argmin_from (best : Q) (bi i : nat) (l : list Q) : nat :=
  match l with [] => bi | v :: l => if Qle_bool best v then argmin_from best bi (S i) l else argmin_from v i (S i) l end.
Definition argmin (l : list Q) : nat := match l with [] => 0%nat | v :: l => argmin_from v 0 1 l end.
(** _assign_to_cluster, L352-370: local rows *)
Definition assign (C : nat -> vec) (rows : list vec) : list nat :=
  map (fun x => argmin (map (fun c => dist2 d x (C c)) (seq 0 k))) rows.
(** kmeans.py L76-103.  [xs]: local rows and labels of every process.  The sums over axis 0 are
    local sums and an Allreduce. *)
Definition selection (i : nat) (l : nat) : Q := if Nat.eqb l i then 1 else 0.
Definition allsum (f : vec * nat -> Q) (xs : list (list (vec * nat))) : Q := qsum (map (fun loc => qsum (map f loc)) xs).
Definition points_in_cluster (i : nat) (xs : list (list (vec * nat))) : Q :=
  let n := allsum (fun p => selection i (snd p)) xs in if Qle_bool 1 n then n else 1.                     (* clip *)
Definition update (xs : list (list (vec * nat))) : nat -> vec :=
  fun i f => allsum (fun p => fst p f * selection i (snd p) / points_in_cluster i xs) xs.
(** what fit leaves behind *)
Record fitted := mk_fitted { centers : nat -> vec; labels : list (list nat); n_iter : nat; inertia : Q }.
Definition movement (C C' : nat -> vec) : Q :=
  qsum (map (fun c => qsum (map (fun f => (C c f - C' c f) * (C c f - C' c f)) (seq 0 d))) (seq 0 k)).
(** kmeans.py L127-148 after the initialisation.  [it]: iterations done.  With max_iter 0 the
    name matching_centroids is unbound (UnboundLocalError; RuntimeError here). *)
Fixpoint loop (todo it : nat) (tol : option Q) (xs : list (list vec)) (C : nat -> vec) : res fitted :=
  match todo with
  | O => Err RuntimeError
  | S todo =>
      let lab := map (assign C) xs in
      let C' := update (map (fun p => combine (fst p) (snd p)) (combine xs lab)) in
      let m := movement C C' in
      let stop := match tol with None => false | Some t => Qle_bool m t end in
      if stop || Nat.eqb todo 0 then Ok (mk_fitted C' lab (S it) m) else loop todo (S it) tol xs C'
  end.
Definition fit (max_iter : nat) (tol : option Q) (xs : list (list vec)) (C0 : nat -> vec) : res fitted := loop max_iter 0 tol xs C0.
(** init = "random", _kcluster.py L130-133: the indices drawn are those of randint(0, n - 1), that
    is below n - 1 (C51), and randint(0, 0) raises ValueError *)
Definition random_init (draw : nat -> nat) (rows : list vec) : res (nat -> vec) :=
  let n := length rows in
  if (n - 1 <=? 0)%nat then Err ValueError else Ok (fun c => nth (draw c mod (n - 1)) rows (fun _ => 0)).

(** KMedoids: the process that has row [idx] and the row, looked up with the displacements of
    the canonical layout, kmedoids.py L101-113 (and L81-93) *)
Definition find_proc (displ : list nat) (idx : nat) : nat :=
  (fix go (p : nat) (l : list nat) (proc : nat) : nat :=
     match l with [] => proc | x :: l => if (idx <? x)%nat then proc else go (S p) l p end) 0%nat displ 0%nat.
Definition fetch (n : nat) (xs : list (list vec)) (idx : nat) : res vec :=
  let displ := displs_from 0 (counts_of n (length xs)) in
  let proc := find_proc displ idx in
  match nth_error (nth proc xs []) (idx - nth proc displ 0%nat) with Some v => Ok v | None => Err IndexError end.
(** the rows of the cluster that are not 0; the median and the metric are parameters, as is
    the random row for an empty cluster *)
Definition manhattan_norm (x : vec) : Q := qsum (map (fun f => Qabs (x f)) (seq 0 d)).
Variables (median : list vec -> vec) (metric : vec -> vec -> Q) (sample : nat -> nat).
Definition medoid (xs : list (list vec)) (lab : list (list nat)) (i : nat) : res vec :=
  let clean := filter (fun x => negb (Qeq_bool (manhattan_norm x) 0)) (members i (concat xs) (concat lab)) in
  let n := length (concat xs) in
  match clean with
  | [] => fetch n xs (sample i mod n)
  | _ => fetch n xs (argmin (map (fun x => metric x (median clean)) (concat xs)))
  end.
End KMeans.
