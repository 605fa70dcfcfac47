(** Weighted moments, the specification of GaussianNB's parameters (C79). *)
From Coq Require Import List ZArith QArith.
Import ListNotations.
Open Scope Q_scope.

Definition qsum (l : list Q) : Q := fold_right Qplus 0 l.
(** pairs (weight, value) *)
Definition weight (l : list (Q * Q)) : Q := qsum (map fst l).
Definition wmean (l : list (Q * Q)) : Q := qsum (map (fun p => fst p * snd p) l) / weight l.
Definition wvar (l : list (Q * Q)) : Q := qsum (map (fun p => fst p * ((snd p - wmean l) * (snd p - wmean l))) l) / weight l.

(** a sample: label, features, weight; a batch: whether weights are passed, samples *)
Record sample := mk_sample { s_label : Z; s_feat : nat -> Q; s_weight : Q }.
Record batch := mk_batch { b_weighted : bool; b_samples : list sample }.
(** (weight, value of feature f) of the samples of class c *)
Definition class_data (c : Z) (f : nat) (b : batch) : list (Q * Q) :=
  map (fun s => (if b_weighted b then s_weight s else 1, s_feat s f)) (filter (fun s => Z.eqb (s_label s) c) (b_samples b)).
(** the same over a history of batches *)
Definition class_history (c : Z) (f : nat) (bs : list batch) : list (Q * Q) := flat_map (class_data c f) bs.
(** [v] is the largest variance among the nf columns of the batch (weights do not count) *)
Definition column_data (f : nat) (b : batch) : list (Q * Q) := map (fun s => (1, s_feat s f)) (b_samples b).
Definition largest_variance (nf : nat) (b : batch) (v : Q) : Prop :=
  (exists f, (f < nf)%nat /\ v == wvar (column_data f b)) /\ forall f, (f < nf)%nat -> wvar (column_data f b) <= v.
(** the calls of a history: every batch has samples, and all weights are positive *)
Definition proper (b : batch) : Prop :=
  b_samples b <> [] /\ (b_weighted b = true -> forall s, In s (b_samples b) -> 0 < s_weight s).
(** the labels of the batch are exactly the classes [c] *)
Definition has_classes (c : list Z) (b : batch) : Prop := forall z, In z (map s_label (b_samples b)) <-> In z c.
