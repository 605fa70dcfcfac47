(** Specification of distributed tensors in memory, used by the datatype and
    resplit theorems. *)
From Verif Require Import Base TensorSpec DtypeModel.
From Coq Require Import Permutation.
Open Scope Z_scope.

(** the multi-index moved by [d] along axis [a] *)
Definition shift_axis (a : nat) (d : Z) (idx : list Z) : list Z := upd idx a (d + nth a idx 0).

(** [t] holds the slab [off, off+len) along axis [a] of the global tensor [G] of shape [gshape] *)
Definition holds_slab {V} (G : list Z -> V) (w : Z) (gshape : list Z) (a : nat) (off len : Z) (t : tensor V) : Prop :=
  tshape t = upd gshape a len /\ length (tstride t) = length gshape /\
  forall idx, in_bounds (tshape t) idx -> read (tmem t) w (tstride t) idx = G (shift_axis a off idx).

(** the list of per-rank tensors is the global tensor cut along [a] into [counts] *)
Definition sumz (l : list Z) : Z := fold_right Z.add 0 l.
Definition distributed {V} (G : list Z -> V) (w : Z) (gshape : list Z) (a : nat) (counts : list Z)
    (locals : list (tensor V)) : Prop :=
  length locals = length counts /\ Forall (fun c => 0 <= c) counts /\ sumz counts = nth a gshape 0 /\
  forall p t, nth_error locals p = Some t ->
    holds_slab G w gshape a (sumz (firstn p counts)) (nth p counts 0) t.

(** all strides of all local tensors lie in [0, bound) *)
Definition strides_below {V} (bound : Z) (locals : list (tensor V)) : Prop :=
  forall t, In t locals -> Forall (fun s => 0 <= s < bound) (tstride t).

(** After the writes [ws], performed in any order on any previous contents, the
    contiguous receive tensor of shape [rshape] reads as [F], and nothing outside
    it has changed. *)
Definition delivers {V} (w : Z) (rshape : list Z) (F : list Z -> V) (ws : list (Z * V)) : Prop :=
  forall ws' m0, Permutation ws ws' ->
    (forall idx, in_bounds rshape idx -> read (writes m0 ws') w (cstrides rshape) idx = F idx) /\
    (forall addr, (forall idx, in_bounds rshape idx -> addr <> w * dot idx (cstrides rshape)) ->
       writes m0 ws' addr = m0 addr).
