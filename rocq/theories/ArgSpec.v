(** What argmax and argmin promise. *)
From Verif Require Import Base LayoutModel ArgModel.
Open Scope Z_scope.
(** index [i] is the first position of the largest (smallest) element of [l] *)
Definition is_argmax (l : list Z) (i : Z) : Prop :=
  0 <= i < Z.of_nat (length l) /\
  (forall j, (j < length l)%nat -> nth j l 0 <= nth (Z.to_nat i) l 0) /\
  (forall j, Z.of_nat j < i -> nth j l 0 < nth (Z.to_nat i) l 0).
Definition is_argmin (l : list Z) (i : Z) : Prop :=
  0 <= i < Z.of_nat (length l) /\
  (forall j, (j < length l)%nat -> nth (Z.to_nat i) l 0 <= nth j l 0) /\
  (forall j, Z.of_nat j < i -> nth (Z.to_nat i) l 0 < nth j l 0).
(** lane [k] of the global array: the ranks' lanes [k] one after the other *)
Definition global_lane (data : list (list (list Z))) (k : nat) : list Z := concat (map (fun lanes => nth k lanes []) data).
(** trees whose subtrees cover consecutive ranks *)
Fixpoint covers (t : rtree) (lo hi : nat) : Prop :=
  match t with
  | Leaf r => lo = r /\ hi = S r
  | Node a b => exists m, (covers a lo m /\ covers b m hi) \/ (covers b lo m /\ covers a m hi)
  end.

(** [data] holds [L] lanes on every rank, of the lengths of the even layout of [n] *)
Definition even_lanes (n L : nat) (data : list (list (list Z))) : Prop :=
  (0 < length data)%nat /\ (0 < L)%nat /\ forall r, (r < length data)%nat -> length (nth r data []) = L /\
    forall k, (k < L)%nat -> length (nth k (nth r data []) []) = nth r (counts_of n (length data)) 0%nat.
Definition in_data (data : list (list (list Z))) (v : Z) : Prop := exists lanes lane, In lanes data /\ In lane lanes /\ In v lane.
