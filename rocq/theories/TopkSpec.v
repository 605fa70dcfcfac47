(** What the k largest (smallest) elements are. *)
From Coq Require Import Permutation Sorted.
From Verif Require Import Base TensorSpec SortSpec.
Open Scope Z_scope.

(** [x] should not stand behind [y] when the largest (smallest) are wanted *)
Definition beats {V} (lt : V -> V -> bool) (largest : bool) (x y : V) : Prop := (if largest then lt x y else lt y x) = false.
(** [res] are k elements of [l], and none of the others is better than one of them *)
Definition top_of {V} (lt : V -> V -> bool) (largest : bool) (k : nat) (l res : list V) : Prop :=
  length res = k /\ exists rest, Permutation (res ++ rest) l /\ forall x y, In x res -> In y rest -> beats lt largest x y.
(** torch.topk: positions in l of its k best elements, best first if [sorted] *)
Definition topks {V} (dv : V) (lt : V -> V -> bool) (tk : bool -> bool -> nat -> list V -> list nat) : Prop :=
  forall largest sorted k l, (k <= length l)%nat ->
    (exists rest, Permutation (tk largest sorted k l ++ rest) (seq 0 (length l)) /\ forall i j, In i (tk largest sorted k l) -> In j rest -> beats lt largest (nth i l dv) (nth j l dv)) /\
    length (tk largest sorted k l) = k /\
    (sorted = true -> in_order lt largest (map (fun i => nth i l dv) (tk largest sorted k l))).
(** along axis [ax], the values of [H] (shape [sh] with extent k) are the k best of [G] *)
Definition top_along {V} (lt : V -> V -> bool) (largest sorted : bool) (ax k : nat) (sh : list Z) (G : list Z -> V) (H : list Z -> V * Z) : Prop :=
  forall idx, in_bounds (upd sh ax 1) idx ->
    let vals := map fst (lane H ax (Z.of_nat k) idx) in
    top_of lt largest k (lane G ax (nth ax sh 0) idx) vals /\ (sorted = true -> in_order lt largest vals).
(** the indices of [H] are distinct positions of [G] holding the values of [H] *)
Definition indices_along {V} (ax k : nat) (sh : list Z) (G : list Z -> V) (H : list Z -> V * Z) : Prop :=
  forall idx, in_bounds (upd sh ax 1) idx ->
    NoDup (map snd (lane H ax (Z.of_nat k) idx)) /\
    forall j, 0 <= j < Z.of_nat k -> let p := H (upd idx ax j) in 0 <= snd p < nth ax sh 0 /\ fst p = G (upd idx ax (snd p)).
