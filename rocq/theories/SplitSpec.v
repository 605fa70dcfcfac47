(** What it means to cut a global array along an axis. *)
From Verif Require Import Base LayoutModel NdSpec TensorSpec OpsModel ShapeModel FactoryProps ShapeProps ConcatProps.
Open Scope Z_scope.

(** y is x[..., b:b', ...] along [axis], in the balanced layout with x's split *)
Definition is_piece {A} (P : nat) (sp : option nat) (gsh : list Z) (axis : nat) (G : list Z -> A) (b b' : Z) (y : dnd A) : Prop :=
  d_gshape y = upd gsh axis (b' - b) /\ d_split y = sp /\ is_rep P y (fun idx => G (move_axis_idx axis b idx)).
(** the pieces between consecutive cut points b(0) = 0, ..., b(k) *)
Definition are_pieces {A} (P : nat) (sp : option nat) (gsh : list Z) (axis : nat) (G : list Z -> A) (k : nat) (b : nat -> Z) (ys : list (dnd A)) : Prop :=
  length ys = k /\ forall j y, nth_error ys j = Some y -> is_piece P sp gsh axis G (b j) (b (S j)) y.
(** cut points of numpy.split(x, [i0, i1, ...]) for an axis of length n *)
Definition cut_point (n : Z) (l : list Z) (j : nat) : Z :=
  match j with O => 0 | S j' => if (j' <? length l)%nat then Z.min n (nth j' l 0) else n end.
