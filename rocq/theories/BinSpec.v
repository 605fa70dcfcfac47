(** NumPy broadcasting of two global arrays, on shapes and indices.  Nothing here
    refers to Heat's code. *)
From Verif Require Import Base TensorSpec NdSpec.
Open Scope Z_scope.

(** a shape seen as an n-dimensional one: ones on the left *)
Definition padded (n : nat) (sh : list Z) : list Z := repeat 1 (n - length sh) ++ sh.
(** [o] is the extent to which extents [a] and [b] broadcast *)
Definition bcast_dim (a b o : Z) : Prop := (a = b /\ o = a) \/ (a = 1 /\ o = b) \/ (b = 1 /\ o = a).
(** shapes [s1] and [s2] broadcast to [o] *)
Definition bcast_shape (s1 s2 o : list Z) : Prop :=
  length o = Nat.max (length s1) (length s2) /\
  forall i, (i < length o)%nat ->
    bcast_dim (nth i (padded (length o) s1) 1) (nth i (padded (length o) s2) 1) (nth i o 1).
(** which element of an array of shape [sh] stands at index [idx] of the broadcast *)
Fixpoint clamp (sh idx : list Z) : list Z :=
  match sh, idx with n :: sh', i :: idx' => (if n =? 1 then 0 else i) :: clamp sh' idx' | _, _ => [] end.
Definition bcast_idx (sh idx : list Z) : list Z := clamp sh (skipn (length idx - length sh) idx).

(** Which combinations of split axes Heat supports on P ranks, for operands brought to
    the same dimension: no split, one split, the same split, or different splits where
    the operand that is not dominating has extent 1 along the dominating one's split. *)
Definition supported (P : nat) (sh1 sh2 osh : list Z) (s1 s2 : option nat) : Prop :=
  P = 1%nat \/
  match s1, s2 with
  | None, None => True
  | Some a, None => nth a sh2 0 = 1 -> nth a osh 0 <> 0
  | None, Some b => nth b sh1 0 = 1 -> nth b osh 0 <> 0
  | Some a, Some b =>
      if Nat.eqb a b then (nth a sh1 0 = 1 \/ nth a sh2 0 = 1) -> nth a osh 0 <> 0
      else (nth a sh1 0 = nth a osh 0 /\ nth a sh2 0 = 1 /\ 1 < nth a osh 0) \/
           (nth a sh1 0 <> nth a osh 0 /\ nth b sh2 0 = nth b osh 0 /\ nth b sh1 0 = 1 /\ 1 < nth b osh 0)
  end.
(** the axis along which the result is split: the first operand whose split axis is not
    being broadcast, else the first operand that is split *)
Definition result_split (sh1 sh2 osh : list Z) (s1 s2 : option nat) : option nat :=
  match s1, s2 with
  | Some a, Some b => if nth a sh1 0 =? nth a osh 0 then Some a
                      else if nth b sh2 0 =? nth b osh 0 then Some b else Some a
  | Some a, None => Some a
  | None, s => s
  end.
