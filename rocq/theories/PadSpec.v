(** What padding an array means (numpy.pad, mode "constant", with Heat's convention that a
    shorter list of widths addresses the last axes).  Nothing here refers to Heat's code. *)
From Verif Require Import Base TensorSpec NdSpec.
Open Scope Z_scope.

(** the width argument a caller passes: an integer, or a sequence of integers and sequences *)
Inductive pitem := PI (z : Z) | PL (l : list Z).
Inductive pad_arg := PInt (z : Z) | PSeq (l : list pitem) | POther.
(** the fill argument: a number, or a sequence of numbers and sequences *)
Inductive citem (A : Type) := CI (v : A) | CL (l : list A).
Arguments CI {A} v. Arguments CL {A} l.
Inductive fill_arg (A : Type) := CV (v : A) | CSeq (l : list (citem A)).
Arguments CV {A} v. Arguments CSeq {A} l.

(** the (before, after) widths of every axis of an n-dimensional array *)
Inductive widths (n : nat) : pad_arg -> list (Z * Z) -> Prop :=
| w_int z : widths n (PInt z) (repeat (z, z) n)
| w_one z : widths n (PSeq [PI z]) (repeat (z, z) n)
| w_both b e : widths n (PSeq [PI b; PI e]) (repeat (b, e) n)
| w_both1 b e : widths n (PSeq [PL [b; e]]) (repeat (b, e) n)
| w_each ws : length ws <> 1%nat -> (length ws <= n)%nat ->
    widths n (PSeq (map (fun w => PL [fst w; snd w]) ws)) (repeat (0, 0) (n - length ws) ++ ws).
(** how many axes (the last ones) the width argument addresses *)
Definition addressed (n : nat) (p : pad_arg) : nat :=
  match p with
  | PSeq [_] => n
  | PSeq [PI _; PI _] => n
  | PSeq l => length l
  | _ => n
  end.
(** the (before, after) fill values of every axis, when [m] axes are addressed; values of axes
    that are not addressed do not matter *)
Inductive fills {A} (n m : nat) : fill_arg A -> list (A * A) -> Prop :=
| f_num v : fills n m (CV v) (repeat (v, v) n)
| f_one v : fills n m (CSeq [CI v]) (repeat (v, v) n)
| f_both b e : fills n m (CSeq [CI b; CI e]) (repeat (b, e) n)
| f_both1 b e : fills n m (CSeq [CL [b; e]]) (repeat (b, e) n)
| f_each vs us : length vs <> 1%nat -> length vs = m -> vs <> [] -> length us = (n - m)%nat ->
    fills n m (CSeq (map (fun w => CL [fst w; snd w]) vs)) (us ++ vs).

Definition lo (ws : list (Z * Z)) (k : nat) : Z := fst (nth k ws (0, 0)).
Definition hi (ws : list (Z * Z)) (k : nat) : Z := snd (nth k ws (0, 0)).
(** shape of the padded array *)
Definition padded_shape (gsh : list Z) (ws : list (Z * Z)) : list Z :=
  map (fun k => lo ws k + nth k gsh 0 + hi ws k) (seq 0 (length gsh)).
(** is the index in the frame along axis [k]? *)
Definition in_frame (gsh : list Z) (ws : list (Z * Z)) (idx : list Z) (k : nat) : bool :=
  (nth k idx 0 <? lo ws k) || (lo ws k + nth k gsh 0 <=? nth k idx 0).
(** the padded array: the fill value of the last axis along which the index is in the frame
    (before or after), else the original element *)
Definition padded {A} (G : list Z -> A) (gsh : list Z) (ws : list (Z * Z)) (vs : list (A * A)) (d : A) (idx : list Z) : A :=
  match find (in_frame gsh ws idx) (rev (seq 0 (length gsh))) with
  | Some k => if nth k idx 0 <? lo ws k then fst (nth k vs (d, d)) else snd (nth k vs (d, d))
  | None => G (map (fun k => nth k idx 0 - lo ws k) (seq 0 (length gsh)))
  end.
