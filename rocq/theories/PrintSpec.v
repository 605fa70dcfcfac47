(** What print displays of an array of shape [sh] with elements [G]: all rows of every axis, or, if the array is summarized and
    an axis has more than [2 e] rows, its first [e] rows, an ellipsis and its last [e] rows. *)
From Verif Require Import Base TensorSpec.
Open Scope Z_scope.

Inductive shown (A : Type) := Elem (a : A) | Rows (l : list (shown A)) | Dots (first last : list (shown A)).
Arguments Elem {A}. Arguments Rows {A}. Arguments Dots {A}.

(** the integers a, a+1, ..., b-1 *)
Definition range (a b : Z) : list Z := map (Z.add a) (zr (b - a)).

Fixpoint rows_of {A} (e : Z) (summarize : bool) (sh : list Z) (G : list Z -> A) : shown A :=
  match sh with
  | [] => Elem (G [])
  | n :: sh' =>
      let row i := rows_of e summarize sh' (fun idx => G (i :: idx)) in
      if summarize && (2 * e <? n) then Dots (map row (range 0 e)) (map row (range (n - e) n)) else Rows (map row (range 0 n))
  end.
(** an array without elements is displayed as []; one with more than [threshold] elements is summarized *)
Definition displayed {A} (e threshold : Z) (sh : list Z) (G : list Z -> A) : shown A :=
  if zprod sh =? 0 then Rows [] else rows_of e (threshold <? zprod sh) sh G.
(** the elements that appear *)
Fixpoint elems {A} (t : shown A) : list A :=
  match t with
  | Elem a => [a]
  | Rows l => concat (map elems l)
  | Dots f l => concat (map elems f) ++ concat (map elems l)
  end.
