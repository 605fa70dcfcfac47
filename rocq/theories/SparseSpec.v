(** Compressed sparse matrices.  Nothing here refers to Heat's code.
    A matrix is stored line by line: a line is a row (CSR) or a column (CSC). *)
From Verif Require Import Base NdSpec TensorSpec.
Open Scope nat_scope.

(** number of lines, length of a line, line pointers, positions inside the lines, values *)
Record csx (V : Type) := Csx { x_major : nat; x_minor : nat; x_ptr : list nat; x_ind : list nat; x_val : list V }.
Arguments Csx {V}. Arguments x_major {V}. Arguments x_minor {V}. Arguments x_ptr {V}. Arguments x_ind {V}. Arguments x_val {V}.

(** the stored elements of line [i]: (position, value) *)
Definition line {V} (t : csx V) (i : nat) : list (nat * V) :=
  let a := nth i (x_ptr t) 0 in let n := nth (S i) (x_ptr t) 0 - a in
  combine (sub (x_ind t) a n) (sub (x_val t) a n).

Definition well_formed {V} (t : csx V) : Prop :=
  length (x_ptr t) = S (x_major t) /\ nth 0 (x_ptr t) 0 = 0 /\
  (forall i, i < x_major t -> nth i (x_ptr t) 0 <= nth (S i) (x_ptr t) 0) /\
  nth (x_major t) (x_ptr t) 0 = length (x_ind t) /\ length (x_val t) = length (x_ind t) /\
  (forall i, i < x_major t -> NoDup (map fst (line t i)) /\ Forall (fun p => fst p < x_minor t) (line t i)).

(** element (line i, position j) of the matrix: what is stored there, or zero *)
Definition entry {V} (zero : V) (t : csx V) (i j : nat) : V :=
  match find (fun p => fst p =? j) (line t i) with Some p => snd p | None => zero end.

(** the dense matrix; [col]: the lines are columns *)
Definition dense {V} (zero : V) (col : bool) (t : csx V) : arr V :=
  let n := Z.of_nat (x_major t) in let m := Z.of_nat (x_minor t) in
  if col then mk_arr [m; n] (fun idx => entry zero t (Z.to_nat (nth 1 idx 0%Z)) (Z.to_nat (nth 0 idx 0%Z)))
  else mk_arr [n; m] (fun idx => entry zero t (Z.to_nat (nth 0 idx 0%Z)) (Z.to_nat (nth 1 idx 0%Z))).

(** [ls], one after the other, are the lines of [g] *)
Definition stacked {V} (ls : list (csx V)) (g : csx V) : Prop :=
  x_major g = list_sum (map x_major ls) /\ Forall (fun t => x_minor t = x_minor g) ls /\
  flat_map (fun t => map (line t) (seq 0 (x_major t))) ls = map (line g) (seq 0 (x_major g)).

(** [op] acts on the stored matrices as [f] on their elements, and needs equal shapes *)
Definition elementwise {V} (zero : V) (f : V -> V -> V) (op : csx V -> csx V -> res (csx V)) : Prop :=
  (forall a b, well_formed a -> well_formed b -> x_major a = x_major b -> x_minor a = x_minor b ->
     exists c, op a b = Ok c /\ well_formed c /\ x_major c = x_major a /\ x_minor c = x_minor a /\
       forall i j, i < x_major a -> j < x_minor a -> entry zero c i j = f (entry zero a i j) (entry zero b i j)) /\
  (forall a b, x_major a <> x_major b \/ x_minor a <> x_minor b -> op a b = Err RuntimeError).
