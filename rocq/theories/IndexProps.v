(** C13, C14, C15, C49: basic indexing along the split axis and scalar conversion.
    Specification: PySpec.v (Python's slice semantics), PySpecSel.v (sel). *)
From Verif Require Import Base BaseLemmas PySpec PySpecSel LayoutModel IndexModel IndexProofs IndexProofs2.
From Coq Require Import Sorted.
Set Implicit Arguments.
Local Open Scope Z_scope.

(** C13: x[start:stop:step] for every layout (empty ranks included) has exactly the
    elements Python selects, in order; no rank raises.  Restrictions: bounds >= -n,
    stop <= n, and the slice not written backwards (start <= stop) unless start >= n. *)
Theorem C13_getitem_slice_partial : forall A (d : dist A) start stop step,
  let n := Z.of_nat (length (glob d)) in
  0 < py_step step ->
  (forall x, start = Some x -> - n <= x) -> (forall x, stop = Some x -> - n <= x <= n) ->
  (py_slice_start start n (py_step step) <= py_slice_stop stop n (py_step step) \/ exists x, start = Some x /\ n <= x) ->
  exists d', map (getitem_slice d start stop step) (seq 0 (length d)) = map (@Ok _) d' /\
    glob d' = sel (glob d) (py_slice start stop step n).
Proof. exact getitem_slice_lemma. Qed.
Print Assumptions C13_getitem_slice_partial.
Example C13_instance :
  let d := [[10;11;12]; []; [13]; [14;15;16;17]] in
  map (getitem_slice d (Some 1) (Some (-1)) (Some 3)) (seq 0 4) = [Ok [11]; Ok []; Ok []; Ok [14]] /\
  sel (glob d) (py_slice (Some 1) (Some (-1)) (Some 3) 8) = [11; 14].
Proof. vm_compute; split; reflexivity. Qed.

(** The restrictions are needed: x[0:100] raises on the last rank (only), x[4:2]
    raises on the rank holding both bounds, x[-7:] of a length-5 array is not the
    whole array. *)
Theorem C13_getitem_slice_refuted :
  (map (getitem_slice [[0;1;2];[3;4;5]] (Some 0) (Some 100) None) [0;1]%nat = [Ok [0;1;2]; Err RuntimeError]) /\
  (map (getitem_slice [[0;1;2;3;4];[5;6]] (Some 4) (Some 2) None) [0;1]%nat = [Err RuntimeError; Ok []]) /\
  (map (getitem_slice [[0;1;2];[3;4]] (Some (-7)) None None) [0;1]%nat <> [Ok [0;1;2]; Ok [3;4]] /\
   py_slice (Some (-7)) None None 5 = [0;1;2;3;4]).
Proof. vm_compute. repeat split; discriminate. Qed.
Print Assumptions C13_getitem_slice_refuted.

(** C13, lists of indices: right for sorted in-range keys. *)
Theorem C13_getitem_list_partial : forall A (d : dist A) (keys : list Z),
  let n := Z.of_nat (length (glob d)) in
  (1 < length keys)%nat -> (forall k, In k keys -> 0 <= k < n) -> StronglySorted Z.le keys ->
  glob (map (getitem_list d keys) (seq 0 (length d))) = sel (glob d) keys.
Proof. exact getitem_list_lemma. Qed.
Print Assumptions C13_getitem_list_partial.
Example C13_list_instance : StronglySorted Z.le [0; 2; 2; 4] /\
  glob (map (getitem_list [[10;11;12]; []; [13;14]] [0; 2; 2; 4]) (seq 0 3)) = [10; 12; 12; 14].
Proof. split; [repeat constructor; lia|vm_compute; reflexivity]. Qed.
(** unsorted keys come back in rank order, negative indices are dropped, and a key
    list of length one returns nothing *)
Theorem C13_getitem_list_refuted :
  (glob (map (getitem_list [[0;1;2];[3;4;5]] [5; 0]) [0;1]%nat) = [0; 5] /\ sel [0;1;2;3;4;5] [5; 0] = [5; 0]) /\
  glob (map (getitem_list [[0;1;2];[3;4;5]] [0; -1]) [0;1]%nat) = [0] /\
  glob (map (getitem_list [[0;1;2];[3;4;5]] [3]) [0;1]%nat) = [].
Proof. vm_compute. repeat split. Qed.
Print Assumptions C13_getitem_list_refuted.

(** C14: x[k] for every layout, negative k included; IndexError exactly when out of range. *)
Theorem C14_getitem_int : forall A (d : dist A) (key : Z),
  let n := Z.of_nat (length (glob d)) in
  (- n <= key < n -> exists x, nth_error (glob d) (Z.to_nat (key mod n)) = Some x /\ getitem_int d key = Ok x) /\
  (~ (- n <= key < n) -> getitem_int d key = Err IndexError).
Proof. exact getitem_int_lemma. Qed.
Print Assumptions C14_getitem_int.
Example C14_instance : getitem_int [[]; [10;11]; []; []; [12;13]; []] (-2) = Ok 12 /\
  getitem_int [[]; [10;11]; []; []; [12;13]; []] 4 = Err IndexError.
Proof. vm_compute; split; reflexivity. Qed.

(** C14 / C44: integer keys remove their axes; the result is unsplit iff the split
    axis was indexed by an integer, otherwise split at the position of the old split
    axis among the remaining ones. *)
Theorem C14_getitem_split : forall singular s, (s < length singular)%nat ->
  getitem_split singular (Some s) =
    if nth s singular false then None else Some (length (filter negb (firstn s singular))).
Proof. exact getitem_split_lemma. Qed.
Print Assumptions C14_getitem_split.
Example C14_split_instance : getitem_split [true; false; true; false] (Some 3%nat) = Some 1%nat /\
  getitem_split [true; false] (Some 0%nat) = None.
Proof. split; reflexivity. Qed.

(** C15: x[start:stop:step] = scalar on a balanced array writes exactly the selected
    positions.  Restriction: start is not negative. *)
Theorem C15_setitem_slice_partial : forall A (d : dist A) start stop step (v : A),
  let n := Z.of_nat (length (glob d)) in
  (0 < length d)%nat -> lens d = counts_of (length (glob d)) (length d) -> 0 < py_step step ->
  (forall x, start = Some x -> 0 <= x) -> (forall x, stop = Some x -> - n <= x) ->
  let d' := map (setitem_slice d start stop step v) (seq 0 (length d)) in
  lens d' = lens d /\
  forall i, nth_error (glob d') i =
    if existsb (Z.eqb (Z.of_nat i)) (py_slice start stop step n) then Some v else nth_error (glob d) i.
Proof. exact setitem_slice_lemma. Qed.
Print Assumptions C15_setitem_slice_partial.
Example C15_instance :
  let d := [[10;11;12]; [13;14]; [15;16]] in
  lens d = counts_of 7 3 /\
  map (setitem_slice d (Some 1) (Some (-1)) (Some 2) 0) (seq 0 3) = [[10;0;12]; [0;14]; [0;16]].
Proof. vm_compute; split; reflexivity. Qed.
Theorem C15_setitem_int : forall A (d : dist A) (key : Z) (v : A),
  let n := Z.of_nat (length (glob d)) in
  (0 < length d)%nat -> lens d = counts_of (length (glob d)) (length d) -> - n <= key < n ->
  exists d', map (setitem_int d key v) (seq 0 (length d)) = map (@Ok _) d' /\ lens d' = lens d /\
    glob d' = upd (glob d) (Z.to_nat (key mod n)) v.
Proof. exact setitem_int_lemma. Qed.
Print Assumptions C15_setitem_int.
Example C15_int_instance : map (setitem_int [[10;11;12]; [13;14]; [15;16]] (-3) 0) (seq 0 3) = map (@Ok _) [[10;11;12]; [13;0]; [15;16]].
Proof. vm_compute; reflexivity. Qed.

(** What fails. (a) x[-2:] = 9 on two ranks writes positions 1, 2 and the whole second rank. *)
Theorem C15_setitem_negative_start_refuted : exists (d : dist Z) start (v : Z),
  lens d = counts_of (length (glob d)) (length d) /\
  py_slice (Some start) None None (Z.of_nat (length (glob d))) = [4; 5] /\
  glob (map (setitem_slice d (Some start) None None v) (seq 0 (length d))) = [0; v; v; v; v; v].
Proof. exists [[0;1;2]; [3;4;5]], (-2), 9. vm_compute. repeat split. Qed.
Print Assumptions C15_setitem_negative_start_refuted.
(** (b) on an unbalanced array the chunk arithmetic addresses the wrong elements *)
Theorem C15_setitem_unbalanced_refuted : exists (d : dist Z) (v : Z),
  glob d = [0;1;2;3] /\ glob (map (setitem_slice d (Some 2) (Some 3) None v) (seq 0 (length d))) = [0;v;2;3].
Proof. exists [[0]; [1;2;3]], 9. vm_compute. repeat split. Qed.
Print Assumptions C15_setitem_unbalanced_refuted.
(** (c) an out-of-range integer raises nothing on any rank and writes nothing *)
Theorem C15_setitem_out_of_range_silent : forall A (d : dist A) (key : Z) (v : A) r,
  let n := Z.of_nat (length (glob d)) in
  (0 < length d)%nat -> (r < length d)%nat -> ~ (- n <= key < n) -> setitem_int d key v r = Ok (nth r d []).
Proof. exact setitem_int_oob. Qed.
Print Assumptions C15_setitem_out_of_range_silent.

(** C49: bool(x), int(x), float(x), complex(x): every rank gets the cast of the one
    element, wherever it is stored; TypeError for any other number of elements. *)
Theorem C49_cast : forall A B (f : A -> B) (d : dist A) x, glob d = [x] -> cast f d = Ok (f x).
Proof. exact cast_lemma. Qed.
Print Assumptions C49_cast.
Theorem C49_cast_rejects : forall A B (f : A -> B) (d : dist A), length (glob d) <> 1%nat -> cast f d = Err TypeError.
Proof. exact cast_bad. Qed.
Print Assumptions C49_cast_rejects.
Example C49_instance : cast Z.odd [[]; []; [7]; []] = Ok true.
Proof. reflexivity. Qed.
