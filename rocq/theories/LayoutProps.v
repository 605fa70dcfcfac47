(** Property theorems C01-C05 (see properties.jsonl).  Spec: LayoutSpec.v, PySpec.v. *)
From Verif Require Import Base PySpec LayoutModel LayoutSpec LayoutProofs.
From Coq Require Import Permutation.

(** C01: the slices of all ranks tile the split axis in rank order, the returned
    offset and local shape agree with the slice, other axes are untouched.  [a] is
    the axis as the user wrote it (possibly negative), [s] the axis it means. *)
Theorem C01_chunk_partition : forall shape a s P,
  0 < P -> s < length shape ->
  (a = Z.of_nat s \/ a = Z.of_nat s - Z.of_nat (length shape))%Z ->
  exists cs : list (nat * list nat * list (nat * nat)),
    length cs = P /\
    (forall r, r < P -> chunk shape (AxInt a) r P = Ok (nth r cs (0, [], []))) /\
    tiles (map (fun c => nth s (snd c) (0, 0)) cs) (nth s shape 0) /\
    (forall r, r < P ->
       let '(off, lshape, slices) := nth r cs (0, [], []) in
       length lshape = length shape /\ length slices = length shape /\
       off = fst (nth s slices (0, 0)) /\
       nth s lshape 0 = snd (nth s slices (0, 0)) - fst (nth s slices (0, 0)) /\
       (forall k, k < length shape -> k <> s ->
          nth k lshape 0 = nth k shape 0 /\ nth k slices (0, 0) = (0, nth k shape 0))).
Proof. exact chunk_partition_lemma. Qed.
Print Assumptions C01_chunk_partition.
Example C01_instance : 0 < 3 /\ 1 < length [4; 7; 2] /\
  chunk [4; 7; 2] (AxInt (-2)) 1 3 = Ok (3, [4; 2; 2], [(0, 4); (3, 5); (0, 2)]).
Proof. repeat split; simpl; auto; lia. Qed.

Theorem C01_chunk_balanced : forall shape a s P r1 r2 o1 l1 sl1 o2 l2 sl2,
  0 < P -> s < length shape ->
  (a = Z.of_nat s \/ a = Z.of_nat s - Z.of_nat (length shape))%Z ->
  r1 <= r2 < P ->
  chunk shape (AxInt a) r1 P = Ok (o1, l1, sl1) ->
  chunk shape (AxInt a) r2 P = Ok (o2, l2, sl2) ->
  nth s l2 0 <= nth s l1 0 <= nth s l2 0 + 1.
Proof. exact chunk_balance_lemma. Qed.
Print Assumptions C01_chunk_balanced.
Example C01_balanced_instance : exists o1 l1 s1 o2 l2 s2,
  chunk [7] (AxInt 0) 0 3 = Ok (o1, l1, s1) /\ chunk [7] (AxInt 0) 2 3 = Ok (o2, l2, s2) /\
  l1 = [3] /\ l2 = [2].
Proof. do 6 eexists; repeat split. Qed.

Theorem C01_chunk_unsplit : forall shape split r P,
  (split = AxNone \/ shape = []) ->
  chunk shape split r P = Ok (0, shape, map (fun e => (0, e)) shape).
Proof. exact chunk_none_lemma. Qed.
Print Assumptions C01_chunk_unsplit.

Theorem C01_chunk_sparse_agrees : forall n r P, 0 < P -> r < P ->
  exists off l sl, chunk [n] (AxInt 0) r P = Ok (off, l, sl) /\
     chunk_sparse n r P = (off, off + nth 0 l 0).
Proof. exact chunk_sparse_lemma. Qed.
Print Assumptions C01_chunk_sparse_agrees.

(** C02 *)
Theorem C02_counts_displs_agree_with_chunk : forall shape s r0 P,
  0 < P -> s < length shape -> r0 < P ->
  let '(counts, displs, oshape) := counts_displs_shape shape s r0 P in
  length counts = P /\ length displs = P /\
  list_sum counts = nth s shape 0 /\
  tiles (map (fun cd => (snd cd, snd cd + fst cd)) (combine counts displs)) (nth s shape 0) /\
  (forall r, r < P -> exists l sl,
     chunk shape (AxInt (Z.of_nat s)) r P = Ok (nth r displs 0, l, sl) /\ nth s l 0 = nth r counts 0) /\
  oshape = upd shape s (P * nth r0 counts 0).
Proof. exact counts_displs_lemma. Qed.
Print Assumptions C02_counts_displs_agree_with_chunk.
Example C02_instance : counts_displs_shape [5; 10] 1 0 4 = ([3; 3; 2; 2], [0; 3; 6; 8], [5; 12]).
Proof. reflexivity. Qed.

(** C03 *)
Theorem C03_sanitize_axis_int : forall ndim a, 0 < ndim ->
  (forall b, sanitize_axis ndim (AxInt a) = Ok (AxInt b) <->
     (- Z.of_nat ndim <= a < Z.of_nat ndim /\ 0 <= b < Z.of_nat ndim /\ b = a mod Z.of_nat ndim)%Z)
  /\ (~ (- Z.of_nat ndim <= a < Z.of_nat ndim)%Z -> sanitize_axis ndim (AxInt a) = Err ValueError).
Proof. exact sanitize_axis_int_iff. Qed.
Print Assumptions C03_sanitize_axis_int.
Theorem C03_sanitize_axis_tuple : forall ndim l, 0 < ndim ->
  ((forall a, In a l -> (- Z.of_nat ndim <= a < Z.of_nat ndim)%Z) ->
     sanitize_axis ndim (AxTuple l) = Ok (AxTuple (map (fun a => (a mod Z.of_nat ndim)%Z) l)))
  /\ ((exists a, In a l /\ ~ (- Z.of_nat ndim <= a < Z.of_nat ndim)%Z) ->
     sanitize_axis ndim (AxTuple l) = Err ValueError).
Proof. exact sanitize_axis_tuple_iff. Qed.
Print Assumptions C03_sanitize_axis_tuple.
Theorem C03_sanitize_axis_idempotent : forall ndim ax b,
  sanitize_axis ndim ax = Ok b -> sanitize_axis ndim b = Ok b.
Proof. exact sanitize_axis_idem. Qed.
Print Assumptions C03_sanitize_axis_idempotent.
Theorem C03_sanitize_axis_other : forall ndim,
  sanitize_axis ndim AxNone = Ok AxNone /\
  (0 < ndim -> sanitize_axis ndim AxOther = Err TypeError) /\
  (forall ax, sanitize_axis 0 ax = Ok AxNone).
Proof. exact sanitize_axis_misc. Qed.
Print Assumptions C03_sanitize_axis_other.
Example C03_instance : sanitize_axis 3 (AxInt (-1)) = Ok (AxInt 2) /\ sanitize_axis 3 (AxInt 3) = Err ValueError
  /\ sanitize_axis 3 (AxTuple [0; -1]%Z) = Ok (AxTuple [0; 2]%Z).
Proof. repeat split. Qed.

(** C04 *)
Theorem C04_broadcast_is_numpy : forall a b,
  (forall c, broadcast_shape a b = Ok c <-> compatible a b /\ is_broadcast a b c) /\
  (~ compatible a b -> broadcast_shape a b = Err ValueError).
Proof. exact broadcast_shape_iff. Qed.
Print Assumptions C04_broadcast_is_numpy.
Theorem C04_broadcast_comm : forall a b, broadcast_shape a b = broadcast_shape b a.
Proof. exact broadcast_comm. Qed.
Print Assumptions C04_broadcast_comm.
Theorem C04_broadcast_assoc : forall a b c,
  (do ab <- broadcast_shape a b; broadcast_shape ab c) =
  (do bc <- broadcast_shape b c; broadcast_shape a bc).
Proof. exact broadcast_assoc. Qed.
Print Assumptions C04_broadcast_assoc.
Theorem C04_broadcast_unit_idem : forall a, broadcast_shape a [] = Ok a /\ broadcast_shape a a = Ok a.
Proof. exact broadcast_unit. Qed.
Print Assumptions C04_broadcast_unit_idem.
Theorem C04_broadcast_order_irrelevant : forall s1 s2,
  Permutation s1 s2 -> broadcast_shapes s1 = broadcast_shapes s2.
Proof. exact broadcast_shapes_perm. Qed.
Print Assumptions C04_broadcast_order_irrelevant.
Example C04_instance : broadcast_shape [8; 1; 6; 1] [7; 1; 5] = Ok [8; 7; 6; 5]
  /\ broadcast_shape [4; 1] [8; 4; 3] = Ok [8; 4; 3] /\ broadcast_shape [2; 1] [8; 4; 3] = Err ValueError.
Proof. repeat split. Qed.

(** C05: holds for positive steps and bounds >= -n; the full claim is false. *)
Theorem C05_sanitize_slice_partial : forall start stop step n,
  (0 <= n)%Z -> (0 < py_step step)%Z ->
  (forall x, start = Some x -> (- n <= x)%Z) -> (forall x, stop = Some x -> (- n <= x)%Z) ->
  let '(a, b, s) := sanitize_slice start stop step n in
  (0 <= a)%Z /\ (0 <= b)%Z /\ s = py_step step /\
  py_slice (Some a) (Some b) (Some s) n = py_slice start stop step n.
Proof. exact sanitize_slice_ok. Qed.
Print Assumptions C05_sanitize_slice_partial.
Example C05_instance : (0 <= 10 /\ 0 < py_step (Some 3) /\ (forall x, Some (-9) = Some x -> -10 <= x) /\
  sanitize_slice (Some (-9)) None (Some 3) 10 = (1, 10, 3))%Z.
Proof. repeat split; try lia. intros x [= <-]; lia. Qed.
(** slice(-7, None) of a length-5 array is the whole array; sanitize_slice turns it
    into slice(-2, 5), i.e. the last two elements; a negative step with default
    bounds becomes empty. *)
Theorem C05_sanitize_slice_refuted :
  (let '(a, b, s) := sanitize_slice (Some (-7)) None None 5 in
   py_slice (Some a) (Some b) (Some s) 5 <> py_slice (Some (-7)) None None 5)%Z /\
  (let '(a, b, s) := sanitize_slice None None (Some (-1)) 5 in
   py_slice (Some a) (Some b) (Some s) 5 <> py_slice None None (Some (-1)) 5)%Z.
Proof. exact sanitize_slice_bad. Qed.
Print Assumptions C05_sanitize_slice_refuted.
