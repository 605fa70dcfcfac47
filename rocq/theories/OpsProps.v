(** C22 (cumulative operations) and C23 (reductions). *)
From Verif Require Import Base BaseLemmas LayoutModel NdSpec TensorSpec OpsModel OpsProofs OpsProofs5 OpsProofs6.
Open Scope Z_scope.

(** C22.  Scanning along the split axis: for every layout, empty ranks included, the
    k-th global slab of the result combines the global slabs 0..k, and no slab moves to
    another rank.  [op] with neutral element [e] is any commutative monoid (sums and
    products of exact or wrap-around integers, element-wise on slabs). *)
Theorem C22_cumulative : forall (A : Type) (op : A -> A -> A) (e : A) ndim s (d : dist A) scan_in,
  (forall x, op e x = x) -> (forall x y, op x y = op y x) ->
  (forall x y z, op x (op y z) = op (op x y) z) ->
  (s < ndim)%nat ->
  exists d', cum_op_axis op e scan_in ndim (Some s) (AxInt (Z.of_nat s)) d = Ok d' /\
    lens d' = lens d /\
    forall k x, (k < length (glob d))%nat ->
      nth k (glob d') x = fold_left op (firstn (S k) (glob d)) e.
Proof.
  intros A op e ndim s d scan_in H1 H2 H3 Hs.
  exact (cum_op_statement A op e H1 H2 H3 ndim s d scan_in Hs).
Qed.
Print Assumptions C22_cumulative.

(** Along any other axis every slab is scanned on its own; axis=None is refused. *)
Theorem C22_cumulative_other_axis : forall (A : Type) (op : A -> A -> A) (e : A) ndim split a (d : dist A) scan_in,
  (a < ndim)%nat -> split <> Some a ->
  exists d', cum_op_axis op e scan_in ndim split (AxInt (Z.of_nat a)) d = Ok d' /\
    lens d' = lens d /\ glob d' = map (scan_in (Z.of_nat a)) (glob d).
Proof. exact cum_op_other. Qed.
Print Assumptions C22_cumulative_other_axis.
Theorem C22_cumulative_axis_none : forall (A : Type) (op : A -> A -> A) (e : A) ndim split (d : dist A) scan_in,
  cum_op_axis op e scan_in ndim split AxNone d = Err NotImplementedErr.
Proof. reflexivity. Qed.
Print Assumptions C22_cumulative_axis_none.
Example C22_example : cum_op Z.add 0 [[1; 2]; []; [3]; []; [4; 5]] = [[1; 3]; []; [6]; []; [10; 15]].
Proof. reflexivity. Qed.

(** C23.  Reduction over a set of axes, dimensions dropped.  [represents G gsh split cnts
    locals] says that the local arrays are the global array [G] of shape [gsh], cut along
    [split] into pieces [cnts] (any layout, empty pieces included).  Every element of the
    result is the combination of all global elements that map to it, and the reported
    split axis is the old one, renumbered among the surviving axes.  [strict] marks max
    and min, which torch refuses on empty tensors. *)
Theorem C23_reduce_partial : forall (A : Type) (ok : A -> Prop) (op : A -> A -> A) (e : A),
  comm_monoid ok op e -> forall strict gsh split cnts locals G axis axes,
  represents G gsh split cnts locals -> (forall i, in_bounds gsh i -> ok (G i)) ->
  axes_of (length gsh) axis = Ok (Some axes) -> NoDup axes ->
  length gsh <> 1%nat -> (exists d, (d < length gsh)%nat /\ ~ In d axes) ->
  (strict = true -> Forall (fun n => 1 <= n) gsh /\
     match split with Some s => In s axes \/ Forall (fun c => 1 <= c) cnts | None => True end) ->
  exists r, reduce_op op e e strict gsh split locals axis false = Ok r /\
    r_gshape r = drop_axes axes gsh /\
    represents (reduce_drop op e G gsh axes) (drop_axes axes gsh) (r_split r) cnts (r_locals r) /\
    match split with
    | None => r_split r = None
    | Some s => (In s axes -> r_split r = None) /\
                (~ In s axes -> exists s', r_split r = Some s' /\
                                 nth_error (drop_axes axes (seq 0 (length gsh))) s' = Some s)
    end.
Proof. exact reduce_drop_statement. Qed.
Print Assumptions C23_reduce_partial.

Theorem C23_reduce_keepdims_partial : forall (A : Type) (ok : A -> Prop) (op : A -> A -> A) (e : A),
  comm_monoid ok op e -> forall strict gsh split cnts locals G axis axes,
  represents G gsh split cnts locals -> (forall i, in_bounds gsh i -> ok (G i)) ->
  axes_of (length gsh) axis = Ok (Some axes) -> NoDup axes ->
  (strict = true -> Forall (fun n => 1 <= n) gsh /\
     match split with Some s => In s axes \/ Forall (fun c => 1 <= c) cnts | None => True end) ->
  exists r, reduce_op op e e strict gsh split locals axis true = Ok r /\
    r_gshape r = fill_axes axes 1 gsh /\
    represents (reduce_keep op e G gsh axes) (fill_axes axes 1 gsh) (r_split r) cnts (r_locals r) /\
    match split with
    | None => r_split r = None
    | Some s => r_split r = if existsb (Nat.eqb s) axes then None else Some s
    end.
Proof. exact reduce_keep_statement. Qed.
Print Assumptions C23_reduce_keepdims_partial.

(** axis=None: one number, known to every rank. *)
Theorem C23_reduce_all_partial : forall (A : Type) (ok : A -> Prop) (op : A -> A -> A) (e : A),
  comm_monoid ok op e -> forall neutral strict gsh split cnts locals G keepdims,
  neutral = e ->
  represents G gsh split cnts locals -> (forall i, in_bounds gsh i -> ok (G i)) ->
  (strict = true -> Forall (fun n => 1 <= n) gsh) ->
  exists r, reduce_op op e neutral strict gsh split locals AxNone keepdims = Ok r /\
    r_gshape r = [] /\ r_split r = None /\
    represents (fun _ => big op e (map G (row_major gsh))) [] None cnts (r_locals r).
Proof. exact reduce_op_none. Qed.
Print Assumptions C23_reduce_all_partial.

(** the monoids of sum, prod, all, any, max, min and of wrap-around sums *)
Example C23_monoids :
  comm_monoid (fun _ => True) Z.add 0 /\ comm_monoid (fun _ => True) Z.mul 1 /\
  comm_monoid (fun _ => True) andb true /\ comm_monoid (fun _ => True) orb false /\
  (forall lo, comm_monoid (fun x => lo <= x) Z.max lo) /\ (forall hi, comm_monoid (fun x => x <= hi) Z.min hi) /\
  comm_monoid (fun x => 0 <= x < 2 ^ 64) (fun x y => (x + y) mod 2 ^ 64) 0.
Proof. exact monoids. Qed.
(** a 3 x 2 array split along axis 0 as 2 | 0 | 1 rows: column sums *)
Example C23_example :
  let G := fun i => nth 0 i 0 * 10 + nth 1 i 0 in
  let ls := [mk_arr [2; 2] G; mk_arr [0; 2] (fun _ => 0); mk_arr [1; 2] (fun i => G (move_axis_idx 0 2 i))] in
  represents G [3; 2] (Some 0%nat) [2; 0; 1] ls /\
  match reduce_op Z.add 0 0 false [3; 2] (Some 0%nat) ls (AxInt (-2)) false with
  | Ok r => r_split r = None /\ map (fun t => (ash t, adat t [0], adat t [1])) (r_locals r) = repeat ([2], 30, 33) 3
  | Err _ => False
  end.
Proof. exact reduce_example. Qed.

(** ** Deviations of the code from the property *)

(** max with an empty rank: the empty rank is filled with -iinfo.max, which is not the
    smallest int32; the maximum of the one-element array [-2^31] over two processes is
    -2^31 + 1, a value that does not occur in the array. *)
Theorem C23_max_neutral_refuted :
  let lo := - 2 ^ 31 in
  let neutral := - (2 ^ 31 - 1) in
  let G := fun _ : list Z => lo in
  exists ls, represents G [1] (Some 0%nat) [1; 0] ls /\
    match reduce_op Z.max lo neutral true [1] (Some 0%nat) ls AxNone false with
    | Ok r => map (fun t => adat t []) (r_locals r) = [neutral; neutral] /\ neutral <> lo
    | Err _ => False
    end.
Proof. exact max_neutral_refuted. Qed.
Print Assumptions C23_max_neutral_refuted.

(** 1-dimensional arrays: sum(x, axis=0) has global shape (1,), not (). *)
Theorem C23_one_dimensional_shape_refuted : forall n split locals r,
  reduce_op Z.add 0 0 false [n] split locals (AxInt 0) false = Ok r -> r_gshape r = [1].
Proof. exact one_dim_refuted. Qed.
Print Assumptions C23_one_dimensional_shape_refuted.

(** all axes given explicitly: the global shape is () but the local arrays have shape (1,1). *)
Theorem C23_all_axes_shape_refuted : exists ls r,
  represents (fun _ => 1) [2; 2] (Some 0%nat) [1; 1] ls /\
  reduce_op Z.add 0 0 false [2; 2] (Some 0%nat) ls (AxTuple [0; 1]) false = Ok r /\
  r_gshape r = [] /\ map ash (r_locals r) = [[1; 1]; [1; 1]].
Proof. exact all_axes_refuted. Qed.
Print Assumptions C23_all_axes_shape_refuted.

(** repeated axes are accepted and counted twice in the split bookkeeping: the result
    of summing a (2,2,2) array split along axis 2 over axis (0,0) has shape (2,2) and
    claims to be split along axis 0, although it is cut along axis 1. *)
Theorem C23_repeated_axis_refuted : exists ls r,
  represents (fun _ => 1) [2; 2; 2] (Some 2%nat) [1; 1] ls /\
  reduce_op Z.add 0 0 false [2; 2; 2] (Some 2%nat) ls (AxTuple [0; 0]) false = Ok r /\
  r_gshape r = [2; 2] /\ r_split r = Some 0%nat /\ map ash (r_locals r) = [[2; 1]; [2; 1]].
Proof. exact repeated_axis_refuted. Qed.
Print Assumptions C23_repeated_axis_refuted.

(** max over a non-split axis when a rank is empty: that rank's local result keeps the
    unreduced shape (4,0) although the result is 1-dimensional. *)
Theorem C23_max_empty_rank_shape_refuted : exists ls r,
  represents (fun _ => 1) [4; 1] (Some 1%nat) [1; 0] ls /\
  reduce_op Z.max 0 0 true [4; 1] (Some 1%nat) ls (AxInt 0) false = Ok r /\
  r_gshape r = [1] /\ r_split r = Some 0%nat /\ map ash (r_locals r) = [[1]; [4; 0]].
Proof. exact max_empty_rank_refuted. Qed.
Print Assumptions C23_max_empty_rank_shape_refuted.
