(** C44: operations that change the shape keep element values and split consistent.
    [represents G gsh split cnts locals]: the local arrays together are the global
    array [G] of shape [gsh], cut along [split] into pieces of extents [cnts]. *)
From Verif Require Import Base ShapeSpec LayoutModel NdSpec TensorSpec TensorLemmas RedistModel OpsModel ShapeModel ShapeProofs ShapeProofs2 ShapeProofs3 ShapeProofs4 ShapeProofs5 ShapeProofs6.
From Coq Require Import Sorted.
Open Scope Z_scope.

Definition rep {A} (x : dnd A) (cnts : list Z) (G : list Z -> A) : Prop :=
  represents G (d_gshape x) (d_split x) cnts (d_locals x).

(** ht.transpose(x, axes): y[idx[axes[0]], idx[axes[1]], ...] = x[idx]; the split axis
    is the position of the old split in [axes]; no data moves between ranks. *)
Theorem C44_transpose : forall (A : Type) (x : dnd A) (G : list Z -> A) (cnts axes' : list Z),
  rep x cnts G ->
  let n := length (d_gshape x) in
  let axes := map (norm n) axes' in
  (forall a, In a axes' -> valid_axis n a) -> perm_axes n axes ->
  exists y G', transpose x (Some axes') = Ok y /\
    d_gshape y = map (fun a => nth a (d_gshape x) 0) axes /\
    match d_split x with None => d_split y = None
                       | Some s => exists p, d_split y = Some p /\ nth_error axes p = Some s end /\
    rep y cnts G' /\
    forall idx, in_bounds (d_gshape x) idx -> G' (map (fun a => nth a idx 0) axes) = G idx.
Proof.
  intros A x G cnts l HR n axes V P.
  destruct (transpose_ok x G cnts l axes HR V eq_refl P) as (y & E & E1 & E2 & R).
  exists y, (fun idx' => G (inv_idx axes idx')). repeat (split; auto).
  intros idx Hi. f_equal. apply (inv_pidx n axes P idx). now apply in_bounds_length in Hi.
Qed.
Print Assumptions C44_transpose.

(** ht.transpose(x) reverses the axes. *)
Theorem C44_transpose_default : forall (A : Type) (x : dnd A) (G : list Z -> A) (cnts : list Z),
  rep x cnts G ->
  exists y G', transpose x None = Ok y /\ d_gshape y = rev (d_gshape x) /\
    d_split y = option_map (fun s => (length (d_gshape x) - 1 - s)%nat) (d_split x) /\
    rep y cnts G' /\ forall idx, in_bounds (d_gshape x) idx -> G' (rev idx) = G idx.
Proof.
  intros A x G cnts HR. set (n := length (d_gshape x)). set (o := rev (seq 0 n)).
  assert (P : perm_axes n o).
  { split; [unfold o; now rewrite rev_length, seq_length|]. split; [apply NoDup_rev, seq_NoDup|].
    intros k. unfold o. rewrite <- in_rev, in_seq. lia. }
  assert (M : forall l : list Z, length l = n -> map (fun a => nth a l 0) o = rev l).
  { intros l Hl. unfold o. rewrite map_rev. f_equal. rewrite <- Hl. apply BaseLemmas.map_nth_seq. }
  destruct (transpose_nat x G cnts o HR P) as (y & G' & E & Eg & Es & R & I).
  exists y, G'. split.
  { rewrite <- E. unfold transpose. fold n. fold o. rewrite map_length.
    replace (length o) with n by (unfold o; now rewrite rev_length, seq_length). rewrite Nat.eqb_refl. cbn [bind].
    replace (map (fun a => if a <? 0 then a + Z.of_nat n else a) (map Z.of_nat o)) with (map Z.of_nat o); auto.
    rewrite map_map. apply map_ext. intros k. destruct (Z.ltb_spec (Z.of_nat k) 0); lia. }
  split; [rewrite Eg; now apply M|]. split; [|split; auto].
  - destruct (d_split x) as [s|] eqn:Esx; [|auto]. destruct Es as (p & -> & Ep). cbn. f_equal.
    assert (Hp : (p < n)%nat) by (replace n with (length o) by (unfold o; now rewrite rev_length, seq_length); apply nth_error_Some; congruence).
    apply nth_error_nth with (d:=0%nat) in Ep. unfold o in Ep. rewrite rev_nth, seq_length, seq_nth in Ep; rewrite ?seq_length; lia.
  - intros idx Hi. rewrite <- M; [auto|]. now apply in_bounds_length in Hi.
Qed.
Print Assumptions C44_transpose_default.

(** Axes in range that are not a permutation are rejected. *)
Theorem C44_transpose_rejects : forall (A : Type) (x : dnd A) (axes : list Z),
  (forall a, In a axes -> valid_axis (length (d_gshape x)) a) ->
  ~ perm_axes (length (d_gshape x)) (map (norm (length (d_gshape x))) axes) ->
  exists e, transpose x (Some axes) = Err e.
Proof.
  intros A x l V N. destruct (transpose x (Some l)) as [y|e] eqn:E; [|eauto]. exfalso.
  apply transpose_only_perm in E as [E|(a & Ha & L)]; [auto|]. specialize (V a Ha). unfold valid_axis in V. lia.
Qed.
Print Assumptions C44_transpose_rejects.

(** ht.expand_dims(x, axis) for one axis or an increasing tuple: the new axes have extent
    1, removing them gives back the old shape, index and split. *)
Theorem C44_expand_dims_partial : forall (A : Type) (x : dnd A) (G : list Z -> A) (cnts : list Z) (axis : axis_arg) (axes : list nat),
  rep x cnts G ->
  let n := length (d_gshape x) in
  match axis with
  | AxInt a => valid_axis (n + 1) a /\ axes = [norm (n + 1) a]
  | AxTuple l => l <> [] /\ (forall a, In a l -> valid_axis (n + length l) a) /\ axes = map (norm (n + length l)) l
  | _ => False
  end ->
  StronglySorted lt axes ->
  exists y, expand_dims x axis = Ok y /\
    length (d_gshape y) = (n + length axes)%nat /\ drop_axes axes (d_gshape y) = d_gshape x /\
    (forall k, In k axes -> nth k (d_gshape y) 0 = 1) /\
    rep y cnts (fun idx => G (drop_axes axes idx)) /\
    match d_split x with
    | None => d_split y = None
    | Some s => exists s', d_split y = Some s' /\ nth_error (drop_axes axes (seq 0 (n + length axes))) s = Some s'
    end.
Proof. intros A x G cnts axis axes HR n. apply (expand_dims_ok x G cnts axis axes HR). Qed.
Print Assumptions C44_expand_dims_partial.

(** The restriction to increasing axes is needed: for axis=(2,0) on a 2-D array of shape
    (a,b) the result should have shape (1,a,1,b) (new axes at positions 0 and 2), but the
    new axes end up at 0 and 3. *)
Definition exp_in : dnd Z := mk_dnd [mk_arr [5; 7] (fun idx => dot idx [7; 1])] [5; 7] None.
Theorem C44_expand_dims_unsorted_refuted :
  rep exp_in [5] (fun idx => dot idx [7; 1]) /\
  exists y, expand_dims exp_in (AxTuple [2; 0]) = Ok y /\ d_gshape y = [1; 5; 7; 1] /\ nth 2 (d_gshape y) 0 <> 1 /\
    drop_axes [2%nat; 0%nat] (d_gshape y) <> d_gshape exp_in.
Proof.
  split.
  - split; [reflexivity|]. split; [repeat constructor; lia|]. intros t [<-|[]]. split; [reflexivity|auto].
  - eexists. split; [vm_compute; reflexivity|]. split; [reflexivity|]. split; vm_compute; congruence.
Qed.
Print Assumptions C44_expand_dims_unsorted_refuted.

(** ht.squeeze(x, axis): exactly the requested axes of extent 1 disappear, every element
    keeps its value, and a split axis that survives is tracked. [x'] is the input after
    the call: it still denotes the same global array. *)
Theorem C44_squeeze : forall (A : Type) (d : A) (x : dnd A) (G : list Z -> A) (cnts : list Z) (axis : axis_arg) (axes : list nat),
  (0 < length (d_gshape x))%nat -> rep x cnts G ->
  squeeze_axes (d_gshape x) axis axes -> NoDup axes ->
  exists y x' G', squeeze d x axis = Ok (y, x') /\
    d_gshape y = drop_axes axes (d_gshape x) /\ rep y cnts G' /\
    (forall idx, in_bounds (d_gshape x) idx -> G' (drop_axes axes idx) = G idx) /\
    match d_split x with
    | None => d_split y = None
    | Some s => (In s axes -> d_split y = None) /\
        (~ In s axes -> exists s', d_split y = Some s' /\ nth_error (drop_axes axes (seq 0 (length (d_gshape x)))) s' = Some s)
    end /\
    d_gshape x' = d_gshape x /\ rep x' cnts G.
Proof.
  intros A d x G cnts axis axes Hn HR HA ND.
  destruct (squeeze_ok d x G cnts axis axes Hn HR HA ND) as (y & x' & E & E1 & (G' & R & I) & S & E2 & R2).
  exists y, x', G'. repeat (split; auto).
Qed.
Print Assumptions C44_squeeze.

(** ... but squeeze may replicate its INPUT in place (x.resplit_(None)) although it is
    documented as returning a new array: the caller's array loses its split. *)
Definition sq_in : dnd Z :=
  mk_dnd [mk_arr [1; 3] (fun idx => nth 1 idx 0); mk_arr [0; 3] (fun idx => 0)] [1; 3] (Some 0%nat).
Theorem C44_squeeze_side_effect_refuted :
  rep sq_in [1; 0] (fun idx => nth 1 idx 0) /\
  exists y x', squeeze 0 sq_in (AxInt 0) = Ok (y, x') /\ d_split sq_in = Some 0%nat /\ d_split x' = None.
Proof.
  split.
  - split; [reflexivity|]. split; [repeat constructor; lia|]. split; [simpl; lia|]. split; [repeat constructor; lia|]. split; [reflexivity|].
    intros [|[|r]] t; simpl; intros E; try (injection E as <-).
    + split; [reflexivity|]. intros [|a [|b l]] _; reflexivity.
    + split; [reflexivity|]. intros idx H. exfalso. apply in_bounds_nth in H as [_ H]. specialize (H 0%nat ltac:(simpl; lia)). simpl in H. lia.
    + destruct r; discriminate.
  - do 2 eexists. split; [vm_compute; reflexivity|]. split; reflexivity.
Qed.
Print Assumptions C44_squeeze_side_effect_refuted.

(** ht.moveaxis(x, source, destination): the axis source[i] becomes axis destination[i],
    the other axes keep their relative order. *)
Theorem C44_moveaxis : forall (A : Type) (x : dnd A) (G : list Z -> A) (cnts src dst : list Z),
  rep x cnts G ->
  let n := length (d_gshape x) in
  let s := map (norm n) src in let d := map (norm n) dst in
  (0 < n)%nat -> length src = length dst ->
  (forall a, In a src -> valid_axis n a) -> (forall a, In a dst -> valid_axis n a) -> NoDup s -> NoDup d ->
  exists order y G', moveaxis x src dst = Ok y /\ perm_axes n order /\
    (forall i si di, nth_error s i = Some si -> nth_error d i = Some di -> nth di order 0%nat = si) /\
    drop_axes d order = drop_axes s (seq 0 n) /\
    d_gshape y = map (fun a => nth a (d_gshape x) 0) order /\
    match d_split x with None => d_split y = None
                       | Some sp => exists p, d_split y = Some p /\ nth_error order p = Some sp end /\
    rep y cnts G' /\
    forall idx, in_bounds (d_gshape x) idx -> G' (map (fun a => nth a idx 0) order) = G idx.
Proof. intros A x G cnts src dst HR n s d Hn HL Bs Bd Ns Nd. exact (moveaxis_ok x G cnts src dst HR Hn HL Bs Bd Ns Nd). Qed.
Print Assumptions C44_moveaxis.
Example C44_moveaxis_instance :
  let x := mk_dnd [mk_arr [2; 3; 4] (fun idx => dot idx [12; 4; 1]); mk_arr [2; 3; 4] (fun idx => dot (move_axis_idx 2 4 idx) [24; 8; 1])] [2; 3; 8] (Some 2%nat) in
  exists y, moveaxis x [0] [-1] = Ok y /\ d_gshape y = [3; 8; 2] /\ d_split y = Some 1%nat.
Proof. eexists. split; [vm_compute; reflexivity|]. split; reflexivity. Qed.

Theorem C44_swapaxes : forall (A : Type) (x : dnd A) (G : list Z -> A) (cnts : list Z) (a1 a2 : Z),
  rep x cnts G ->
  let n := length (d_gshape x) in
  valid_axis n a1 -> valid_axis n a2 ->
  let p1 := norm n a1 in let p2 := norm n a2 in
  exists y G', swapaxes x a1 a2 = Ok y /\
    d_gshape y = swap_list 0 p1 p2 (d_gshape x) /\
    d_split y = option_map (fun s => if (s =? p1)%nat then p2 else if (s =? p2)%nat then p1 else s) (d_split x) /\
    rep y cnts G' /\
    forall idx, in_bounds (d_gshape x) idx -> G' (swap_list 0 p1 p2 idx) = G idx.
Proof. intros A x G cnts a1 a2 HR n B1 B2. exact (swapaxes_ok x G cnts a1 a2 HR B1 B2). Qed.
Print Assumptions C44_swapaxes.

(** ht.flatten(x): the elements in row-major order of the global array, in the balanced
    layout, for every split axis and every (also unbalanced) layout of x. *)
Theorem C44_flatten : forall (A : Type) (d : A) (x : dnd A) (G : list Z -> A) (cnts : list Z),
  rep x cnts G ->
  let P := length (d_locals x) in
  let elements := map G (row_major (d_gshape x)) in
  (0 < P)%nat ->
  exists y sp, flatten d P x = Ok (y, sp) /\ length y = P /\
   match d_split x with
   | None => sp = None /\ forall l, In l y -> l = elements
   | Some _ => sp = Some 0%nat /\ glob y = elements /\ lens y = counts_of (length elements) P
   end.
Proof.
  intros A d x G cnts HR P elements HP. destruct (flatten_ok d x G cnts HR HP) as (y & E & L & H).
  exists y. eexists. split; [exact E|]. split; [auto|]. unfold elements. rewrite map_length. destruct (d_split x); split; auto.
Qed.
Print Assumptions C44_flatten.
Example C44_flatten_instance :
  let x := mk_dnd [mk_arr [2; 1] (fun idx => dot idx [3; 1]); mk_arr [2; 2] (fun idx => dot idx [3; 1] + 1)] [2; 3] (Some 1%nat) in
  rep x [1; 2] (fun idx => dot idx [3; 1]) /\ flatten 0 2 x = Ok ([[0; 1; 2]; [3; 4; 5]], Some 0%nat).
Proof.
  cbn zeta. split.
  - split; [reflexivity|]. split; [repeat constructor; lia|]. split; [simpl; lia|]. split; [repeat constructor; lia|]. split; [reflexivity|].
    intros [|[|r]] t; simpl; intros E; try (injection E as <-); try (destruct r; discriminate); (split; [reflexivity|]);
    intros idx H; apply in_bounds_nth in H as [L _]; destruct idx as [|a [|b [|]]]; simpl in L; try discriminate; simpl; lia.
  - vm_compute. reflexivity.
Qed.

(** ht.stack of at least two arrays of equal shape, split and layout. *)
Theorem C44_stack : forall (A : Type) (d : A) (xs : list (dnd A)) (Gs : list (list Z -> A)) (gsh : list Z) (split : option nat) (cnts : list Z) (a : Z),
  (2 <= length xs)%nat ->
  Forall2 (fun x G => d_gshape x = gsh /\ d_split x = split /\ rep x cnts G) xs Gs ->
  valid_axis (length gsh + 1) a ->
  let k := norm (length gsh + 1) a in
  exists y G', stack d xs (AxInt a) = Ok y /\
    drop_axes [k] (d_gshape y) = gsh /\ nth k (d_gshape y) 0 = Z.of_nat (length xs) /\
    d_split y = option_map (bump k) split /\ rep y cnts G' /\
    forall idx, in_bounds (d_gshape y) idx -> G' idx = nth (Z.to_nat (nth k idx 0)) Gs (fun _ => d) (drop_axes [k] idx).
Proof.
  intros A d xs Gs gsh split cnts a H2 HF Ha k.
  destruct (stack_ok d xs Gs gsh split cnts a H2) as (y & E & Eg & Es & R); auto.
  { clear - HF. induction HF as [|x G xs Gs (E1 & E2 & R) HF IH]; constructor; auto. unfold rep in R. rewrite E1, E2 in R. auto. }
  pose proof (norm_lt _ _ Ha) as Hk. fold k in Hk, Eg, Es, R.
  assert (D1 : forall l : list Z, (k < length l)%nat -> drop_axes [k] l = remove_at k l).
  { intros l Hl. transitivity (drop_axes [] (remove_at k l)); [apply (drop_axes_snoc [] k l); auto; intros ? []|].
    generalize (remove_at k l). intros m. unfold drop_axes. generalize 0%nat. induction m as [|x m IH]; intros i; simpl; auto. now rewrite IH. }
  exists y. eexists. split; [exact E|]. split; [|split; [|split; [exact Es|split; [exact R|]]]].
  - rewrite Eg, D1 by (rewrite py_insert_length; lia). apply remove_insert. lia.
  - rewrite Eg, py_insert_nth by lia. now rewrite Nat.ltb_irrefl, Nat.eqb_refl.
  - intros idx Hi. cbn beta. rewrite D1; auto. apply in_bounds_length in Hi. rewrite Hi, Eg, py_insert_length. lia.
Qed.
Print Assumptions C44_stack.
