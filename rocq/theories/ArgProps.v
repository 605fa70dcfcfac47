(** C24: argmax and argmin. *)
From Verif Require Import Base BaseLemmas LayoutModel LayoutProofs ArgModel ArgSpec ArgProofs.
From Coq Require Import Permutation.
Open Scope Z_scope.

Lemma reduce_tree_ext {S} (op : S -> S -> S) f g t : (forall r, In r (leaves t) -> f r = g r) -> reduce_tree op f t = reduce_tree op g t.
Proof.
  induction t as [r|a IHa b IHb]; cbn; intros H; [apply H; auto|].
  rewrite IHa, IHb; auto; intros; apply H; apply in_or_app; auto.
Qed.
Lemma covers_leaves t : forall lo hi r, covers t lo hi -> In r (leaves t) -> (lo <= r < hi)%nat.
Proof.
  induction t as [q|a IHa b IHb]; cbn; intros lo hi r; [intros [-> ->] [->|[]]; lia|].
  intros (m & [[H1 H2]|[H1 H2]]) I; pose proof (covers_lt _ _ _ H1); pose proof (covers_lt _ _ _ H2);
    apply in_app_or in I; destruct I as [I|I]; eauto; first [specialize (IHa _ _ _ H1 I)|specialize (IHa _ _ _ H2 I)|specialize (IHb _ _ _ H1 I)|specialize (IHb _ _ _ H2 I)]; lia.
Qed.

Section Both.
Variables (gt : Z -> Z -> bool) (key : Z -> Z) (low : Z).
Hypothesis Hgt : forall x y, gt x y = (key y <? key x).
Hypothesis Hlow : Z.abs low <= 2 ^ 53 /\ forall v, Z.abs v <= 2 ^ 53 -> key low <= key v.

Lemma arg_main neutral n L data t k :
  even_lanes n L data -> (0 < n)%nat -> (k < L)%nat ->
  (forall v, in_data data v -> Z.abs v <= 2 ^ 53) ->
  ((n < length data)%nat -> Z.abs neutral <= 2 ^ 53 /\ forall v, in_data data v -> key neutral <= key v) ->
  covers t 0 (length data) \/ (L = 1%nat /\ Permutation (leaves t) (seq 0 (length data))) ->
  let i := nth k (arg_split gt neutral (Z.of_nat n) data t) 0 in let l := global_lane data k in
  length l = n /\ 0 <= i < Z.of_nat n /\ (forall j, (j < n)%nat -> key (nth j l 0) <= key (nth (Z.to_nat i) l 0)) /\
  (forall j, Z.of_nat j < i -> key (nth j l 0) < key (nth (Z.to_nat i) l 0)).
Proof.
  intros (HP & HL & HD) Hn Hk HV HN HT. set (P := length data) in *.
  assert (Hrank : forall r, (r < P)%nat -> length (nth r data []) = L) by (intros r Hr; apply HD; auto).
  assert (Hlane : forall r k, (r < P)%nat -> (k < L)%nat -> length (nth k (nth r data []) []) = clen n r P).
  { intros r q Hr Hq. destruct (HD r Hr) as [_ H]. rewrite H by auto. now apply counts_of_nth. }
  assert (HI : forall r q v, (r < P)%nat -> (q < L)%nat -> In v (nth q (nth r data []) []) -> in_data data v).
  { intros r q v Hr Hq I. exists (nth r data []), (nth q (nth r data []) []). split; [apply nth_In; auto|]. split; [apply nth_In; rewrite Hrank; auto|auto]. }
  assert (LV : forall r, In r (leaves t) -> (r < P)%nat).
  { intros r I. destruct HT as [C|[_ Q]]; [apply (covers_leaves _ _ _ _ C) in I; lia|].
    apply (Permutation_in _ Q) in I. apply in_seq in I. lia. }
  (* replace the neutral element when it is not used *)
  pose (nu := if (n <? P)%nat then neutral else low).
  assert (EQ : arg_split gt neutral (Z.of_nat n) data t = arg_split gt nu (Z.of_nat n) data t).
  { unfold nu. destruct (Nat.ltb_spec n P) as [|Ge]; auto. unfold arg_split. f_equal. apply reduce_tree_ext.
    intros r Hr. apply LV in Hr. unfold local_arg. apply map_ext_in. intros l Hl.
    apply In_nth with (d := []) in Hl. destruct Hl as (q & Hq & El). rewrite Hrank in Hq by auto.
    pose proof (Hlane r q Hr Hq) as LL. rewrite El in LL. rewrite clen_val in LL. destruct l; [|reflexivity]. exfalso. cbn [length] in LL.
    assert (1 <= n / P)%nat by (apply Nat.div_le_lower_bound; lia). lia. }
  assert (HV' : forall r q v, (r < P)%nat -> (q < L)%nat -> In v (nth q (nth r data []) []) -> Z.abs v <= 2 ^ 53 /\ key nu <= key v).
  { intros r q v Hr Hq I. apply HI in I; auto. split; [auto|]. unfold nu. destruct (Nat.ltb_spec n P); [apply HN; auto|apply Hlow; auto]. }
  assert (HN' : forall r, (r < P)%nat -> clen n r P = 0%nat -> Z.abs nu <= 2 ^ 53).
  { intros. unfold nu. destruct (Nat.ltb_spec n P); [apply HN; auto|apply Hlow]. }
  cbv zeta. rewrite EQ. unfold arg_split. fold P.
  set (v := reduce_tree _ _ t).
  assert (SN : forall d, nth k (map snd v) d = snd (nth k v (0, 0)) \/ (length v <= k)%nat).
  { intros d. destruct (Nat.lt_ge_cases k (length v)); [left|auto]. rewrite nth_indep with (d' := snd (0, 0)) by (rewrite map_length; auto). apply map_nth. }
  assert (B : length v = L /\ lexbest key (group nu n data 0 P k) (nth k v (0, 0))).
  { destruct HT as [C|[L1 Q]].
    - destruct (reduce_contig gt key Hgt nu n L data HP HL Hrank Hlane HV' HN' t 0 P C ltac:(lia)) as [A B]. auto.
    - destruct (reduce_any gt key Hgt nu n L data HP HL Hrank Hlane HV' HN' t L1 LV) as [A B]. split; [exact A|].
      replace k with 0%nat by lia. destruct B as [(r & I & E) B]. split.
      + exists r. split; [apply LV in I; lia|exact E].
      + intros e (r' & Hr & E'). apply B. exists r'. split; [|exact E']. apply (Permutation_in _ (Permutation_sym Q)). apply in_seq. lia. }
  destruct B as [LVV B]. pose proof (best_global gt key Hgt nu n L data HP HL Hrank Hlane HV' HN' k _ Hn Hk B) as G. cbv zeta in G.
  destruct (SN 0) as [E|E]; [|lia]. rewrite E. exact G.
Qed.
End Both.

(** C24: the result in every lane is the first position of the maximum of the global lane.
    [t] is the tree in which MPI combined the ranks' contributions.
    Restrictions: the even layout; integers exactly representable as double (|v| <= 2^53);
    if there are empty ranks (n < P) the code's neutral element must not exceed the data;
    with several lanes the tree has to combine consecutive ranks. *)
Theorem C24_argmax_partial : forall neutral n L data t k,
  even_lanes n L data -> (0 < n)%nat -> (k < L)%nat ->
  (forall v, in_data data v -> Z.abs v <= 2 ^ 53) ->
  ((n < length data)%nat -> Z.abs neutral <= 2 ^ 53 /\ forall v, in_data data v -> neutral <= v) ->
  covers t 0 (length data) \/ (L = 1%nat /\ Permutation (leaves t) (seq 0 (length data))) ->
  is_argmax (global_lane data k) (nth k (arg_split greater neutral (Z.of_nat n) data t) 0).
Proof.
  intros neutral n L data t k HE Hn Hk HV HN HT.
  pose proof (arg_main greater (fun x => x) (- 2 ^ 53) (fun x y => eq_refl) ltac:(split; [|intros v Hv]; lia) neutral n L data t k HE Hn Hk HV HN HT) as (A & B & C & D).
  cbv zeta in *. split; [rewrite A; auto|]. rewrite A. auto.
Qed.
Print Assumptions C24_argmax_partial.
Theorem C24_argmin_partial : forall neutral n L data t k,
  even_lanes n L data -> (0 < n)%nat -> (k < L)%nat ->
  (forall v, in_data data v -> Z.abs v <= 2 ^ 53) ->
  ((n < length data)%nat -> Z.abs neutral <= 2 ^ 53 /\ forall v, in_data data v -> v <= neutral) ->
  covers t 0 (length data) \/ (L = 1%nat /\ Permutation (leaves t) (seq 0 (length data))) ->
  is_argmin (global_lane data k) (nth k (arg_split less neutral (Z.of_nat n) data t) 0).
Proof.
  intros neutral n L data t k HE Hn Hk HV HN HT.
  pose proof (arg_main less Z.opp (2 ^ 53) ltac:(intros x y; unfold less; lia) ltac:(split; [|intros v Hv]; lia) neutral n L data t k HE Hn Hk HV
    ltac:(intros H; destruct (HN H) as [H1 H2]; split; [auto|intros v Hv; specialize (H2 v Hv); lia]) HT) as (A & B & C & D).
  cbv zeta in *. split; [rewrite A; auto|]. rewrite A. split; intros j Hj; [specialize (C j Hj)|specialize (D j Hj)]; lia.
Qed.
Print Assumptions C24_argmin_partial.
Example C24_instance : let data := [[[3; 5]; [7; 7]]; [[5]; [7]]; [[1]; [9]]] in
  even_lanes 4 2 data /\ covers (Node (Leaf 2) (Node (Leaf 0) (Leaf 1))) 0 3 /\
  arg_split greater 0 4 data (Node (Leaf 2) (Node (Leaf 0) (Leaf 1))) = [1; 3].
Proof.
  cbv zeta. split; [|split; [|reflexivity]].
  - split; [cbn; lia|]. split; [lia|]. intros r Hr. cbn [length] in Hr. destruct r as [|[|[|r]]]; [| | |lia]; (split; [reflexivity|]);
      intros [|[|k]] Hk; first [reflexivity|lia].
  - cbn. exists 2%nat. right. split; [|split; auto]. exists 1%nat. left. auto.
Qed.

(** With several lanes a tree that combines non-consecutive ranks (allowed by MPI: the
    operator is declared commutative) can return a later position. *)
Theorem C24_commuted_tree_refuted :
  let data := [[[5]; [5]]; [[3]; [5]]; [[6]; [1]]] in
  even_lanes 3 2 data /\ Permutation (leaves (Node (Node (Leaf 0) (Leaf 2)) (Leaf 1))) (seq 0 3) /\
  arg_split greater 0 3 data (Node (Node (Leaf 0) (Leaf 2)) (Leaf 1)) = [2; 1] /\ global_lane data 1 = [5; 5; 1].
Proof.
  cbv zeta. split; [|split; [|split; reflexivity]].
  - split; [cbn; lia|]. split; [lia|]. intros r Hr. cbn [length] in Hr. destruct r as [|[|[|r]]]; [| | |lia]; (split; [reflexivity|]);
      intros [|[|k]] Hk; first [reflexivity|lia].
  - cbn. apply perm_skip. apply perm_swap.
Qed.
(** Large integers: the comparison happens in float64. *)
Theorem C24_double_refuted :
  arg_split greater 0 2 [[[2 ^ 53]]; [[2 ^ 53 + 1]]] (Node (Leaf 0) (Leaf 1)) = [0] /\
  global_lane [[[2 ^ 53]]; [[2 ^ 53 + 1]]] 0 = [2 ^ 53; 2 ^ 53 + 1].
Proof. split; vm_compute; reflexivity. Qed.
(** int8: the neutral element used for empty ranks is -127; an array of -128 gives an
    index outside the array. *)
Theorem C24_neutral_refuted :
  arg_split greater (-127) 1 [[[-128]]; [[]]] (Node (Leaf 0) (Leaf 1)) = [1] /\ global_lane [[[-128]]; [[]]] 0 = [-128].
Proof. split; vm_compute; reflexivity. Qed.
(** An unevenly distributed array: wrong offset. *)
Theorem C24_uneven_refuted :
  arg_split greater 0 4 [[[1]]; [[2; 9; 3]]] (Node (Leaf 0) (Leaf 1)) = [3] /\ global_lane [[[1]]; [[2; 9; 3]]] 0 = [1; 2; 9; 3].
Proof. split; vm_compute; reflexivity. Qed.
(** axis=None on a matrix split along axis 0 (rows 2 + 1) and along axis 1: wrong index *)
Theorem C24_flat_refuted :
  arg_flat greater [3; 2] 0 [[1; 2; 3; 4]; [9; 5]] (Node (Leaf 0) (Leaf 1)) = 3 /\ (* row-major position of 9 is 4 *)
  arg_flat greater [2; 2] 1 [[1; 3]; [2; 9]] (Node (Leaf 0) (Leaf 1)) = 1.          (* 9 is at position 3 *)
Proof. split; vm_compute; reflexivity. Qed.

(** Local shape of the result for an axis that is not the split axis: the axis disappears ... *)
Theorem C24_shape_partial : forall lshape axis, (axis < length lshape)%nat -> Forall (fun d => 1 <= d) lshape ->
  (axis = 0%nat \/ length lshape = 2%nat \/ 2 <= nth 0 lshape 0) -> (2 <= length lshape)%nat ->
  arg_lshape lshape axis false = firstn axis lshape ++ skipn (S axis) lshape.
Proof.
  intros lshape axis Ha F H H2. destruct lshape as [|d0 [|d1 rest]]; cbn [length] in *; try lia.
  inversion_clear F as [|? ? F0 F1]. unfold arg_lshape. destruct axis as [|axis].
  - cbn [upd nth Nat.eqb negb andb]. rewrite !upd_length. cbn [length Nat.eqb negb andb]. cbn [drop_axis firstn skipn app].
    change (2 * 1 =? 1) with false. cbn [negb andb nth upd length Nat.ltb Nat.leb]. change (2 * 1 / 2 =? 1) with true. reflexivity.
  - cbn [upd nth]. rewrite !upd_length. cbn [length Nat.eqb negb andb nth]. unfold drop_axis. cbn [firstn skipn app].
    match goal with |- context [Nat.eqb (length ?m) 0] => assert (NE : Nat.eqb (length m) 0 = false) by (destruct axis; reflexivity); rewrite NE end.
    assert (E : (2 * d0 =? d0) = false) by lia. cbn [negb nth]. rewrite E. cbn [negb tl nth upd].
    replace (2 * d0 / 2) with d0 by (rewrite Z.mul_comm, Z.div_mul; lia).
    destruct (Z.eqb_spec d0 1) as [->|Ne]; [|rewrite andb_false_r; reflexivity].
    destruct H as [H|[H|H]]; try lia; [|cbn in H; lia]. destruct rest; [|cbn in H; lia]. destruct axis as [|axis]; [|cbn in Ha; lia]. reflexivity.
Qed.
Print Assumptions C24_shape_partial.
(** ... but a leading extent of 1 is lost as well, and keepdims is ignored for axis 0 *)
Theorem C24_shape_refuted : arg_lshape [1; 4; 5] 2 false = [4] /\ arg_lshape [3; 4] 0 true = [4] /\ arg_lshape [1; 4; 5] 2 true = [4; 1].
Proof. repeat split; reflexivity. Qed.
