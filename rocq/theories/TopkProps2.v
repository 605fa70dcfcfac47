From Coq Require Import Permutation Sorted.
From Verif Require Import Base BaseLemmas LayoutModel NdSpec TensorSpec NdLemmas TensorLemmas OpsModel OpsProofs4 RedistModel HaloModel ShapeModel ShapeSpec ShapeProofs4 ShapeProps BinModel BinProofs2 ReshapeModel FactoryModel FactoryProps DiagModel DiagProps RollProps SplitProps SplitProps2 ArgModel SortSpec SortModel SortNd SortProps SortProps2 TopkSpec TopkModel TopkProofs TopkProps.
Open Scope Z_scope.

(** torch.topk by sorting *)
Definition tk_of {V} (dv : V) (lt : V -> V -> bool) (largest sorted : bool) (k : nat) (l : list V) : list nat := firstn k (ts_of dv lt largest l).
Lemma tk_of_ok {V} (dv : V) lt : weak_order lt -> topks dv lt (tk_of dv lt).
Proof.
  intros HW largest sorted k l HK. destruct (ts_of_sorts dv lt HW largest l) as [PM SO]. unfold tk_of. set (q := ts_of dv lt largest l) in *. assert (LQ := Permutation_length PM). rewrite seq_length in LQ.
  rewrite <- (firstn_skipn k q) in SO. rewrite map_app in SO.
  assert (X : forall a b, in_order lt largest (a ++ b) -> in_order lt largest a /\ forall x y, In x a -> In y b -> beats lt largest x y).
  { induction a as [|x a IH]; intros b H; [split; [constructor|intros ? ? []]|]. apply StronglySorted_inv in H as [H1 H2]. destruct (IH b H1) as [A B]. rewrite Forall_forall in H2. split.
    - constructor; [exact A|]. apply Forall_forall. intros y Hy. apply H2, in_or_app. auto.
    - intros u y [->|Hu] Hy; [apply H2, in_or_app; auto|apply B; auto]. }
  apply X in SO as [S1 S2]. split; [|split].
  - exists (skipn k q). split; [now rewrite firstn_skipn|]. intros i j Hi Hj. apply S2; now apply (in_map (fun i => nth i l dv)).
  - rewrite firstn_length. lia.
  - intros _. exact S1.
Qed.
Lemma Zlt_weak : weak_order Z.ltb.
Proof. split; intros; lia. Qed.

Definition idz (z : Z) : Z := z.
Definition tree3 : rtree := Node (Leaf 2) (Node (Leaf 0) (Leaf 1)).
Definition vals (r : res (dnd (Z * Z))) : list (list Z) := match r with Ok y => map (fun t => map fst (flat t)) (d_locals y) | Err _ => [] end.
Example C39_example : vals (topk_nd 0 (tk_of 0 Z.ltb) idz (-100) true true 2 (vec 0 [[9; 1; 5]; [7; 8; 2]; [3; 4; 6]]) (-1) tree3) = [[9]; [8]; []].
Proof. vm_compute. reflexivity. Qed.
Example C39_example_hyp : weak_order Z.ltb /\ topks 0 Z.ltb (tk_of 0 Z.ltb) /\ Permutation (leaves tree3) (seq 0 3) /\ rep (vec 0 [[9; 1; 5]; [7; 8; 2]; [3; 4; 6]]) [3; 3; 3] (vecG 0 [[9; 1; 5]; [7; 8; 2]; [3; 4; 6]]).
Proof. split; [apply Zlt_weak|]. split; [apply tk_of_ok, Zlt_weak|]. split; [|apply (vec_rep 0 [[9; 1; 5]; [7; 8; 2]; [3; 4; 6]])]. cbn. apply (Permutation_trans (perm_swap 0 2 [1])%nat). apply perm_skip. apply perm_swap. Qed.

(** L4486-4490: the offset added to the indices is the start of this rank's chunk of the
    *local* shape, times the rank.  0 1 2 3 | 4 5 6 9: the largest value has index 5 *)
Theorem C39_indices_refuted : exists (x : dnd Z) G y,
  rep x (zcounts 8 2) G /\ d_split x = Some 0%nat /\ d_gshape x = [8] /\
  topk_nd 0 (tk_of 0 Z.ltb) idz (- (2 ^ 63 - 1)) true true 2 x 0 (Node (Leaf 0) (Leaf 1)) = Ok y /\
  forall cnts H, rep y cnts H -> ~ indices_along 0 2 [8] G H.
Proof.
  set (p := [[0; 1; 2; 3]; [4; 5; 6; 9]]).
  assert (B : two_parts 1 1 (fun t1 t2 => (fst (adat t1 [0]) =? 9) && (snd (adat t1 [0]) =? 5)) (topk_nd 0 (tk_of 0 Z.ltb) idz (- (2 ^ 63 - 1)) true true 2 (vec 0 p) 0 (Node (Leaf 0) (Leaf 1))) = true) by (vm_compute; reflexivity).
  apply two_parts_ok in B as (y & t1 & t2 & E & F & Q). exists (vec 0 p), (vecG 0 p), y. split; [apply (vec_rep 0 p)|]. split; [auto|]. split; [auto|]. split; [auto|]. intros cnts H HR HI.
  destruct (Q cnts H HR) as [Q1 _]. specialize (Q1 0 ltac:(lia)). destruct (HI [0] ltac:(repeat constructor; lia)) as [_ HI2]. specialize (HI2 0 ltac:(lia)). cbn [upd] in HI2. rewrite Q1 in HI2. apply andb_prop in F as [F1 F2].
  assert (E1 : fst (adat t1 [0]) = 9) by lia. assert (E2 : snd (adat t1 [0]) = 5) by lia. rewrite E1, E2 in HI2. destruct HI2 as [_ HI2]. vm_compute in HI2. discriminate.
Qed.
(** a vector of which some rank holds fewer than k elements: the padding list has odd
    length and torch raises *)
Theorem C39_short_raises : forall (V : Type) (dv : V) tk dbl neutral largest sorted k (x : dnd V) G cnts tree,
  rep x cnts G -> length (d_gshape x) = 1%nat -> d_split x = Some 0%nat -> (exists c, In c cnts /\ c < Z.of_nat k) ->
  topk_nd dv tk dbl neutral largest sorted k x 0 tree = Err RuntimeError.
Proof.
  intros V dv tk dbl neutral largest sorted k x G cnts tree HR HN HS (c & Hc & HK). unfold topk_nd. rewrite HN, HS. cbn [sanitize_axis Nat.eqb length Z.of_nat]. cbn -[local_split all_ok upd].
  unfold rep in HR. rewrite HS in HR. destruct HR as (LC & _ & _ & CN & _ & Q). destruct (d_gshape x) as [|n [|]]; cbn in HN; try lia. cbn [upd row_major]. change (zr 1) with [0]. cbn [flat_map map app].
  assert (E : all_ok (map (fun p : nat * arr V => local_split dv tk dbl neutral largest sorted k 1 0 (fst p) (length (d_locals x)) (lane_of 0 (snd p) [0])) (ranked (d_locals x))) = Err RuntimeError); [|cbn [all_ok map length]; now rewrite E].
  apply all_ok_err.
  - intros [r t] _. cbn [fst snd]. unfold local_split. destruct (_ <? _)%nat; cbn [Nat.eqb andb bind]; [right; auto|left; eauto].
  - apply (In_nth _ _ 0) in Hc as (r & Hr & Ec). destruct (nth_error (ranked (d_locals x)) r) as [[r' t]|] eqn:E; [|apply nth_error_None in E; rewrite ranked_length in E; lia]. exists (r', t). split; [apply (nth_error_In _ _ E)|].
    apply ranked_nth in E as (_ & E & _). cbn [fst snd] in *. destruct (Q r t E) as [A _]. assert (LL : length (lane_of 0 t [0]) = Z.to_nat (nth r cnts 0)) by (unfold lane_of; rewrite A; cbn [upd nth]; unfold zr; now rewrite !map_length, seq_length). unfold local_split. rewrite LL, Ec. assert (C0 : 0 <= c) by (rewrite <- Ec; rewrite Forall_forall in CN; apply CN, nth_In, Hr). replace (Z.to_nat c <? k)%nat with true by lia. reflexivity.
Qed.

(** the conversion to double loses the last bit of integers above 2^53: the largest of
    2^53, 2^53+1 is reported as 2^53 *)
Definition double_of_int (z : Z) : Z :=
  if (2 ^ 53 <? z) && (z <? 2 ^ 54) then if Z.even z then z else if (z - 1) mod 4 =? 0 then z - 1 else z + 1 else z.
Theorem C39_double_refuted : exists (x : dnd Z) G y,
  rep x (zcounts 2 2) G /\ d_split x = Some 0%nat /\ d_gshape x = [2] /\
  topk_nd 0 (tk_of 0 Z.ltb) double_of_int (- (2 ^ 63 - 1)) true true 1 x 0 (Node (Leaf 0) (Leaf 1)) = Ok y /\
  forall cnts H, rep y cnts H -> ~ top_along Z.ltb true true 0 1 [2] G H.
Proof.
  set (p := [[2 ^ 53 + 1]; [3]]).
  assert (B : two_parts 1 0 (fun t1 t2 => (fst (adat t1 [0]) =? 2 ^ 53)) (topk_nd 0 (tk_of 0 Z.ltb) double_of_int (- (2 ^ 63 - 1)) true true 1 (vec 0 p) 0 (Node (Leaf 0) (Leaf 1))) = true) by (vm_compute; reflexivity).
  apply two_parts_ok in B as (y & t1 & t2 & E & F & Q). exists (vec 0 p), (vecG 0 p), y. split; [apply (vec_rep 0 p)|]. split; [auto|]. split; [auto|]. split; [auto|]. intros cnts H HR HI.
  destruct (Q cnts H HR) as [Q1 _]. specialize (Q1 0 ltac:(lia)). destruct (HI [0] ltac:(repeat constructor; lia)) as [(_ & rest & PM & _) _]. change (lane H 0 (Z.of_nat 1) [0]) with [H [0]] in PM. cbn [map app] in PM. rewrite Q1 in PM.
  assert (IN : In (fst (adat t1 [0])) (lane (vecG 0 p) 0 (nth 0 [2] 0) [0])) by (apply (Permutation_in _ PM); left; auto). assert (E1 : fst (adat t1 [0]) = 2 ^ 53) by lia. rewrite E1 in IN. vm_compute in IN. destruct IN as [IN|[IN|[]]]; discriminate.
Qed.
(** the fill value of short ranks is the negated largest finite value, which beats -inf
    (None here): the two largest of -inf, -inf come out as finite numbers *)
Definition ext_lt (a b : option Z) : bool := match a, b with None, Some _ => true | Some x, Some y => x <? y | _, None => false end.
Definition row2 : dnd (option Z) := mk_dnd [mk_arr [1; 1] (fun _ => None); mk_arr [1; 1] (fun _ => None)] [1; 2] (Some 1%nat).
Definition row2_check (r : res (dnd (option Z * Z))) : bool :=
  match r with Ok y => match d_locals y, d_split y with [t1; t2], Some 1%nat => eqb_idx (ash t1) [1; 1] && eqb_idx (d_gshape y) [1; 2] && (match fst (adat t1 [0; 0]) with Some z => z =? -99 | None => false end) | _, _ => false end | Err _ => false end.
Theorem C39_neutral_refuted : exists (x : dnd (option Z)) G y,
  rep x (zcounts 2 2) G /\ d_split x = Some 1%nat /\ d_gshape x = [1; 2] /\ weak_order ext_lt /\
  topk_nd None (tk_of None ext_lt) (fun v => v) (Some (-99)) true true 2 x 1 (Node (Leaf 0) (Leaf 1)) = Ok y /\
  forall cnts H, rep y cnts H -> ~ top_along ext_lt true true 1 2 [1; 2] G H.
Proof.
  assert (B : row2_check (topk_nd None (tk_of None ext_lt) (fun v => v) (Some (-99)) true true 2 row2 1 (Node (Leaf 0) (Leaf 1))) = true) by (vm_compute; reflexivity).
  destruct (topk_nd _ _ _ _ _ _ _ row2 _ _) as [y|] eqn:EY in B; [|discriminate]. exists row2, (fun _ => None), y. split.
  { unfold rep, row2. cbn [d_gshape d_split d_locals]. change (zcounts 2 2) with [1; 1]. split; [auto|]. split; [repeat constructor; lia|]. split; [cbn; lia|]. split; [repeat constructor; lia|]. split; [reflexivity|]. intros [|[|r]] t Ht; cbn in Ht; [injection Ht as <-|injection Ht as <-|destruct r; discriminate]; (split; [reflexivity|auto]). }
  split; [auto|]. split; [auto|]. split; [split; intros [a|] [b|]; try intros [c|]; cbn; intros; try discriminate; auto; lia|]. split; [exact EY|]. intros cnts H HR HI.
  cbn in B. destruct (d_locals y) as [|t1 [|t2 [|]]] eqn:EL; try discriminate. destruct (d_split y) as [[|[|]]|] eqn:ES; try discriminate. apply andb_prop in B as [B B3]. apply andb_prop in B as [B1 B2]. apply eqb_idx_eq in B1, B2.
  unfold rep in HR. rewrite ES, B2, EL in HR. destruct HR as (LC & _ & _ & CN & SM & Q). destruct cnts as [|c1 [|c2 [|]]]; try discriminate. destruct (Q 0%nat t1 eq_refl) as [A D]. rewrite B1 in A. cbn in A. injection A as <-. cbn [nth upd firstn] in D. change (zsum []) with 0 in D. specialize (D [0; 0] ltac:(repeat constructor; lia)). change (move_axis_idx 1 0 [0; 0]) with [0; 0] in D.
  destruct (HI [0; 0] ltac:(repeat constructor; lia)) as [(_ & rest & PM & _) _]. assert (IN : In (fst (H [0; 0])) (lane (fun _ : list Z => @None Z) 1 (nth 1 [1; 2] 0) [0; 0])) by (apply (Permutation_in _ PM); apply in_or_app; left; left; reflexivity).
  rewrite <- D in IN. destruct (fst (adat t1 [0; 0])) as [z|]; [|discriminate]. vm_compute in IN. destruct IN as [IN|[IN|[]]]; discriminate.
Qed.
