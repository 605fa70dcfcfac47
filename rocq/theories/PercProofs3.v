(** Preparation of the data: transposition and expansion. *)
From Coq Require Import QArith Qround Permutation Sorted Lqa.
From Verif Require Import Base ShapeSpec BaseLemmas LayoutModel LayoutProofs NdSpec TensorSpec TensorLemmas NdLemmas OpsModel OpsProofs2 OpsProofs3 OpsProofs4 OpsProofs5 OpsProofs6 RedistModel RedistProofs IndexModel IndexProofs ShapeModel ShapeProofs ShapeProofs2 ShapeProofs3 ShapeProofs4 ShapeProofs5 ShapeProofs6 ShapeProps SortModel SortNd SortSpec SortProps HaloModel BinModel FactoryModel PercSpec PercModel PercFloat PercProofs PercProofs2.
From Verif Require ConcatProofs2 DiffProofs2 ConvProofs.
Open Scope Z_scope.

Definition order (nd ax : nat) : list nat := ax :: seq 0 ax ++ seq (S ax) (nd - S ax).
Lemma order_perm nd ax : (ax < nd)%nat -> perm_axes nd (order nd ax).
Proof.
  intros H. unfold order, perm_axes. split; [cbn [length]; rewrite app_length, !seq_length; lia|]. split.
  - constructor.
    + rewrite in_app_iff, !in_seq. lia.
    + apply NoDup_app_intro; [apply seq_NoDup|apply seq_NoDup|]. intros k. rewrite !in_seq. lia.
  - intros k. cbn [In]. rewrite in_app_iff, !in_seq. lia.
Qed.
Lemma order_map nd ax (l : list Z) : length l = nd -> (ax < nd)%nat -> map (fun a => nth a l 0) (order nd ax) = nth ax l 0 :: remove_at ax l.
Proof.
  intros L H. unfold order, remove_at. cbn [map]. f_equal. rewrite map_app. f_equal.
  - apply (@nth_ext2 _ _ _ 0); [rewrite map_length, seq_length, firstn_length; lia|]. intros i Hi. rewrite map_length, seq_length in Hi. rewrite (nth_map_seq (fun a => nth a l 0)) by auto. rewrite DiffProofs2.nth_firstn_lt by auto. auto.
  - apply (@nth_ext2 _ _ _ 0); [rewrite map_length, seq_length, skipn_length; lia|]. intros i Hi. rewrite map_length, seq_length in Hi. rewrite (nth_indep _ 0 (nth 0 l 0)) by (rewrite map_length, seq_length; auto). rewrite (map_nth (fun a => nth a l 0)), seq_nth by auto. rewrite ConvProofs.nth_skipn. reflexivity.
Qed.
Lemma order_pos nd ax p s : (ax < nd)%nat -> (s < nd)%nat -> nth_error (order nd ax) p = Some s -> p = if Nat.eqb s ax then 0%nat else if (s <? ax)%nat then S s else s.
Proof.
  intros H Hs E. destruct p as [|p]; cbn [order nth_error] in E.
  - injection E as <-. now rewrite Nat.eqb_refl.
  - destruct (Nat.lt_ge_cases p ax).
    + rewrite nth_error_app1 in E by now rewrite seq_length. apply nth_error_nth with (d := 0%nat) in E. rewrite seq_nth in E by auto. cbn [Nat.add] in E. subst s. destruct (Nat.eqb_spec p ax) as [X|X]; [exfalso; lia|]. destruct (Nat.ltb_spec p ax) as [Y|Y]; [reflexivity|exfalso; lia].
    + rewrite nth_error_app2 in E by now rewrite seq_length. rewrite seq_length in E. assert (L : (p - ax < nd - S ax)%nat). { rewrite <- (seq_length (nd - S ax) (S ax)). apply nth_error_Some. congruence. }
      apply nth_error_nth with (d := 0%nat) in E. rewrite seq_nth in E by auto. destruct (Nat.eqb_spec s ax); [lia|]. destruct (Nat.ltb_spec s ax); lia.
Qed.

(** the element j of the lane along axis [ax] that the result index [i] stands for *)
Definition on_lane (ax : nat) (keepdims : bool) (i : list Z) (j : Z) : list Z :=
  if keepdims then upd i ax j else firstn ax i ++ j :: skipn ax i.
Definition out_shape (ax : nat) (keepdims : bool) (gsh : list Z) : list Z :=
  if keepdims then upd gsh ax 1 else firstn ax gsh ++ skipn (S ax) gsh.
(** where the split axis is after the preparation *)
Definition split2 (ax : nat) (keepdims : bool) (sp : option nat) : option nat :=
  option_map (fun s => if Nat.eqb s ax then 0%nat else if keepdims then S s else if (s <? ax)%nat then S s else s) sp.

Lemma insert_bounds gsh ax i j : (ax < length gsh)%nat -> in_bounds (remove_at ax gsh) i -> 0 <= j < nth ax gsh 0 -> in_bounds gsh (py_insert i ax j).
Proof.
  intros H B Hj. apply in_bounds_nth in B as [BL B]. rewrite remove_at_length in BL by auto. apply in_bounds_nth. split; [rewrite py_insert_length; lia|].
  intros k Hk. rewrite py_insert_nth by lia. destruct (Nat.ltb_spec k ax).
  - specialize (B k). rewrite remove_at_length, remove_at_nth in B by auto. replace (k <? ax)%nat with true in B by lia. apply B. lia.
  - destruct (Nat.eqb_spec k ax); [now subst|]. specialize (B (k - 1)%nat). rewrite remove_at_length, remove_at_nth in B by auto. replace (k - 1 <? ax)%nat with false in B by lia. replace (S (k - 1)) with k in B by lia. apply B. lia.
Qed.

Lemma prepare (x : dnd Q) (G : list Z -> Q) cnts ax (keepdims : bool) : rep x cnts G -> let gsh := d_gshape x in let nd := length gsh in (ax < nd)%nat ->
  exists x2 G2, (do x1 <- transpose x (Some (map Z.of_nat (order nd ax))); if keepdims then expand_dims x1 (AxInt (Z.of_nat ax + 1)) else Ok x1) = Ok x2 /\
    d_gshape x2 = nth ax gsh 0 :: out_shape ax keepdims gsh /\ d_split x2 = split2 ax keepdims (d_split x) /\ rep x2 cnts G2 /\
    forall j i, 0 <= j < nth ax gsh 0 -> in_bounds (out_shape ax keepdims gsh) i -> G2 (j :: i) = G (on_lane ax keepdims i j).
Proof.
  intros HR gsh nd H. destruct (transpose_nat x G cnts (order nd ax) HR (order_perm nd ax H)) as (x1 & G1 & E1 & E2 & E3 & E4 & E5). fold gsh in E2, E5. rewrite E1. cbn [bind].
  rewrite order_map in E2 by auto.
  assert (L1 : length (d_gshape x1) = nd). { rewrite E2. cbn [length]. rewrite remove_at_length by auto. unfold nd in *. lia. }
  assert (V : forall j i, 0 <= j < nth ax gsh 0 -> in_bounds (remove_at ax gsh) i -> G1 (j :: i) = G (py_insert i ax j)).
  { intros j i Hj Hi. assert (BL := in_bounds_length _ _ Hi). rewrite remove_at_length in BL by auto. rewrite <- E5 by (apply insert_bounds; auto). rewrite order_map by (try rewrite py_insert_length; unfold nd in *; lia).
    rewrite remove_insert by (unfold nd in *; lia). rewrite py_insert_nth by (unfold nd in *; lia). replace (ax <? ax)%nat with false by lia. now rewrite Nat.eqb_refl. }
  assert (SB : forall s, d_split x = Some s -> (s < nd)%nat). { intros s E. unfold rep, represents in HR. rewrite E in HR. destruct HR as (_ & _ & A & _). exact A. }
  assert (SP : d_split x1 = option_map (fun s => if Nat.eqb s ax then 0%nat else if (s <? ax)%nat then S s else s) (d_split x)).
  { destruct (d_split x) as [s|] eqn:E; [|auto]. destruct E3 as (p & -> & Ep). cbn [option_map]. f_equal. now apply order_pos with nd; auto. }
  destruct keepdims.
  - destruct (C44_expand_dims_partial Q x1 G1 cnts (AxInt (Z.of_nat ax + 1)) [S ax] E4) as (x2 & F1 & F2 & F3 & F4 & F5 & F6).
    { rewrite L1. split; [unfold valid_axis; lia|]. unfold norm. replace (Z.of_nat ax + 1 <? 0) with false by lia. f_equal. lia. }
    { repeat constructor. }
    rewrite F1. cbn [length] in *. rewrite L1 in *. exists x2, (fun idx => G1 (drop_axes [S ax] idx)). split; [reflexivity|].
    assert (ES : d_gshape x2 = nth ax gsh 0 :: upd gsh ax 1).
    { rewrite ConcatProofs2.drop_single in F3 by lia. rewrite E2 in F3. assert (I : py_insert (remove_at (S ax) (d_gshape x2)) (S ax) 1 = d_gshape x2) by (apply ConcatProofs2.insert_remove; [lia|apply F4; cbn; auto]).
      rewrite <- I, F3. unfold py_insert. cbn [firstn skipn app]. f_equal. fold (py_insert (remove_at ax gsh) ax 1). replace (remove_at ax gsh) with (remove_at ax (upd gsh ax 1)).
      - apply ConcatProofs2.insert_remove; [rewrite upd_length; auto|]. now apply upd_same.
      - apply (@nth_ext2 _ _ _ 0); [rewrite !remove_at_length; rewrite ?upd_length; auto|]. intros k Hk. rewrite !remove_at_nth by (rewrite ?upd_length; auto). destruct (k <? ax)%nat eqn:Ek; apply upd_other; lia. }
    split; [exact ES|]. split; [|split; [exact F5|]].
    + rewrite SP in F6. destruct (d_split x) as [s|] eqn:E; cbn [option_map split2] in *; [|auto]. destruct F6 as (s' & -> & F6). f_equal. rewrite ConcatProofs2.drop_single in F6 by (rewrite seq_length; lia).
      specialize (SB s eq_refl). apply nth_error_nth with (d := 0%nat) in F6. rewrite remove_at_nth in F6 by (rewrite seq_length; lia).
      destruct (Nat.eqb_spec s ax); [replace (0 <? S ax)%nat with true in F6 by lia; rewrite seq_nth in F6 by lia; lia|]. destruct (Nat.ltb_spec s ax).
      * replace (S s <? S ax)%nat with true in F6 by lia. rewrite seq_nth in F6 by lia. lia.
      * replace (s <? S ax)%nat with false in F6 by lia. rewrite seq_nth in F6 by lia. lia.
    + intros j i Hj Hi. cbn [out_shape on_lane] in *. assert (BL := in_bounds_length _ _ Hi). rewrite upd_length in BL. rewrite ConcatProofs2.drop_single by (cbn [length]; unfold nd in *; lia).
      change (remove_at (S ax) (j :: i)) with (j :: remove_at ax i). rewrite V; auto.
      * f_equal. replace (remove_at ax i) with (remove_at ax (upd i ax j)).
        -- apply ConcatProofs2.insert_remove; [rewrite upd_length; unfold nd in *; lia|]. apply upd_same. unfold nd in *; lia.
        -- apply (@nth_ext2 _ _ _ 0); [rewrite !remove_at_length; rewrite ?upd_length; auto; unfold nd in *; lia|]. intros k Hk. rewrite !remove_at_nth by (rewrite ?upd_length; unfold nd in *; lia). destruct (k <? ax)%nat eqn:Ek; apply upd_other; lia.
      * apply in_bounds_nth. rewrite !remove_at_length by (unfold nd in *; lia). split; [lia|]. intros k Hk. rewrite !remove_at_nth by (unfold nd in *; lia). apply in_bounds_nth in Hi as [_ Hi]. rewrite upd_length in Hi.
        destruct (k <? ax)%nat eqn:Ek; [specialize (Hi k ltac:(lia))|specialize (Hi (S k) ltac:(lia))]; rewrite upd_other in Hi by lia; auto.
  - exists x1, G1. split; [reflexivity|]. split; [exact E2|]. split; [exact SP|]. split; [exact E4|]. exact V.
Qed.
