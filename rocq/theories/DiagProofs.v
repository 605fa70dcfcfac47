(** diagonal: index bookkeeping. *)
From Verif Require Import Base BaseLemmas LayoutModel LayoutProofs NdSpec TensorSpec TensorLemmas NdLemmas OpsModel OpsProofs2 OpsProofs4 RedistModel RedistProofs ShapeSpec ShapeModel ShapeProofs ShapeProofs2 ShapeProofs3 ShapeProofs4 ShapeProofs5 BinModel BinProofs BinProofs2 ShapeProps RollProofs3 RollProps ReshapeModel ReshapeProofs FactoryModel FactoryProps ConcatSpec ConcatModel ConcatProofs ConcatProofs2 ConcatProofs3 ConcatProps DiagSpec DiagModel DiagProps.
Open Scope nat_scope.

Lemma below_S axes k : below axes (S k) = below axes k + (if memb k axes then 0 else 1).
Proof. unfold below. rewrite seq_S, filter_app, app_length. cbn [filter Nat.add]. destruct (existsb (Nat.eqb k) axes); reflexivity. Qed.
Lemma below_mono axes k k' : k <= k' -> below axes k <= below axes k'.
Proof. induction 1; [lia|]. rewrite below_S. lia. Qed.
Lemma below_lt axes k k' : k < k' -> memb k axes = false -> below axes k < below axes k'.
Proof. intros H E. pose proof (below_mono axes (S k) k' H). rewrite below_S, E in *. lia. Qed.
Lemma below_inj axes k k' : memb k axes = false -> memb k' axes = false -> below axes k = below axes k' -> k = k'.
Proof. intros E E' H. destruct (Nat.lt_trichotomy k k') as [L|[L|L]]; auto; [pose proof (below_lt axes k k' L E)|pose proof (below_lt axes k' k L E')]; lia. Qed.
Lemma drop_from_app {A} axes (l1 l2 : list A) i : drop_from i axes (l1 ++ l2) = drop_from i axes l1 ++ drop_from (i + length l1) axes l2.
Proof.
  revert i. induction l1 as [|a l1 IH]; intros i; cbn [app drop_from length]; [now rewrite Nat.add_0_r|]. rewrite IH. replace (S i + length l1) with (i + S (length l1)) by lia.
  destruct (existsb _ _); reflexivity.
Qed.
Lemma drop_below_length {A} axes (l : list A) : length (drop_axes axes l) = below axes (length l).
Proof.
  induction l as [|a l IH] using rev_ind; [reflexivity|]. unfold drop_axes in *. rewrite drop_from_app, app_length, IH. cbn [Nat.add]. rewrite app_length. cbn [length]. rewrite Nat.add_1_r, below_S.
  cbn [drop_from]. destruct (existsb _ _); reflexivity.
Qed.
Lemma nth_below {A} axes (l : list A) k d : k < length l -> memb k axes = false -> nth (below axes k) (drop_axes axes l) d = nth k l d.
Proof.
  intros Hk E. rewrite <- (firstn_skipn k l) at 1. unfold drop_axes. rewrite drop_from_app. fold (@drop_axes A axes (firstn k l)).
  assert (L : length (firstn k l) = k) by (rewrite firstn_length; lia). rewrite app_nth2; rewrite drop_below_length, L; [|lia]. rewrite Nat.sub_diag. cbn [Nat.add].
  destruct (skipn k l) as [|x r] eqn:ES; [apply (f_equal (@length _)) in ES; rewrite skipn_length in ES; cbn in ES; lia|]. cbn [drop_from]. change (existsb (Nat.eqb k) axes) with (memb k axes). rewrite E. cbn [nth].
  rewrite <- (firstn_skipn k l), ES. rewrite app_nth2; rewrite L; [|lia]. now rewrite Nat.sub_diag.
Qed.
Lemma below_pair d1 d2 k : d1 <> d2 -> below [d1; d2] k = k - (if d1 <? k then 1 else 0) - (if d2 <? k then 1 else 0).
Proof.
  intros N. induction k as [|k IH]; [reflexivity|]. rewrite below_S, IH. unfold memb. cbn [existsb].
  destruct (Nat.eqb_spec k d1), (Nat.eqb_spec k d2), (Nat.ltb_spec d1 k), (Nat.ltb_spec d2 k), (Nat.ltb_spec d1 (S k)), (Nat.ltb_spec d2 (S k)); cbn [orb]; lia.
Qed.
Lemma memb_pair d1 d2 k : k <> d1 -> k <> d2 -> memb k [d1; d2] = false.
Proof. intros. unfold memb. cbn. destruct (Nat.eqb_spec k d1), (Nat.eqb_spec k d2); try lia; reflexivity. Qed.

Open Scope Z_scope.
Section Place.
Variables (n d1 d2 : nat). Hypothesis H1 : (d1 < n)%nat. Hypothesis H2 : (d2 < n)%nat. Hypothesis HN : d1 <> d2.
Let axes := [d1; d2].
Lemma drop_len {A} (l : list A) : length l = n -> length (drop_axes axes l) = (n - 2)%nat.
Proof. intros E. rewrite drop_below_length, E. unfold axes. rewrite below_pair by auto. destruct (Nat.ltb_spec d1 n), (Nat.ltb_spec d2 n); lia. Qed.
Lemma below_bound k : (k < n)%nat -> k <> d1 -> k <> d2 -> (below axes k < n - 2)%nat.
Proof. intros Hk N1 N2. assert (E := below_lt axes k n Hk (memb_pair _ _ _ N1 N2)). unfold axes in *. rewrite (below_pair d1 d2 n) in E by auto. destruct (Nat.ltb_spec d1 n), (Nat.ltb_spec d2 n); lia. Qed.
Lemma place_length i j b : length (place n d1 d2 i j b) = n.
Proof. unfold place. now rewrite map_length, seq_length. Qed.
Lemma place_nth i j b k : (k < n)%nat -> nth k (place n d1 d2 i j b) 0 = if Nat.eqb k d1 then i else if Nat.eqb k d2 then j else nth (below axes k) b 0.
Proof. intros Hk. unfold place. now rewrite (@nth_map_seq _ (fun k => if Nat.eqb k d1 then i else if Nat.eqb k d2 then j else nth (below [d1; d2] k) b 0)). Qed.
(** the index built from the dropped index is the index *)
Lemma place_drop full m : length full = n -> place n d1 d2 (nth d1 full 0) (nth d2 full 0) (drop_axes axes full ++ [m]) = full.
Proof.
  intros HL. apply (@nth_ext2 _ _ _ 0); [rewrite place_length; auto|]. intros k Hk. rewrite place_length in Hk. rewrite place_nth by auto.
  destruct (Nat.eqb_spec k d1) as [->|N1]; [auto|]. destruct (Nat.eqb_spec k d2) as [->|N2]; [auto|].
  rewrite app_nth1 by (rewrite drop_len by auto; apply below_bound; auto). apply nth_below; [lia|apply memb_pair; auto].
Qed.
Lemma place_in_bounds sh i j b m : length sh = n -> 0 <= i < nth d1 sh 0 -> 0 <= j < nth d2 sh 0 -> in_bounds (drop_axes axes sh ++ [m]) b ->
  in_bounds sh (place n d1 d2 i j b).
Proof.
  intros HL Hi Hj Hb. apply in_bounds_nth in Hb as [LB Hb]. rewrite app_length, drop_len in * by auto. cbn [length] in *. apply in_bounds_nth. rewrite place_length. split; [auto|].
  intros k Hk. rewrite HL in Hk. rewrite place_nth by auto. destruct (Nat.eqb_spec k d1) as [->|N1]; [auto|]. destruct (Nat.eqb_spec k d2) as [->|N2]; [auto|].
  pose proof (below_bound k Hk N1 N2) as BB. specialize (Hb (below axes k) ltac:(lia)). rewrite app_nth1 in Hb by (rewrite drop_len by auto; auto). rewrite nth_below in Hb by (try lia; apply memb_pair; auto). auto.
Qed.
(** moving along another axis *)
Lemma place_move i j b s off : (s < n)%nat -> s <> d1 -> s <> d2 -> length b = (n - 1)%nat ->
  move_axis_idx s off (place n d1 d2 i j b) = place n d1 d2 i j (move_axis_idx (below axes s) off b).
Proof.
  intros Hs N1 N2 HB. unfold move_axis_idx. pose proof (below_bound s Hs N1 N2). apply (@nth_ext2 _ _ _ 0); [rewrite upd_length, !place_length; auto|]. intros k Hk. rewrite upd_length, place_length in Hk.
  destruct (Nat.eq_dec k s) as [->|N].
  - rewrite upd_same by (rewrite place_length; auto). rewrite !place_nth by auto. destruct (Nat.eqb_spec s d1); [lia|]. destruct (Nat.eqb_spec s d2); [lia|]. rewrite upd_same by lia. auto.
  - rewrite upd_other by auto. rewrite !place_nth by auto. destruct (Nat.eqb_spec k d1); [auto|]. destruct (Nat.eqb_spec k d2); [auto|]. rewrite upd_other; auto.
    intros E. apply N. symmetry. apply (below_inj axes); try apply memb_pair; auto.
Qed.
Lemma place_move1 i j b off : move_axis_idx d1 off (place n d1 d2 i j b) = place n d1 d2 (i + off) j b.
Proof.
  unfold move_axis_idx. apply (@nth_ext2 _ _ _ 0); [rewrite upd_length, !place_length; auto|]. intros k Hk. rewrite upd_length, place_length in Hk.
  destruct (Nat.eq_dec k d1) as [->|N]; [rewrite upd_same by (rewrite place_length; auto); rewrite !place_nth by auto; now rewrite Nat.eqb_refl|].
  rewrite upd_other by auto. rewrite !place_nth by auto. destruct (Nat.eqb_spec k d1); [lia|]. auto.
Qed.
Lemma place_move2 i j b off : move_axis_idx d2 off (place n d1 d2 i j b) = place n d1 d2 i (j + off) b.
Proof.
  unfold move_axis_idx. apply (@nth_ext2 _ _ _ 0); [rewrite upd_length, !place_length; auto|]. intros k Hk. rewrite upd_length, place_length in Hk.
  destruct (Nat.eq_dec k d2) as [->|N].
  - rewrite upd_same by (rewrite place_length; auto); rewrite !place_nth by auto. destruct (Nat.eqb_spec d2 d1); [lia|]. now rewrite Nat.eqb_refl.
  - rewrite upd_other by auto. rewrite !place_nth by auto. destruct (Nat.eqb_spec k d2); [lia|]. auto.
Qed.
(** the appended entry does not matter *)
Lemma place_last i j b v : length b = (n - 1)%nat -> place n d1 d2 i j (upd b (n - 2) v) = place n d1 d2 i j b.
Proof.
  intros HB. apply (@nth_ext2 _ _ _ 0); [rewrite !place_length; auto|]. intros k Hk. rewrite place_length in Hk. rewrite !place_nth by auto.
  destruct (Nat.eqb_spec k d1); [auto|]. destruct (Nat.eqb_spec k d2); [auto|]. rewrite upd_other; auto. pose proof (below_bound k Hk ltac:(auto) ltac:(auto)). lia.
Qed.
Lemma drop_upd_in s c (sh : list Z) : s = d1 \/ s = d2 -> length sh = n -> drop_axes axes (upd sh s c) = drop_axes axes sh.
Proof.
  intros Hs HL. apply (@nth_ext2 _ _ _ 0); [rewrite !drop_len; auto; now rewrite upd_length|]. intros q Hq. rewrite drop_len in Hq by (rewrite upd_length; auto).
  (* every position comes from some k *)
  assert (EX : exists k, (k < n)%nat /\ k <> d1 /\ k <> d2 /\ below axes k = q).
  { assert (GEN : forall m, (m <= n)%nat -> (q < below axes m)%nat -> exists k, (k < m)%nat /\ k <> d1 /\ k <> d2 /\ below axes k = q).
    { induction m as [|m IH]; intros Hm Hb; [cbn in Hb; lia|]. rewrite below_S in Hb. destruct (memb m axes) eqn:E.
      - destruct IH as (k & K1 & K2); [lia|lia|]. exists k. split; [lia|auto].
      - destruct (Nat.eq_dec q (below axes m)) as [->|Nq].
        + apply memb_nin in E. exists m. split; [lia|]. split; [intros ->; apply E; left; auto|]. split; [intros ->; apply E; right; left; auto|auto].
        + destruct IH as (k & K1 & K2); [lia|lia|]. exists k. split; [lia|auto]. }
    apply GEN; auto. unfold axes. rewrite below_pair by auto. destruct (Nat.ltb_spec d1 n), (Nat.ltb_spec d2 n); lia. }
  destruct EX as (k & K1 & K2 & K3 & <-). rewrite !nth_below by (try (rewrite upd_length; lia); try lia; apply memb_pair; auto). rewrite upd_other; auto. destruct Hs; subst; auto.
Qed.
Lemma drop_upd_out s c (sh : list Z) : (s < n)%nat -> s <> d1 -> s <> d2 -> length sh = n -> drop_axes axes (upd sh s c) = upd (drop_axes axes sh) (below axes s) c.
Proof.
  intros Hs N1 N2 HL. apply (@nth_ext2 _ _ _ 0); [rewrite upd_length, !drop_len; auto; now rewrite upd_length|]. intros q Hq. rewrite drop_len in Hq by (rewrite upd_length; auto).
  assert (EX : exists k, (k < n)%nat /\ k <> d1 /\ k <> d2 /\ below axes k = q).
  { assert (GEN : forall m, (m <= n)%nat -> (q < below axes m)%nat -> exists k, (k < m)%nat /\ k <> d1 /\ k <> d2 /\ below axes k = q).
    { induction m as [|m IH]; intros Hm Hb; [cbn in Hb; lia|]. rewrite below_S in Hb. destruct (memb m axes) eqn:E.
      - destruct IH as (k & K1 & K2); [lia|lia|]. exists k. split; [lia|auto].
      - destruct (Nat.eq_dec q (below axes m)) as [->|Nq].
        + apply memb_nin in E. exists m. split; [lia|]. split; [intros ->; apply E; left; auto|]. split; [intros ->; apply E; right; left; auto|auto].
        + destruct IH as (k & K1 & K2); [lia|lia|]. exists k. split; [lia|auto]. }
    apply GEN; auto. unfold axes. rewrite below_pair by auto. destruct (Nat.ltb_spec d1 n), (Nat.ltb_spec d2 n); lia. }
  destruct EX as (k & K1 & K2 & K3 & <-). rewrite nth_below by (try (rewrite upd_length; lia); apply memb_pair; auto).
  destruct (Nat.eq_dec k s) as [->|N]; [rewrite !upd_same; auto; [rewrite drop_len by auto; apply below_bound; auto|lia]|].
  assert (NB : below axes s <> below axes k) by (intros E; apply N; symmetry; apply (below_inj axes); try apply memb_pair; auto).
  rewrite (upd_other _ _ _ N), (upd_other _ _ _ (not_eq_sym NB)). symmetry. apply nth_below; [lia|apply memb_pair; auto].
Qed.
(** one rank's torch.diagonal *)
Lemma torch_diagonal_agrees {A} (t : arr A) sh F off : length sh = n -> agrees t sh F ->
  agrees (torch_diagonal off d1 d2 t) (drop_axes axes sh ++ [diag_len (nth d1 sh 0) (nth d2 sh 0) off])
    (fun idx => F (place n d1 d2 (nth (n - 2) idx 0 + Z.max 0 (- off)) (nth (n - 2) idx 0 + Z.max 0 off) idx)).
Proof.
  intros HL [S D]. unfold torch_diagonal. rewrite S, HL. fold axes.
  assert (EQ : (if 0 <=? off then Z.max 0 (Z.min (nth d1 sh 0) (nth d2 sh 0 - off)) else Z.max 0 (Z.min (nth d1 sh 0 + off) (nth d2 sh 0))) = diag_len (nth d1 sh 0) (nth d2 sh 0) off).
  { unfold diag_len. destruct (Z.leb_spec 0 off); lia. }
  rewrite EQ. split; [reflexivity|]. intros idx Hi. cbn [adat]. apply D. assert (Hi' := Hi). apply in_bounds_nth in Hi' as [LI Hb]. rewrite app_length, drop_len in * by auto. cbn [length] in *.
  specialize (Hb (n - 2)%nat ltac:(lia)). rewrite app_nth2 in Hb by (rewrite drop_len; auto). rewrite drop_len, Nat.sub_diag in Hb by auto. cbn [nth] in Hb. unfold diag_len in Hb.
  eapply place_in_bounds; eauto; lia.
Qed.
End Place.
