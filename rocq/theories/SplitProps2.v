(** C42, continued: exactly when equal sections fail; lists of cut points; rejections. *)
From Verif Require Import Base BaseLemmas LayoutModel LayoutProofs NdSpec TensorSpec TensorLemmas NdLemmas OpsModel OpsProofs2 OpsProofs4 RedistModel RedistProofs ShapeSpec ShapeModel ShapeProofs ShapeProofs2 ShapeProofs3 ShapeProofs4 ShapeProofs5 ShapeProofs6 BinModel BinProofs BinProofs2 ShapeProps RollProofs3 RollProps ReshapeModel ReshapeProofs FactoryModel FactoryProps ConcatSpec ConcatModel ConcatProofs ConcatProofs2 ConcatProofs3 ConcatProps DiagSpec DiagModel DiagProps DiagProofs DiagProps2 DiagProps3 SplitModel SplitSpec SplitProofs SplitProps.
Open Scope Z_scope.

Lemma all_ok_err {A B} (f : A -> res B) l e : (forall x, In x l -> (exists y, f x = Ok y) \/ f x = Err e) -> (exists x, In x l /\ f x = Err e) -> all_ok (map f l) = Err e.
Proof.
  induction l as [|a l IH]; intros H (x & Hx & E); [destruct Hx|]. cbn [map all_ok]. destruct (H a (or_introl eq_refl)) as [[y Ey]|Ee].
  - rewrite Ey. cbn [bind]. rewrite IH; [reflexivity|intros z Hz; apply H; right; auto|]. destruct Hx as [->|Hx]; [congruence|]. exists x; auto.
  - rewrite Ee. reflexivity.
Qed.

Lemma nth_error_ranked {A} (ls : list A) r t : nth_error ls r = Some t -> nth_error (ranked ls) r = Some (r, t).
Proof.
  intros H. assert (Hr : (r < length ls)%nat) by (apply nth_error_Some; congruence). destruct (nth_error (ranked ls) r) as [[r' t']|] eqn:E; [|apply nth_error_None in E; rewrite ranked_length in E; lia].
  apply ranked_nth in E as (E1 & E2 & _). cbn in *. congruence.
Qed.

(** The hypothesis of C42_sections is needed: with more sections than processes, and
    the last process holding more than one section, the last process raises IndexError. *)
Theorem C42_sections_fail_refuted : forall (A : Type) (dflt : A) (x : dnd A) (G : list Z -> A) (P : nat) (k axis : Z),
  let nd := length (d_gshape x) in let ax := norm nd axis in let n := nth ax (d_gshape x) 0 in
  (1 < P)%nat -> is_rep P x G -> valid_axis nd axis -> d_split x = Some ax -> 0 < n -> n mod k = 0 ->
  Z.of_nat P < k -> n / k < n / Z.of_nat P ->
  split_arr dflt x (SecInt k) axis = Err IndexError.
Proof.
  intros A dflt x G P k axis nd ax n HP HXR V Es Hn HM HK HLT. pose proof HXR as [HL HR]. set (cnts := balanced_counts P (d_gshape x) (d_split x)) in *.
  assert (AX : (ax < nd)%nat) by (unfold ax, norm, valid_axis in *; destruct (Z.ltb_spec axis 0); lia).
  set (sz := n / k) in *. assert (EN : n = k * sz) by (unfold sz; apply Z.div_exact; lia). assert (Hsz : 0 < sz) by (apply Z.mul_pos_cancel_l with k; lia).
  unfold split_arr. fold nd. destruct (sanitize_int _ _ V) as (az & -> & EA). cbn [bind]. rewrite EA. fold ax. fold n.
  replace (k =? 0) with false by lia. rewrite HM. cbn [Z.eqb negb bind].
  assert (HR' := HR). unfold rep in HR'. rewrite Es in HR'. destruct HR' as (LC & NN & Hs & C & SM & Qr).
  assert (CB : cnts = zcounts n P) by (unfold cnts, balanced_counts; rewrite Es; reflexivity).
  assert (HPn : Z.of_nat P <= n) by (assert (k * 1 <= k * sz) by (apply Z.mul_le_mono_nonneg_l; lia); lia).
  assert (LOC : forall r t, nth_error (d_locals x) r = Some t -> (r < P)%nat ->
     split_local x (SecInt k) ax r t = do sizes <- case2_sizes k sz (zsum (firstn r cnts)) (nth r cnts 0); torch_split sizes ax t).
  { intros r t Ht Hr. unfold split_local. rewrite Es, HL, Nat.eqb_refl. replace (negb (Nat.eqb P 1)) with true by (symmetry; apply negb_true_iff, Nat.eqb_neq; lia). cbn [andb].
    fold n sz. replace (Z.of_nat P =? k) with false by lia. replace (k <? 0) with false by lia.
    pose proof (local_extent x cnts G ax r t HR AX Ht) as LE. rewrite Es, Nat.eqb_refl in LE. rewrite LE.
    assert (0 < nth r cnts 0). { rewrite CB, zcounts_nth by (auto; lia). assert (1 <= n / Z.of_nat P) by (apply Z.div_le_lower_bound; lia). destruct (Z.of_nat r <? n mod Z.of_nat P); lia. }
    replace (nth r cnts 0 =? 0) with false by lia. destruct (chunk_counts (d_gshape x) ax r P ltac:(lia) Hr) as [_ ->]. fold n. rewrite <- CB. reflexivity. }
  assert (POS : forall r, (r < P)%nat -> 0 < nth r cnts 0 /\ 0 <= zsum (firstn r cnts) /\ zsum (firstn r cnts) + nth r cnts 0 <= n).
  { intros r Hr. split; [rewrite CB, zcounts_nth by (auto; lia); assert (1 <= n / Z.of_nat P) by (apply Z.div_le_lower_bound; lia); destruct (Z.of_nat r <? n mod Z.of_nat P); lia|].
    split; [pose proof (zsum_firstn_mono cnts 0 r C ltac:(lia)) as MM; exact MM|]. rewrite <- zsum_firstn_S by lia. fold n in SM. rewrite <- SM. apply zsum_firstn_le; auto. }
  rewrite (all_ok_err _ _ IndexError); [reflexivity| |].
  - intros [r t] Hp. apply In_nth_error in Hp as [i Hp]. apply ranked_nth in Hp as (E1 & E2 & E3). cbn [fst snd] in *. subst i. rewrite HL in E3. rewrite (LOC r t E2 E3). destruct (POS r E3) as (P1 & P2 & P3). set (o := zsum (firstn r cnts)) in *. set (c := nth r cnts 0) in *.
    destruct (Z.eq_dec (o + c) n) as [EE|NE].
    + right. destruct (last_chunk n P r) as [_ LL]; try lia; try (rewrite <- CB; fold o c; lia). destruct (LL HPn) as [_ LC']. rewrite <- CB in LC'. fold c in LC'. assert (0 <= o mod sz) by (apply Z.mod_pos_bound; lia). rewrite case2_err; auto; lia.
    + left. rewrite case2_ok by lia. cbn [bind]. destruct (torch_split_step (fun j => cutp o c (Z.of_nat j * sz)) (Z.to_nat k) ax t) as (ps & E & _); [unfold cutp; lia| | |eauto].
      * rewrite Z2Nat.id by lia. pose proof (local_extent x cnts G ax r t HR AX E2) as LE. rewrite Es, Nat.eqb_refl in LE. rewrite LE. fold c. unfold cutp. lia.
      * intros j Hj. rewrite Nat2Z.inj_succ, Z.mul_succ_l. unfold cutp. lia.
  - destruct (nth_error (d_locals x) (P - 1)) as [t|] eqn:Et; [|apply nth_error_None in Et; lia]. exists ((P - 1)%nat, t). split.
    + apply (nth_error_In _ (P - 1)). apply nth_error_ranked. auto.
    + cbn [fst snd]. rewrite (LOC _ t Et) by lia. destruct (POS (P - 1)%nat ltac:(lia)) as (P1 & P2 & P3).
      assert (EE : zsum (firstn (P - 1) cnts) + nth (P - 1) cnts 0 = n). { rewrite <- zsum_firstn_S by lia. replace (S (P - 1)) with P by lia. rewrite firstn_all2 by lia. auto. }
      destruct (last_chunk n P (P - 1)) as [_ LL]; try lia; try (rewrite <- CB; lia). destruct (LL HPn) as [_ LC']. rewrite <- CB in LC'. assert (0 <= zsum (firstn (P - 1) cnts) mod sz) by (apply Z.mod_pos_bound; lia). rewrite case2_err; auto; lia.
Qed.
Print Assumptions C42_sections_fail_refuted.

(** ** A list of cut points in increasing order. *)
Fixpoint increasing (a : Z) (l : list Z) : Prop := match l with [] => True | x :: l' => a <= x /\ increasing x l' end.
Lemma increasing_nth l : forall a, increasing a l -> (forall j, (j < length l)%nat -> a <= nth j l 0) /\ forall j, (S j < length l)%nat -> nth j l 0 <= nth (S j) l 0.
Proof.
  induction l as [|x l IH]; intros a H; cbn [length]; [split; intros; lia|]. destruct H as [H1 H2]. destruct (IH x H2) as [I1 I2]. split.
  - intros [|j] Hj; cbn [nth]; [auto|]. specialize (I1 j ltac:(lia)). lia.
  - intros [|j] Hj; cbn [nth]; [apply (I1 0%nat); lia|]. apply I2. lia.
Qed.

Lemma cut_ends n l (f : Z -> Z) a b : f 0 = a -> f n = b -> (forall i, f (Z.min n i) = f i) ->
  forall j, (j <= S (length l))%nat -> nth j (a :: map f l ++ [b]) 0 = f (cut_point n l j).
Proof.
  intros F0 FN FM j Hj. destruct j as [|j]; cbn [nth cut_point]; [auto|]. destruct (Nat.ltb_spec j (length l)).
  - rewrite app_nth1 by (rewrite map_length; auto). rewrite FM. rewrite (nth_indep _ 0 (f 0)) by (rewrite map_length; auto). apply map_nth.
  - assert (j = length l) by lia. subst j. rewrite app_nth2 by (rewrite map_length; auto). rewrite map_length, Nat.sub_diag. cbn [nth]. auto.
Qed.

Theorem C42_cut_points : forall (A : Type) (dflt : A) (x : dnd A) (G : list Z -> A) (P : nat) (l : list Z) (axis : Z),
  let nd := length (d_gshape x) in let ax := norm nd axis in let n := nth ax (d_gshape x) 0 in
  (0 < P)%nat -> is_rep P x G -> valid_axis nd axis -> increasing 0 l ->
  exists ys, split_arr dflt x (SecList l) axis = Ok ys /\
    are_pieces P (d_split x) (d_gshape x) ax G (S (length l)) (cut_point n l) ys.
Proof.
  intros A dflt x G P l axis nd ax n HP HXR V HI. pose proof HXR as [HL HR]. set (cnts := balanced_counts P (d_gshape x) (d_split x)) in *.
  assert (AX : (ax < nd)%nat) by (unfold ax, norm, valid_axis in *; destruct (Z.ltb_spec axis 0); lia).
  assert (Hn : 0 <= n). { destruct HR as (_ & NN & _). rewrite Forall_forall in NN. apply NN, nth_In; auto. }
  destruct (increasing_nth l 0 HI) as [I1 I2].
  assert (CK : cut_point n l (S (length l)) = n) by (cbn [cut_point]; now rewrite Nat.ltb_irrefl).
  assert (CM : forall j, (j < S (length l))%nat -> cut_point n l j <= cut_point n l (S j)).
  { intros [|j] Hj; cbn [cut_point].
    - destruct (Nat.ltb_spec 0 (length l)); [specialize (I1 0%nat ltac:(lia)); lia|lia].
    - destruct (Nat.ltb_spec j (length l)), (Nat.ltb_spec (S j) (length l)); try lia. specialize (I2 j ltac:(lia)). lia. }
  assert (CP : forall j, (j <= S (length l))%nat -> 0 <= cut_point n l j). { intros j Hj. induction j as [|j IH]; [cbn; lia|]. specialize (CM j ltac:(lia)). specialize (IH ltac:(lia)). lia. }
  apply (split_finish dflt x G cnts P); auto.
  fold nd ax. intros r t Ht. assert (Hr : (r < P)%nat) by (rewrite <- HL; apply nth_error_Some; congruence).
  pose proof (local_extent x cnts G ax r t HR AX Ht) as LE. fold n in LE. unfold split_local, good_piece. rewrite HL. fold n.
  (* not along the split axis *)
  assert (WHOLE : nth ax (ash t) 0 = n -> exists ps, torch_split (diffs 0 (map (fun i => if i <=? n then i else n) l) n) ax t = Ok ps /\ length ps = S (length l) /\
     forall j d, (j < S (length l))%nat -> nth j ps d = narrow ax (cut_point n l j) (cut_point n l (S j) - cut_point n l j) t).
  { intros EX. rewrite (diffs_step (fun i => if i <=? n then i else n) _ 0 n (cut_point n l)) by (rewrite map_length; apply (cut_ends n l (fun i => if i <=? n then i else n)); [destruct (Z.leb_spec 0 n); lia|destruct (Z.leb_spec n n); lia|intros i; destruct (Z.leb_spec i n), (Z.leb_spec (Z.min n i) n); lia]).
    rewrite map_length. rewrite (step_counts_ext _ (cut_point n l)). 2:{ intros j Hj. assert (cut_point n l j <= n). { destruct j as [|j]; cbn [cut_point]; [lia|]. destruct (Nat.ltb_spec j (length l)); lia. } destruct (Z.leb_spec (cut_point n l j) n); lia. }
    apply torch_split_step; auto. rewrite CK. auto. }
  assert (HR' := HR). unfold rep in HR'. destruct (d_split x) as [s|] eqn:Es.
  2:{ destruct (WHOLE LE) as (ps & E & L & Q). exists ps. split; [auto|]. split; [auto|]. intros j Hj. apply Q; auto. }
  destruct HR' as (LC & NN & Hs & C & SM & Qr). destruct (Nat.eqb_spec s ax) as [ES|NS].
  2:{ cbn [andb]. destruct (WHOLE LE) as (ps & E & L & Q). exists ps. split; [auto|]. split; [auto|]. intros j Hj. apply Q; auto. }
  specialize (Qr r t Ht). subst s. set (o := zsum (firstn r cnts)) in *. set (c := nth r cnts 0) in *.
  assert (Hc : 0 <= c) by (rewrite Forall_forall in C; apply C, nth_In; lia). assert (Ho : 0 <= o) by (pose proof (zsum_firstn_mono cnts 0 r C ltac:(lia)) as MM; exact MM).
  assert (Hoc : o + c <= n). { unfold o, c. rewrite <- zsum_firstn_S by lia. fold n in SM. rewrite <- SM. apply zsum_firstn_le; auto. }
  assert (NAR : forall ps, length ps = S (length l) -> (forall j d, (j < S (length l))%nat -> nth j ps d = narrow ax (cutp o c (cut_point n l j)) (cutp o c (cut_point n l (S j)) - cutp o c (cut_point n l j)) t) ->
      forall j, (j < S (length l))%nat -> agrees (nth j ps (mk_arr [] (fun _ => dflt))) (upd (d_gshape x) ax (cutp o c (cut_point n l (S j)) - cutp o c (cut_point n l j))) (fun idx => G (move_axis_idx ax (cutp o c (cut_point n l j) + o) idx))).
  { intros ps L Q j Hj. rewrite Q by auto. pose proof (CP j ltac:(lia)). pose proof (CP (S j) ltac:(lia)). apply (narrow_agrees t (d_gshape x) ax c o); auto; unfold cutp; lia. }
  destruct (Nat.eqb_spec P 1) as [P1|NP1]; cbn [negb andb].
  { assert (r = 0%nat) by lia. subst r. assert (O0 : o = 0) by reflexivity. assert (CN : c = n). { fold n in SM. rewrite <- SM. unfold c. destruct cnts as [|c0 [|]]; cbn [length] in LC; try lia. unfold zsum; cbn; lia. }
    destruct (WHOLE ltac:(lia)) as (ps & E & L & Q). exists ps. split; [auto|]. split; [auto|]. apply NAR; auto. intros j d Hj. rewrite Q by auto.
    assert (BN : forall i, (i <= S (length l))%nat -> cut_point n l i <= n). { intros i Hi. destruct i as [|i]; cbn [cut_point]; [lia|]. destruct (Nat.ltb_spec i (length l)); lia. }
    pose proof (CP j ltac:(lia)). pose proof (CP (S j) ltac:(lia)). pose proof (BN j ltac:(lia)). pose proof (BN (S j) ltac:(lia)). f_equal; unfold cutp; lia. }
  assert (CB : cnts = zcounts n P) by reflexivity. destruct (chunk_counts (d_gshape x) ax r P HP Hr) as [-> ->]. rewrite upd_same by auto. fold n. rewrite <- CB. fold o c.
  rewrite map_map. set (f := fun i => if o + c <=? (if i <=? o then o else i) then o + c else if i <=? o then o else i).
  assert (FC : forall i, f i = o + cutp o c i) by (intros i; unfold f, cutp; destruct (Z.leb_spec i o), (Z.leb_spec (o + c) o), (Z.leb_spec (o + c) i); lia).
  rewrite (diffs_step f _ o (o + c) (cut_point n l)) by (rewrite map_length; apply (cut_ends n l f); [rewrite FC; unfold cutp; lia|rewrite FC; unfold cutp; lia|intros i; rewrite !FC; unfold cutp; lia]).
  rewrite map_length. assert (EQS : step_counts (fun j => f (cut_point n l j)) (S (length l)) = step_counts (fun j => cutp o c (cut_point n l j)) (S (length l))).
  { unfold step_counts. apply map_ext. intros j. rewrite !FC. lia. }
  rewrite EQS. destruct (torch_split_step (fun j => cutp o c (cut_point n l j)) (S (length l)) ax t) as (ps & E & L & Q).
  - cbn [cut_point]. unfold cutp. lia.
  - rewrite CK, LE. unfold cutp. lia.
  - intros j Hj. specialize (CM j Hj). unfold cutp. lia.
  - exists ps. split; [auto|]. split; [auto|]. apply NAR; auto.
Qed.
Print Assumptions C42_cut_points.

(** ** Rejections *)
Theorem C42_uneven_rejected : forall (A : Type) (dflt : A) (x : dnd A) (k axis : Z),
  valid_axis (length (d_gshape x)) axis -> k <> 0 -> nth (norm (length (d_gshape x)) axis) (d_gshape x) 0 mod k <> 0 ->
  split_arr dflt x (SecInt k) axis = Err ValueError.
Proof.
  intros A dflt x k axis V Hk Hm. unfold split_arr. destruct (sanitize_int _ _ V) as (az & -> & EA). cbn [bind]. rewrite EA. replace (k =? 0) with false by lia.
  destruct (Z.eqb_spec (nth (norm (length (d_gshape x)) axis) (d_gshape x) 0 mod k) 0); [lia|]. reflexivity.
Qed.

(** concrete cases *)
Definition v6 : dnd Z := mk_dnd [mk_arr [3] (fun i => nth 0 i 0); mk_arr [3] (fun i => nth 0 i 0 + 3)] [6] (Some 0%nat).
Lemma v6_rep : is_rep 2 v6 (fun i => nth 0 i 0).
Proof.
  split; [reflexivity|]. split; [reflexivity|]. split; [repeat constructor; lia|]. split; [cbn; lia|]. split; [apply zcounts_ok; cbn; lia|]. split; [reflexivity|].
  intros [|[|r]] t Ht; unfold v6 in Ht; cbn [d_locals nth_error] in Ht; try discriminate; [| |destruct r; discriminate]; injection Ht as <-; (split; [reflexivity|]);
  intros idx Hi; assert (LI := in_bounds_length _ _ Hi); destruct idx as [|i [|]]; try discriminate; unfold move_axis_idx; match goal with |- context [zsum ?l] => let v := eval vm_compute in (zsum l) in change (zsum l) with v end; cbn [adat nth upd]; lia.
Qed.
Example C42_eval : exists ys, split_arr 0 v6 (SecList [1; 4; 9]) 0 = Ok ys /\ map (fun y => map flat (d_locals y)) ys = [[[0]; []]; [[1; 2]; [3]]; [[4]; [5]]; [[]; []]].
Proof. eexists. split; vm_compute; reflexivity. Qed.
Example C42_hyps_list : exists ys, split_arr 0 v6 (SecList [1; 4; 9]) 0 = Ok ys /\ are_pieces 2 (Some 0%nat) [6] 0 (fun i => nth 0 i 0) 4 (cut_point 6 [1; 4; 9]) ys.
Proof. apply (C42_cut_points Z 0 v6 (fun i => nth 0 i 0) 2 [1; 4; 9] 0); [lia|apply v6_rep|unfold valid_axis; cbn; lia|cbn; lia]. Qed.
Example C42_hyps : exists ys, split_arr 0 v6 (SecInt 2) 0 = Ok ys /\ are_pieces 2 (Some 0%nat) [6] 0 (fun i => nth 0 i 0) 2 (fun j => Z.of_nat j * 3) ys.
Proof. apply (C42_sections Z 0 v6 (fun i => nth 0 i 0) 2 2 0); try (cbn; lia); [apply v6_rep|unfold valid_axis; cbn; lia]. Qed.
(** split(arange(6, split=0), 3) on two processes *)
Example C42_fail : split_arr 0 v6 (SecInt 3) 0 = Err IndexError.
Proof. reflexivity. Qed.
(** decreasing cut points, which NumPy accepts, raise *)
Theorem C42_decreasing_refuted : split_arr 0 v6 (SecList [4; 1]) 0 = Err RuntimeError.
Proof. reflexivity. Qed.
(** an empty axis: one piece instead of three *)
Theorem C42_empty_refuted : exists ys, split_arr 0 (mk_dnd [mk_arr [0] (fun _ => 0)] [0] None) (SecInt 3) 0 = Ok ys /\ length ys = 1%nat.
Proof. eexists. split; vm_compute; reflexivity. Qed.
(** an array that is not balanced *)
Theorem C42_unbalanced_refuted : split_arr 0 (mk_dnd [mk_arr [1] (fun _ => 0); mk_arr [3] (fun i => nth 0 i 0 + 1)] [4] (Some 0%nat)) (SecList [2]) 0 = Err RuntimeError.
Proof. reflexivity. Qed.
