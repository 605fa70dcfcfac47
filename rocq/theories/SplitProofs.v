(** ht.split: sizes on each rank and the pieces they give. *)
From Verif Require Import Base BaseLemmas LayoutModel LayoutProofs NdSpec TensorSpec TensorLemmas NdLemmas OpsModel OpsProofs2 OpsProofs4 RedistModel RedistProofs ShapeSpec ShapeModel ShapeProofs ShapeProofs2 ShapeProofs3 ShapeProofs4 ShapeProofs5 ShapeProofs6 BinModel BinProofs BinProofs2 ShapeProps RollProofs3 RollProps ReshapeModel ReshapeProofs FactoryModel FactoryProps ConcatSpec ConcatModel ConcatProofs ConcatProofs2 ConcatProofs3 ConcatProps DiagSpec DiagModel DiagProps DiagProofs DiagProps2 DiagProps3 SplitModel.
Open Scope Z_scope.

Lemma narrows_length {A} axis sizes : forall start (t : arr A), length (narrows axis start sizes t) = length sizes.
Proof. induction sizes as [|c l IH]; intros; cbn [narrows length]; [auto|now rewrite IH]. Qed.
Lemma narrows_nth {A} axis sizes d : forall start (t : arr A) j, (j < length sizes)%nat ->
  nth j (narrows axis start sizes t) d = narrow axis (start + zsum (firstn j sizes)) (nth j sizes 0) t.
Proof.
  induction sizes as [|c l IH]; intros start t j Hj; cbn [length] in Hj; [lia|]. destruct j as [|j]; cbn [narrows nth].
  - change (zsum (firstn 0 (c :: l))) with 0. now rewrite Z.add_0_r.
  - rewrite IH by lia. cbn [firstn]. change (zsum (c :: firstn j l)) with (c + zsum (firstn j l)). f_equal. lia.
Qed.

(** how many of the elements [o, o+c) lie below [b] *)
Definition cutp (o c b : Z) : Z := Z.min (o + c) b - Z.min o b.
Lemma set_item_ok l i v : 0 <= i < Z.of_nat (length l) -> set_item l i v = Ok (upd l (Z.to_nat i) v).
Proof. intros H. unfold set_item. replace ((0 <=? i) && (i <? Z.of_nat (length l))) with true by lia. auto. Qed.
Lemma set_slice_length l a b v : length (set_slice l a b v) = length l.
Proof. unfold set_slice. now rewrite map_length, ranked_length. Qed.
Lemma set_slice_nth l a b v j : (j < length l)%nat -> nth j (set_slice l a b v) 0 = if (a <=? Z.of_nat j) && (Z.of_nat j <? b) then v else nth j l 0.
Proof.
  intros Hj. unfold set_slice. destruct (nth_error (ranked l) j) as [[r x]|] eqn:E; [|apply nth_error_None in E; rewrite ranked_length in E; lia].
  erewrite nth_error_nth; [|rewrite nth_error_map, E; reflexivity]. apply ranked_nth in E as (E1 & E2 & _). cbn [fst snd] in *. subst r. now rewrite (nth_error_nth _ _ _ E2).
Qed.

Lemma case2_ok k sz o c : 0 < k -> 0 < sz -> 0 <= o -> 0 < c -> o + c <= k * sz -> (o mod sz + c <= sz \/ o + c < k * sz) ->
  case2_sizes k sz o c = Ok (step_counts (fun j => cutp o c (Z.of_nat j * sz)) (Z.to_nat k)).
Proof.
  intros Hk Hs Ho Hc Hn HC. unfold case2_sizes. set (q := o / sz). set (m := o mod sz).
  assert (Eo : o = q * sz + m) by (unfold q, m; rewrite (Z.mul_comm (o / sz)); apply Z.div_mod; lia). assert (Hm : 0 <= m < sz) by (apply Z.mod_pos_bound; lia).
  assert (Hq : 0 <= q) by (apply Z.div_pos; lia). assert (Hqk : q < k). { apply Z.mul_lt_mono_pos_r with sz; lia. }
  set (zeros := repeat 0 (Z.to_nat k)). assert (LZ : length zeros = Z.to_nat k) by apply repeat_length.
  assert (NZ : forall j, nth j zeros 0 = 0) by (intros j; unfold zeros; rewrite nth_repeat; auto).
  destruct (Z.leb_spec c (sz - m)) as [L|L].
  - rewrite set_item_ok by lia. f_equal. apply (@nth_ext2 _ _ _ 0); [now rewrite upd_length, step_counts_length|]. intros j Hj. rewrite upd_length, LZ in Hj. rewrite step_counts_nth by auto. unfold cutp.
    destruct (Nat.eq_dec j (Z.to_nat q)) as [->|N].
    + rewrite upd_same by lia. rewrite !Nat2Z.inj_succ. rewrite Z2Nat.id by lia. rewrite Z.mul_succ_l. lia.
    + rewrite upd_other by auto. rewrite NZ, Nat2Z.inj_succ. destruct (Z_lt_le_dec (Z.of_nat j) q) as [Lj|Lj].
      * assert (Z.succ (Z.of_nat j) * sz <= q * sz) by (apply Z.mul_le_mono_nonneg_r; lia). rewrite Z.mul_succ_l in *. lia.
      * assert (Z.succ q * sz <= Z.of_nat j * sz) by (apply Z.mul_le_mono_nonneg_r; lia). rewrite Z.mul_succ_l in *. lia.
  - rewrite set_item_ok by lia. cbn [bind]. set (l := upd zeros (Z.to_nat q) (sz - m)). set (left := c - (sz - m)). set (f := left / sz). set (g := left mod sz).
    assert (El : left = f * sz + g) by (unfold f, g; rewrite (Z.mul_comm (left / sz)); apply Z.div_mod; lia). assert (Hg : 0 <= g < sz) by (apply Z.mod_pos_bound; lia).
    assert (Hf : 0 <= f) by (apply Z.div_pos; unfold left; lia).
    assert (EN : o + c = (q + 1 + f) * sz + g) by (rewrite !Z.mul_add_distr_r; unfold left in *; lia).
    assert (HI : q + 1 + f < k). { apply Z.mul_lt_mono_pos_r with sz; lia. }
    rewrite set_item_ok by (rewrite set_slice_length; unfold l; rewrite upd_length; lia). f_equal.
    apply (@nth_ext2 _ _ _ 0); [rewrite upd_length, set_slice_length; unfold l; now rewrite upd_length, step_counts_length|]. intros j Hj. rewrite upd_length, set_slice_length in Hj. assert (Hj' := Hj). unfold l in Hj'. rewrite upd_length, LZ in Hj'. rewrite step_counts_nth by auto. unfold cutp. rewrite Nat2Z.inj_succ.
    destruct (Nat.eq_dec j (Z.to_nat (f + (q + 1)))) as [->|N].
    + rewrite upd_same by (rewrite set_slice_length; auto). rewrite Z2Nat.id by lia. replace (f + (q + 1)) with (q + 1 + f) by lia. rewrite Z.mul_succ_l. 
      assert (q * sz <= (q + 1 + f) * sz) by (apply Z.mul_le_mono_nonneg_r; lia). assert ((q + 1) * sz <= (q + 1 + f) * sz) by (apply Z.mul_le_mono_nonneg_r; lia). rewrite (Z.mul_add_distr_r q 1 sz) in *. lia.
    + rewrite upd_other by auto. rewrite set_slice_nth by auto. destruct ((q + 1 <=? Z.of_nat j) && (Z.of_nat j <? f + (q + 1))) eqn:EB.
      * assert ((q + 1) * sz <= Z.of_nat j * sz) by (apply Z.mul_le_mono_nonneg_r; lia). assert (Z.succ (Z.of_nat j) * sz <= (q + 1 + f) * sz) by (apply Z.mul_le_mono_nonneg_r; lia). rewrite Z.mul_succ_l, (Z.mul_add_distr_r q 1 sz) in *. lia.
      * unfold l. destruct (Nat.eq_dec j (Z.to_nat q)) as [->|Nq].
        -- rewrite upd_same by lia. rewrite Z2Nat.id by lia. rewrite Z.mul_succ_l. lia.
        -- rewrite upd_other by auto. rewrite NZ. destruct (Z_lt_le_dec (Z.of_nat j) q) as [Lj|Lj].
           ++ assert (Z.succ (Z.of_nat j) * sz <= q * sz) by (apply Z.mul_le_mono_nonneg_r; lia). rewrite Z.mul_succ_l in *. lia.
           ++ assert ((q + 1 + f + 1) * sz <= Z.of_nat j * sz) by (apply Z.mul_le_mono_nonneg_r; lia). rewrite (Z.mul_add_distr_r (q + 1 + f) 1 sz) in *. rewrite Z.mul_succ_l. 
              lia.
Qed.
Lemma case2_err k sz o c : 0 < k -> 0 < sz -> 0 <= o -> 0 < c -> o + c = k * sz -> sz < o mod sz + c -> case2_sizes k sz o c = Err IndexError.
Proof.
  intros Hk Hs Ho Hc Hn HC. unfold case2_sizes. set (q := o / sz). set (m := o mod sz) in *.
  assert (Eo : o = q * sz + m) by (unfold q, m; rewrite (Z.mul_comm (o / sz)); apply Z.div_mod; lia). assert (Hm : 0 <= m < sz) by (apply Z.mod_pos_bound; lia).
  assert (Hq : 0 <= q) by (apply Z.div_pos; lia). assert (Hqk : q < k). { apply Z.mul_lt_mono_pos_r with sz; lia. }
  destruct (Z.leb_spec c (sz - m)) as [L|L]; [lia|]. rewrite set_item_ok by (rewrite repeat_length; lia). cbn [bind]. set (left := c - (sz - m)).
  unfold set_item. rewrite set_slice_length, upd_length, repeat_length.
  assert (El : left = left / sz * sz + left mod sz) by (rewrite (Z.mul_comm (left / sz)); apply Z.div_mod; lia). assert (Hg : 0 <= left mod sz < sz) by (apply Z.mod_pos_bound; lia). set (f := left / sz) in *.
  assert (k <= q + 1 + f). { apply Z.lt_succ_r. apply Z.mul_lt_mono_pos_r with sz; [lia|]. rewrite Z.mul_succ_l, !Z.mul_add_distr_r. unfold left in *. lia. }
  replace ((0 <=? f + (q + 1)) && _) with false by lia. auto.
Qed.

(** differences of a list *)
Lemma diffs_length l : forall a b, length (diffs a l b) = S (length l).
Proof. induction l as [|x l IH]; intros; cbn [diffs length]; auto. Qed.
Lemma diffs_nth l : forall a b j, (j <= length l)%nat -> nth j (diffs a l b) 0 = nth (S j) (a :: l ++ [b]) 0 - nth j (a :: l ++ [b]) 0.
Proof. induction l as [|x l IH]; intros a b j Hj; cbn [length] in Hj; [assert (j = 0)%nat by lia; subst; reflexivity|]. destruct j as [|j]; [reflexivity|]. cbn [diffs nth]. rewrite IH by lia. reflexivity. Qed.
Lemma diffs_step (f : Z -> Z) l a b (bs : nat -> Z) : (forall j, (j <= S (length l))%nat -> nth j (a :: l ++ [b]) 0 = f (bs j)) ->
  diffs a l b = step_counts (fun j => f (bs j)) (S (length l)).
Proof.
  intros H. apply (@nth_ext2 _ _ _ 0); [now rewrite diffs_length, step_counts_length|]. intros j Hj. rewrite diffs_length in Hj. rewrite diffs_nth by lia. rewrite step_counts_nth by auto. now rewrite !H by lia.
Qed.
Lemma step_counts_ext f g k : (forall j, (j <= k)%nat -> f j = g j) -> step_counts f k = step_counts g k.
Proof. intros H. unfold step_counts. apply map_ext_in. intros j Hj. apply in_seq in Hj. now rewrite !H by lia. Qed.

Lemma torch_split_step {A} (f : nat -> Z) k axis (t : arr A) : f 0%nat = 0 -> f k = nth axis (ash t) 0 -> (forall j, (j < k)%nat -> f j <= f (S j)) ->
  exists ps, torch_split (step_counts f k) axis t = Ok ps /\ length ps = k /\ forall j d, (j < k)%nat -> nth j ps d = narrow axis (f j) (f (S j) - f j) t.
Proof.
  intros F0 FK FM. unfold torch_split.
  assert (SM : zsum (step_counts f k) = f k). { rewrite <- (firstn_all (step_counts f k)), step_counts_length, step_counts_firstn by lia. lia. }
  replace (_ || _) with false.
  2:{ symmetry. apply orb_false_iff. split; [|rewrite SM, FK, Z.eqb_refl; auto]. apply not_true_iff_false. intros E. apply existsb_exists in E as (x & Hx & E). apply (In_nth _ _ 0) in Hx as (j & Hj & <-). rewrite step_counts_length in Hj. rewrite step_counts_nth in E by auto. specialize (FM j Hj). lia. }
  eexists. split; [reflexivity|]. split; [now rewrite narrows_length, step_counts_length|]. intros j d Hj. rewrite narrows_nth by (rewrite step_counts_length; auto). rewrite step_counts_firstn, step_counts_nth by lia. f_equal. lia.
Qed.
Lemma torch_split_int_step {A} k sz axis (t : arr A) : 0 < k -> 0 < sz -> nth axis (ash t) 0 = k * sz ->
  exists ps, torch_split_int sz axis t = Ok ps /\ length ps = Z.to_nat k /\ forall j d, (j < Z.to_nat k)%nat -> nth j ps d = narrow axis (Z.of_nat j * sz) (Z.of_nat (S j) * sz - Z.of_nat j * sz) t.
Proof.
  intros Hk Hs Hn. unfold torch_split_int. rewrite Hn. replace (sz <? 0) with false by lia. replace (sz =? 0) with false by lia.
  assert (EK : Z.max 1 ((k * sz + sz - 1) / sz) = k).
  { replace (k * sz + sz - 1) with (sz - 1 + k * sz) by lia. rewrite Z.div_add by lia. rewrite Z.div_small by lia. lia. }
  rewrite EK. assert (ES : map (fun j => Z.min sz (k * sz - j * sz)) (zr k) = step_counts (fun j => Z.of_nat j * sz) (Z.to_nat k)).
  { unfold zr, step_counts. rewrite map_map. apply map_ext_in. intros j Hj. apply in_seq in Hj. rewrite Nat2Z.inj_succ, Z.mul_succ_l. assert (Z.succ (Z.of_nat j) * sz <= k * sz) by (apply Z.mul_le_mono_nonneg_r; lia). rewrite Z.mul_succ_l in *. lia. }
  rewrite ES. eexists. split; [reflexivity|]. split; [now rewrite narrows_length, step_counts_length|]. intros j d Hj. rewrite narrows_nth by (rewrite step_counts_length; auto). rewrite step_counts_firstn, step_counts_nth by lia. f_equal. lia.
Qed.
