(** Proofs about the counter sequence (C27). *)
From Verif Require Import Base BaseLemmas TensorSpec TensorLemmas NdSpec NdLemmas LayoutModel LayoutProofs DtypeModel DtypeProofs3 OpsModel RandSpec RandModel RandProofs ShapeProofs6.
Open Scope Z_scope.

Lemma add_loop_val f b x d : 1 <= b -> add_loop f b x d = wrapb b (x + d).
Proof.
  intros H. revert x d. induction f as [|f IH]; intros; cbn; auto. destruct (smask b <? d); auto.
  rewrite IH, wrapb_add_l by auto. f_equal. lia.
Qed.
Lemma x1_seq_val b a z : 1 <= b -> x1_seq b a z = map (fun i => wrapb b (a + i)) (zr (z - a)).
Proof.
  intros H. unfold x1_seq. apply map_ext. intros i. rewrite add_loop_val, wrapb_add_l by auto. f_equal.
  destruct (z <=? smask b); lia.
Qed.
Lemma x0_val_val b c : 1 <= b -> 0 <= c < 2 ^ b -> x0_val b c = wrapb b c.
Proof.
  intros H Hc. unfold x0_val, smask. rewrite (pow2_split b) in Hc by auto.
  destruct (Z.ltb_spec 0 (c - (2 ^ (b - 1) - 1))).
  - rewrite add_loop_val by auto. f_equal. lia.
  - symmetry. apply wrapb_id; auto. unfold is_word. lia.
Qed.

Section Seq.
Variables (b : Z) (c : Z).
Hypothesis Hb : 1 <= b.
Hypothesis Hc : 0 <= c.
Let c1 := Z.land c (mcount b).
Let c0 := Z.shiftr (Z.land c (Z.shiftl (mcount b) b)) b.
Lemma mcount_ones : mcount b = Z.ones b.
Proof. unfold mcount. now rewrite Z.ones_equiv, <- Z.sub_1_r. Qed.
Lemma c1_val : c1 = c mod 2 ^ b.
Proof. unfold c1. rewrite mcount_ones, Z.land_ones by lia. auto. Qed.
Lemma c0_val : c0 = (c / 2 ^ b) mod 2 ^ b.
Proof.
  unfold c0. rewrite Z.shiftr_land, Z.shiftr_shiftl_l, Z.sub_diag, Z.shiftl_0_r, mcount_ones, Z.land_ones by lia.
  now rewrite Z.shiftr_div_pow2 by lia.
Qed.
Lemma c1_range : 0 <= c1 < 2 ^ b.
Proof. rewrite c1_val. apply Z.mod_pos_bound, pow2_pos. lia. Qed.

Lemma lo_ok k : wrapb b (c1 + k) = lo_word b (c + k).
Proof.
  change (lo_word b (c + k)) with (wrapb b (c + k)). pose proof (pow2_pos b ltac:(lia)). apply wrapb_cong; auto.
  rewrite c1_val. apply Zplus_mod_idemp_l.
Qed.
Lemma hi_ok k : 0 <= k -> c1 + k < 2 * 2 ^ b ->
  hi_word b (c + k) = if 2 ^ b <=? c1 + k then wrapb b (wrapb b c0 + 1) else wrapb b c0.
Proof.
  intros Hk HL. change (hi_word b (c + k)) with (wrapb b ((c + k) / 2 ^ b)). pose proof (pow2_pos b ltac:(lia)). pose proof c1_range as R1.
  rewrite c1_val, c0_val in *. set (M := 2 ^ b) in *.
  assert (E : (c + k) / M = c / M + (c mod M + k) / M).
  { rewrite <- Z.div_add_l by lia. f_equal. pose proof (Z.div_mod c M ltac:(lia)) as D. rewrite D at 1. ring. }
  rewrite E. destruct (Z.leb_spec M (c mod M + k)).
  - rewrite wrapb_add_l by auto. apply wrapb_cong; auto.
    assert (Q : (c mod M + k) / M = 1) by (symmetry; apply Z.div_unique_pos with (c mod M + k - M); [split|]; clear - H0 HL H; lia).
    rewrite Q.
    fold M. now rewrite Zplus_mod_idemp_l.
  - apply wrapb_cong; auto. rewrite (Z.div_small (c mod M + k) M), Z.add_0_r by lia. fold M. now rewrite Z.mod_mod by lia.
Qed.

(** the pairs fed to the cipher are the words of the counters c+a, c+a+1, ... *)
Lemma pairs_ok a m : 0 <= a -> 0 <= m -> a + m <= 2 ^ b ->
  (c1 + a + m = 2 ^ b -> m = 0) ->
  combine (x0_seq b c0 (c1 + a) (c1 + a + m)) (x1_seq b (c1 + a) (c1 + a + m)) =
  map (fun i => (hi_word b (c + (a + i)), lo_word b (c + (a + i)))) (zr m).
Proof.
  intros Ha Hm HL HC. pose proof c1_range as R1. pose proof (pow2_pos b ltac:(lia)) as PP.
  rewrite x1_seq_val by auto. unfold x0_seq. rewrite x0_val_val; auto.
  2:{ rewrite c0_val. apply Z.mod_pos_bound; auto. }
  replace (c1 + a + m - (c1 + a)) with m by lia.
  assert (K : forall g : Z -> Z, (forall i, 0 <= i < m -> g i = hi_word b (c + (a + i))) ->
    combine (map g (zr m)) (map (fun i => wrapb b (c1 + a + i)) (zr m)) =
    map (fun i => (hi_word b (c + (a + i)), lo_word b (c + (a + i)))) (zr m)).
  { intros g Hg. assert (HI : forall i, In i (zr m) -> 0 <= i < m) by (intros i; apply in_zr).
    induction (zr m) as [|x l IH]; cbn; auto. rewrite IH by (intros; apply HI; now right).
    rewrite Hg by (apply HI; now left). rewrite <- lo_ok. do 3 f_equal. lia. }
  unfold mcount. destruct (Z.ltb_spec (2 ^ b - 1) (c1 + a + m)).
  - destruct (Z.ltb_spec (2 ^ b - 1) (c1 + a)).
    + apply K. intros i Hi. rewrite hi_ok by lia. destruct (Z.leb_spec (2 ^ b) (c1 + (a + i))); [auto|lia].
    + apply K. intros i Hi. rewrite hi_ok by lia.
      destruct (Z.eqb_spec (c1 + a + m - (2 ^ b - 1) - 1) 0); [lia|].
      destruct (Z.leb_spec (m - (c1 + a + m - (2 ^ b - 1) - 1)) i); destruct (Z.leb_spec (2 ^ b) (c1 + (a + i))); auto; lia.
  - apply K. intros i Hi. rewrite hi_ok by lia. destruct (Z.leb_spec (2 ^ b) (c1 + (a + i))); [lia|auto].
Qed.
End Seq.

(** consecutive stream positions *)
Definition zrange (a n : Z) : list Z := map (Z.add a) (zr n).
Lemma zrange_length a n : length (zrange a n) = Z.to_nat n.
Proof. unfold zrange. now rewrite map_length, length_zr. Qed.
Lemma zrange_app a n m : 0 <= n -> 0 <= m -> zrange a (n + m) = zrange a n ++ zrange (a + n) m.
Proof. intros. unfold zrange. rewrite zr_app, map_app, map_map by auto. f_equal. apply map_ext. intros; lia. Qed.
Lemma zrange_cons a n : 0 < n -> zrange a n = a :: zrange (a + 1) (n - 1).
Proof.
  intros. replace n with (1 + (n - 1)) at 1 by lia. rewrite zrange_app by lia. unfold zrange at 1. rewrite zr_1. cbn.
  now rewrite Z.add_0_r.
Qed.
Lemma zrange_snoc a n : 0 < n -> zrange a n = zrange a (n - 1) ++ [a + (n - 1)].
Proof.
  intros. replace n with ((n - 1) + 1) at 1 by lia. rewrite zrange_app by lia. f_equal. unfold zrange. rewrite zr_1. cbn.
  now rewrite Z.add_0_r.
Qed.
Lemma zrange_nth a n k d : 0 <= k < n -> nth (Z.to_nat k) (zrange a n) d = a + k.
Proof.
  intros Hk. unfold zrange, zr. rewrite map_map. rewrite (@nth_map_seq _ (fun x => a + Z.of_nat x)) by lia. lia.
Qed.

Lemma flat_pairs (S : Z -> Z) a m : 0 <= m ->
  flat_map (fun i => [S (2 * (a + i)); S (2 * (a + i) + 1)]) (zr m) = map S (zrange (2 * a) (2 * m)).
Proof.
  intros Hm. pattern m. apply natlike_ind; auto; clear m Hm.
  intros m Hm IH. rewrite <- Z.add_1_r. rewrite zr_S by auto. rewrite flat_map_app', IH.
  replace (2 * (m + 1)) with (2 * m + 2) by lia. rewrite zrange_app, map_app by lia. f_equal.
  cbn [flat_map app]. unfold zrange. change (zr 2) with [0; 1]. cbn [map].
  replace (2 * a + 2 * m + 0) with (2 * (a + m)) by lia. replace (2 * a + 2 * m + 1) with (2 * (a + m) + 1) by lia. auto.
Qed.

Definition slice_lo (sl : bool * bool) : Z := if fst sl then 1 else 0.
Definition slice_hi (sl : bool * bool) : Z := if snd sl then 1 else 0.
Lemma take_slice_range (S : Z -> Z) sl a n : slice_lo sl + slice_hi sl <= n ->
  take_slice sl (map S (zrange a n)) = map S (zrange (a + slice_lo sl) (n - slice_lo sl - slice_hi sl)).
Proof.
  destruct sl as [[] []]; unfold take_slice, slice_lo, slice_hi; cbn [fst snd]; intros H.
  - rewrite zrange_cons by lia. cbn [map tl]. rewrite zrange_snoc by lia. rewrite map_app. cbn.
    rewrite removelast_last. do 2 f_equal; lia.
  - rewrite zrange_cons by lia. cbn. do 2 f_equal; lia.
  - rewrite zrange_snoc by lia. rewrite map_app. cbn. rewrite removelast_last. do 2 f_equal; lia.
  - do 2 f_equal; lia.
Qed.

Lemma even_2 k : Z.even (2 * k) = true. Proof. rewrite Z.even_mul. auto. Qed.
Lemma even_2S k : Z.even (2 * k + 1) = false. Proof. rewrite Z.even_add, Z.even_mul. auto. Qed.

(** the values a rank produces from its counter range *)
Lemma values_ok b F c a m sl : 1 <= b -> 0 <= c -> 0 <= a -> 0 <= m -> a + m <= 2 ^ b ->
  let c1 := Z.land c (mcount b) in
  let c0 := Z.shiftr (Z.land c (Z.shiftl (mcount b) b)) b in
  (c mod 2 ^ b + a + m = 2 ^ b -> m = 0) -> slice_lo sl + slice_hi sl <= 2 * m ->
  local_values F (x0_seq b c0 (c1 + a) (c1 + a + m)) (x1_seq b (c1 + a) (c1 + a + m)) sl =
  map (stream b (fun x y => F (x, y)) c) (zrange (2 * a + slice_lo sl) (2 * m - slice_lo sl - slice_hi sl)).
Proof.
  intros Hb Hc Ha Hm HL c1 c0 HC Hsl. unfold local_values. unfold c1, c0.
  rewrite pairs_ok; auto. 2:{ rewrite c1_val by lia. auto. }
  rewrite flat_map_map. rewrite <- take_slice_range by auto. f_equal.
  rewrite <- flat_pairs by auto. apply flat_map_ext_in. intros i _. unfold stream.
  rewrite even_2, even_2S. cbn [fst snd].
  replace (2 * (a + i) / 2) with (a + i) by lia. replace ((2 * (a + i) + 1) / 2) with (a + i) by lia. reflexivity.
Qed.
