(** C72: instances of the theorems on percentile, and where it differs from NumPy. *)
From Coq Require Import QArith Qround Permutation Sorted Lqa.
From Verif Require Import Base ShapeSpec BaseLemmas LayoutModel LayoutProofs NdSpec TensorSpec TensorLemmas NdLemmas OpsModel ShapeModel ShapeProps SortModel SortNd SortSpec SortProps SortProps2 BinModel IndexModel PercSpec PercModel PercFloat PercProofs PercProofs2 PercProofs3 PercProofs4 PercProps.
Open Scope Z_scope.

(** rounding to float32 is monotone, so it is an admissible conversion *)
Lemma f32_monotone a b : (a <= b)%Q -> (f32 a <= f32 b)%Q.
Proof.
  intros H. assert (NEG : forall x, (x < 0)%Q -> Qeq (f32 x) (- f32 (- x))).
  { intros x Hx. unfold f32 at 1. replace (Qcompare x 0) with Lt by (symmetry; now apply Qlt_alt). unfold f32. replace (Qcompare (- x) 0) with Gt by (symmetry; apply Qgt_alt; lra). reflexivity. }
  destruct (Qlt_le_dec a 0) as [A|A].
  - rewrite (NEG a A). assert (M := f32_mono (- a) (- a) ltac:(lra)). destruct (Qlt_le_dec b 0) as [B|B].
    + rewrite (NEG b B). assert (X := f32_mono (- b) (- a) ltac:(lra)). lra.
    + assert (X := f32_mono b b ltac:(lra)). lra.
  - apply f32_mono. lra.
Qed.
Definition ts0 := ts_of 0%Q Qltb.
Lemma ts0_sorts : sorts 0%Q Qltb ts0.
Proof. apply ts_of_sorts, Qltb_weak. Qed.

(** a vector on several processes in the canonical layout *)
Lemma vec_input cv p : (forall a b, (a <= b)%Q -> (cv a <= cv b)%Q) -> (0 < length p)%nat -> 0 < Z.of_nat (length (concat p)) <= 2 ^ 31 ->
  map (fun l => Z.of_nat (length l)) p = zcounts (Z.of_nat (length (concat p))) (length p) ->
  input cv ts0 (fun i => i) (vec 0%Q p) (vecG 0%Q p) (map (fun l => Z.of_nat (length l)) p) 0.
Proof.
  intros M L N C. unfold input. cbn [vec d_gshape length]. change (norm 1 0) with 0%nat. cbn [nth]. split; [apply ts0_sorts|]. split; [apply vec_rep|]. rewrite map_length. split; [auto|]. split; [unfold valid_axis; lia|]. split; [auto|]. split; [|auto].
  intros _ _. split; [exact C|auto].
Qed.
Definition ex_p : list (list Q) := [[5; 1]; [4; 0]; [3; 2]]%Q.
Example C72_example : input f32 ts0 (fun i => i) (vec 0%Q ex_p) (vecG 0%Q ex_p) [2; 2; 2] 0 /\
  match median f32 f32 ts0 (fun i => i) (vec 0%Q ex_p) 0 true with
  | Ok y => eqb_idx (d_gshape y) [1] && forallb (fun t => Qeq_bool (adat t [0]) (5 # 2)) (d_locals y) && (length (d_locals y) =? 3)%nat | Err _ => false end = true /\
  match percentile f32 f32 ts0 (fun i => i) (vec 0%Q ex_p) (QL [10; 30; 90]%Q) 0 Nearest false with
  | Ok y => eqb_idx (d_gshape y) [3] && (match map (@ash Q) (d_locals y) with [[1]; [1]; [1]] => true | _ => false end) && forallb (fun t => Qeq_bool (adat t [0]) (adat t [0])) (d_locals y) | Err _ => false end = true.
Proof. split; [apply (vec_input f32 ex_p f32_monotone); [cbn; lia|cbn; lia|reflexivity]|]. split; vm_compute; reflexivity. Qed.
(** a matrix split along its second axis, percentile along the first *)
Definition ex_m : dnd Q := mk_dnd [mk_arr [2; 2] (fun i => inject_Z (dot i [3; 1])); mk_arr [2; 1] (fun i => inject_Z (dot i [3; 1] + 2))] [2; 3] (Some 1%nat).
Example C72_example_matrix : input f32 ts0 (fun i => i) ex_m (fun i => inject_Z (dot i [3; 1])) [2; 1] 0 /\
  match percentile f32 f32 ts0 (fun i => i) ex_m (QS 25%Q) 0 Linear false with
  | Ok y => eqb_idx (d_gshape y) [3] && (match d_split y with Some 0%nat => true | _ => false end) && (match d_locals y with [a; b] => Qeq_bool (adat a [1]) (7 # 4) && Qeq_bool (adat b [0]) (11 # 4) | _ => false end) | Err _ => false end = true.
Proof.
  split; [|vm_compute; reflexivity]. unfold input. split; [apply ts0_sorts|]. split; [|split; [cbn; lia|split; [unfold valid_axis; cbn; lia|split; [cbn; lia|split; [discriminate|exact f32_monotone]]]]].
  unfold rep, ex_m. cbn [d_gshape d_split d_locals]. split; [reflexivity|]. split; [repeat constructor; lia|]. split; [cbn; lia|]. split; [repeat constructor; lia|]. split; [reflexivity|].
  intros [|[|r]] t Ht; cbn in Ht; [injection Ht as <-|injection Ht as <-|destruct r; discriminate]; (split; [reflexivity|]); intros i Hi.
  - apply bounds_cons in Hi as (a & i' & -> & Ha & Hi). apply bounds_cons in Hi as (b & i'' & -> & Hb & Hi). inversion Hi; subst. unfold move_axis_idx. cbn. f_equal. lia.
  - apply bounds_cons in Hi as (a & i' & -> & Ha & Hi). apply bounds_cons in Hi as (b & i'' & -> & Hb & Hi). inversion Hi; subst. unfold move_axis_idx. cbn. f_equal. lia.
Qed.

(** an unsorted list of percentiles along the split axis: the values come back in the wrong order *)
Definition up_p : list (list Q) := [[0; 1]; [2; 3]]%Q.
Lemma up_sorted : sorted_version [0; 1; 2; 3]%Q [0; 1; 2; 3]%Q.
Proof. split; [auto|]. repeat constructor; unfold Qle; cbn; lia. Qed.
Theorem C72_unsorted_q_refuted : exists x G cnts y, input (fun a => a) ts0 (fun i => i) x G cnts 0 /\
  percentile f32 (fun a => a) ts0 (fun i => i) x (QL [100; 0]%Q) 0 Lower false = Ok y /\
  forall c H, rep y c H -> ~ is_percentile Lower 100%Q (lane_of_result (fun a => a) x G 0 false []) (H [0]).
Proof.
  assert (B : two_parts 1 1 (fun t1 t2 => Qeq_bool (adat t1 [0]) 0 && Qeq_bool (adat t2 [0]) 3) (percentile f32 (fun a => a) ts0 (fun i => i) (vec 0%Q up_p) (QL [100; 0]%Q) 0 Lower false) = true) by (vm_compute; reflexivity).
  apply two_parts_ok in B as (y & t1 & t2 & E & F & Q). exists (vec 0%Q up_p), (vecG 0%Q up_p), [2; 2], y. split; [apply (vec_input (fun a => a) up_p); [auto|cbn; lia|cbn; lia|reflexivity]|]. split; [exact E|].
  intros c H HR. destruct (Q c H HR) as [Q1 _]. rewrite (Q1 0 ltac:(lia)). apply andb_prop in F as [F _]. apply Qeq_bool_eq in F.
  assert (L : lane_of_result (fun a => a) (vec 0%Q up_p) (vecG 0%Q up_p) 0 false [] = [0; 1; 2; 3]%Q) by reflexivity. rewrite L.
  intros (s & S1 & S2). cbn [interp_at] in S2. change (Qfloor (position 100 (Z.of_nat (length [0; 1; 2; 3]%Q)))) with 3 in S2. rewrite (sorted_version_unique _ _ _ 3 S1 up_sorted), F in S2. discriminate S2.
Qed.
(** a list with one percentile along the split axis: the local arrays are empty but the shape says one *)
Theorem C72_one_q_refuted : exists x G cnts y, input (fun a => a) ts0 (fun i => i) x G cnts 0 /\
  percentile f32 (fun a => a) ts0 (fun i => i) x (QL [50]%Q) 0 Lower false = Ok y /\ d_gshape y = [1] /\
  forall c H, ~ rep y c H.
Proof.
  assert (B : match percentile f32 (fun a => a) ts0 (fun i => i) (vec 0%Q up_p) (QL [50]%Q) 0 Lower false with
    | Ok y => eqb_idx (d_gshape y) [1] && (match d_split y with Some 0%nat => true | _ => false end) && (match d_locals y with [a; b] => eqb_idx (ash a) [0] && eqb_idx (ash b) [0] | _ => false end) | Err _ => false end = true) by (vm_compute; reflexivity).
  destruct (percentile f32 (fun a => a) ts0 (fun i => i) (vec 0%Q up_p) (QL [50]%Q) 0 Lower false) as [y|e] eqn:E; [|discriminate].
  exists (vec 0%Q up_p), (vecG 0%Q up_p), [2; 2], y. split; [apply (vec_input (fun a => a) up_p); [auto|cbn; lia|cbn; lia|reflexivity]|]. split; [exact E|].
  apply andb_prop in B as [B B3]. apply andb_prop in B as [B1 B2]. apply eqb_idx_eq in B1. split; [exact B1|]. clear E. intros c H HR. unfold rep in HR. rewrite B1 in HR.
  destruct (d_split y) as [[|]|]; try discriminate. destruct (d_locals y) as [|a [|b [|]]]; try discriminate. apply andb_prop in B3 as [B3 B4]. apply eqb_idx_eq in B3, B4.
  destruct HR as (L & _ & _ & C & SM & R). destruct c as [|c1 [|c2 [|]]]; try discriminate. destruct (R 0%nat a eq_refl) as [R0 _]. destruct (R 1%nat b eq_refl) as [R1 _]. cbn in R0, R1, SM. rewrite B3 in R0. rewrite B4 in R1. injection R0 as <-. injection R1 as <-. cbn in SM. lia.
Qed.
(** 2^24+4 elements: the float32 index of the maximum is past the end *)
Theorem C72_long_axis_refuted : forall cv ts cast x G cnts axis kd, input cv ts cast x G cnts axis -> nth (norm (length (d_gshape x)) axis) (d_gshape x) 0 = 2 ^ 24 + 4 ->
  percentile f32 cv ts cast x (QS 100%Q) axis Lower kd = Err IndexError.
Proof.
  intros cv ts cast x G cnts axis kd (I1 & I2 & I3 & I4 & I5 & I6 & I7) HN.
  destruct (percentile_unfold f32 cv ts cast x G cnts axis kd I2 I3 I4 I5 I6 Lower (QS 100%Q)) as (x2 & G2 & -> & E1 & E2 & E3 & E4 & E5).
  rewrite HN in E1. destruct (sorted_data cv ts cast x2 G2 cnts (2 ^ 24 + 4) _ I1 E3 E1 I3 ltac:(lia)) as (s & S & E & S1 & S2 & S3 & S4).
  { intros D1 D2. destruct (I6 (E5 D1) D2) as [J1 J2]. rewrite HN in J1, J2. auto. }
  { exact I7. }
  unfold perc_core. destruct (sort_nd 0%Q Qltb ts cast x2 0 false) as [y0|e]; [|discriminate]. cbn [bind] in *. injection E as ->. rewrite E1. cbn [nth].
  replace (perc_index f32 Lower 100 (2 ^ 24 + 4)) with (PInt (2 ^ 24 + 4)) by (vm_compute; reflexivity). unfold get_int. rewrite S1. cbn [nth]. reflexivity.
Qed.
Definition long_x (n : Z) : dnd Q := mk_dnd [mk_arr [n] (fun i => inject_Z (nth 0 i 0))] [n] None.
Lemma long_input n : 0 < n <= 2 ^ 31 -> input (fun a => a) ts0 (fun i => i) (long_x n) (fun i => inject_Z (nth 0 i 0)) [n] 0.
Proof.
  intros H. unfold input. cbn [long_x d_gshape length]. change (norm 1 0) with 0%nat. cbn [nth]. split; [apply ts0_sorts|]. split; [|split; [lia|split; [unfold valid_axis; lia|split; [auto|split; [discriminate|auto]]]]].
  split; [reflexivity|]. split; [repeat constructor; cbn; lia|]. intros t [<-|[]]. split; [reflexivity|auto].
Qed.
(** 2^24+2 elements: the float32 index of the median misses the half *)
Lemma long_median_wrong N K : 0 < N <= 2 ^ 31 -> N = 2 * K + 2 -> 0 <= K -> Qeq (raw_index f32 (inject_Z 50) N) (inject_Z K) -> exists x G cnts y, input (fun a => a) ts0 (fun i => i) x G cnts 0 /\ d_gshape x = [N] /\
  median f32 (fun a => a) ts0 (fun i => i) x 0 false = Ok y /\
  forall H c, rep y c H -> (0 < length c)%nat -> ~ is_median (lane_of_result (fun a => a) x G 0 false []) (H []).
Proof.
  intros HN EN HK RE. assert (I := long_input N HN). exists (long_x N), (fun i => inject_Z (nth 0 i 0)), [N].
  assert (I0 := I). destruct I0 as (I1 & I2 & I3 & I4 & I5 & I6 & I7).
  destruct (percentile_scalar f32 (fun a => a) ts0 (fun i => i) (long_x N) _ _ 0 false I1 I2 I3 I4 I5 I6 I7 Linear (inject_Z 50)) as (y & c & H & E1 & E2 & E3 & E4 & E5 & E6).
  { change (nth (norm (length (d_gshape (long_x N))) 0) (d_gshape (long_x N)) 0) with N. split; [|discriminate]. rewrite RE. change 0%Q with (inject_Z 0). rewrite <- !Zle_Qle. lia. }
  exists y. split; [exact I|]. split; [reflexivity|]. split; [exact E1|]. clear E1. intros H' c' R' Hc' (s & S1 & S2).
  specialize (E6 [] ltac:(constructor)). change (nth (norm (length (d_gshape (long_x N))) 0) (d_gshape (long_x N)) 0) with N in E6.
  assert (HE : H' [] = H []). { assert (E7 : d_gshape y = []) by (rewrite E3; reflexivity). assert (E8 : d_split y = None) by (rewrite E4; reflexivity). unfold rep in E5, R'. rewrite E7, E8 in E5, R'. destruct E5 as (L1 & _ & A1). destruct R' as (L2 & _ & A2).
    clear - L2 Hc' A1 A2. destruct (d_locals y) as [|t l]; [cbn in L2; lia|]. destruct (A1 t (or_introl eq_refl)) as [_ B1]. destruct (A2 t (or_introl eq_refl)) as [_ B2]. rewrite <- B1, <- B2 by constructor. reflexivity. }
  rewrite HE in S2. destruct E6 as (s' & S1' & V). apply (interp_at_comp _ _ _ _ _ RE) in V. cbn [interp_at] in V. rewrite Qfloor_Z, Qceiling_Z in V.
  assert (ED : lane_data (fun a => a) (long_x N) (fun i => inject_Z (nth 0 i 0)) 0 false [] = map inject_Z (zr N)).
  { unfold lane_data. change (nth (norm (length (d_gshape (long_x N))) 0) (d_gshape (long_x N)) 0) with N. apply map_ext. intros j. reflexivity. }
  assert (EL : lane_of_result (fun a => a) (long_x N) (fun i => inject_Z (nth 0 i 0)) 0 false [] = map inject_Z (zr N)) by exact ED.
  rewrite ED in S1'. rewrite EL in S1, S2.
  assert (SV : sorted_version (map inject_Z (zr N)) (map inject_Z (zr N))).
  { split; [auto|]. apply (sorted_map Z.le Qle); [intros a b _ _ L; now rewrite <- Zle_Qle|]. unfold zr. apply (sorted_map lt Z.le); [intros; lia|apply sorted_seq]. }
  assert (AT : forall k, 0 <= k < N -> at_pos (map inject_Z (zr N)) k = inject_Z k).
  { intros k Hk. unfold at_pos. change 0%Q with (inject_Z 0). rewrite map_nth. unfold zr. change 0 with (Z.of_nat 0) at 1. rewrite map_nth, seq_nth by lia. f_equal. lia. }
  rewrite map_length, length_zr, Z2Nat.id in S2 by lia. cbv zeta in S2.
  replace (Z.odd N) with false in S2 by (symmetry; rewrite <- Z.negb_even; apply Bool.negb_false_iff, Z.even_spec; exists (K + 1); lia). cbv iota in S2. replace (N / 2) with (K + 1) in S2 by (apply Z.div_unique with 0; lia). replace (K + 1 - 1) with K in S2 by lia.
  rewrite !(sorted_version_unique _ _ _ _ S1 SV), !AT in S2 by lia. rewrite !(sorted_version_unique _ _ _ _ S1' SV), !AT in V by lia. rewrite V in S2. rewrite inject_Z_plus in S2. change (inject_Z 1) with 1%Q in S2. lra.
Qed.
Theorem C72_long_median_refuted : exists x G cnts y, input (fun a => a) ts0 (fun i => i) x G cnts 0 /\ d_gshape x = [2 ^ 24 + 2] /\
  median f32 (fun a => a) ts0 (fun i => i) x 0 false = Ok y /\
  forall H c, rep y c H -> (0 < length c)%nat -> ~ is_median (lane_of_result (fun a => a) x G 0 false []) (H []).
Proof. apply (long_median_wrong (2 ^ 24 + 2) (2 ^ 23)); [lia|lia|lia|]. vm_compute. reflexivity. Qed.
(** integer data are converted to float32 *)
Theorem C72_int_data_refuted : exists x G cnts y, input f32 ts0 (fun i => i) x G cnts 0 /\ median f32 f32 ts0 (fun i => i) x 0 false = Ok y /\
  forall t, In t (d_locals y) -> ~ is_median [16777217]%Q (adat t []).
Proof.
  set (p := [[16777217]]%Q).
  assert (B : match median f32 f32 ts0 (fun i => i) (vec 0%Q p) 0 false with Ok y => forallb (fun t => Qeq_bool (adat t []) 16777216) (d_locals y) | Err _ => false end = true) by (vm_compute; reflexivity).
  destruct (median f32 f32 ts0 (fun i => i) (vec 0%Q p) 0 false) as [y|e] eqn:E; [|discriminate]. exists (vec 0%Q p), (vecG 0%Q p), [1], y. split; [apply (vec_input f32 p f32_monotone); [cbn; lia|cbn; lia|reflexivity]|]. split; [exact E|].
  intros t Ht (s & S1 & S2). rewrite forallb_forall in B. apply B, Qeq_bool_eq in Ht. cbn in S2. assert (SV : sorted_version [16777217]%Q [16777217]%Q) by (split; [auto|repeat constructor]). rewrite (sorted_version_unique _ _ _ _ S1 SV), Ht in S2. discriminate S2.
Qed.
(** percentiles below zero are not rejected: the index wraps around *)
Theorem C72_negative_q_refuted : exists x G cnts y, input (fun a => a) ts0 (fun i => i) x G cnts 0 /\
  percentile f32 (fun a => a) ts0 (fun i => i) x (QS (-(100)))%Q 0 Lower false = Ok y /\ forall t, In t (d_locals y) -> Qeq (adat t []) 1.
Proof.
  assert (B : match percentile f32 (fun a => a) ts0 (fun i => i) (vec 0%Q up_p) (QS (-(100)))%Q 0 Lower false with Ok y => forallb (fun t => Qeq_bool (adat t []) 1) (d_locals y) | Err _ => false end = true) by (vm_compute; reflexivity).
  destruct (percentile f32 (fun a => a) ts0 (fun i => i) (vec 0%Q up_p) (QS (-(100)))%Q 0 Lower false) as [y|e] eqn:E; [|discriminate].
  exists (vec 0%Q up_p), (vecG 0%Q up_p), [2; 2], y. split; [apply (vec_input (fun a => a) up_p); [auto|cbn; lia|cbn; lia|reflexivity]|]. split; [exact E|]. intros t Ht. rewrite forallb_forall in B. now apply Qeq_bool_eq, B.
Qed.

(** axis a tuple: the shape handed to reshape is right if the axes are the leading ones ... *)
Definition right_shape (gsh : list Z) (axis : list nat) : list Z := zprod (map (fun a => nth a gsh 0) axis) :: map (fun d => nth d gsh 0) (non_op (length gsh) axis).
Lemma zprod_app a b : zprod (a ++ b) = zprod a * zprod b.
Proof. induction a as [|x a IH]; cbn [app zprod fold_right] in *; [now destruct (zprod b)|]. unfold zprod in *. cbn [fold_right]. rewrite IH. ring. Qed.
Lemma zprod_perm a b : Permutation a b -> zprod a = zprod b.
Proof. unfold zprod. induction 1; cbn [fold_right]; lia. Qed.
Lemma mem_nat_iff k l : mem_nat k l = true <-> In k l.
Proof. unfold mem_nat. rewrite existsb_exists. split; [intros (x & Hx & E); apply Nat.eqb_eq in E; now subst|intros H; exists k; split; [auto|apply Nat.eqb_refl]]. Qed.
Lemma non_op_leading nd k axis : Permutation axis (seq 0 k) -> (k <= nd)%nat -> non_op nd axis = seq k (nd - k).
Proof.
  intros P H. unfold non_op. replace nd with (k + (nd - k))%nat at 1 by lia. rewrite seq_app, filter_app. cbn [Nat.add].
  assert (M : forall d, mem_nat d axis = true <-> (d < k)%nat). { intros d. rewrite mem_nat_iff. split; intros X; [apply (Permutation_in _ P) in X; apply in_seq in X; lia|apply (Permutation_in d (Permutation_sym P)), in_seq; lia]. }
  assert (F1 : filter (fun d => negb (mem_nat d axis)) (seq 0 k) = []). { apply filter_nil_iff. intros d Hd. apply in_seq in Hd. apply Bool.negb_false_iff, M. lia. }
  assert (F2 : forall l, (forall d, In d l -> (k <= d)%nat) -> filter (fun d => negb (mem_nat d axis)) l = l).
  { induction l as [|d l IH]; intros Hl; [reflexivity|]. cbn [filter]. destruct (mem_nat d axis) eqn:E; [apply M in E; specialize (Hl d (or_introl eq_refl)); lia|]. cbn [negb]. now rewrite IH by (intros; apply Hl; cbn; auto). }
  rewrite F1, F2 by (intros d Hd; apply in_seq in Hd; lia). reflexivity.
Qed.
Theorem C72_tuple_leading_partial : forall gsh axis k, Permutation axis (seq 0 k) -> (k <= length gsh)%nat -> Forall (fun m => 0 < m) gsh ->
  tuple_shape gsh axis = right_shape gsh axis.
Proof.
  intros gsh axis k P H F. unfold tuple_shape, right_shape. rewrite (non_op_leading _ k) by auto. set (nd := length gsh) in *.
  assert (LA : length axis = k) by (rewrite (Permutation_length P); apply seq_length).
  assert (R : map (fun d => nth d (map (fun a => nth a gsh 0) (axis ++ seq k (nd - k))) 0) (seq k (nd - k)) = map (fun d => nth d gsh 0) (seq k (nd - k))).
  { apply map_ext_in. intros d Hd. apply in_seq in Hd. rewrite map_app, app_nth2 by (rewrite map_length; lia). rewrite map_length, LA. rewrite (nth_indep _ 0 (nth 0 gsh 0)) by (rewrite map_length, seq_length; lia). rewrite (map_nth (fun a => nth a gsh 0)), seq_nth by lia. f_equal. lia. }
  rewrite R. f_equal.
  assert (Z1 : zprod gsh = zprod (map (fun a => nth a gsh 0) axis) * zprod (map (fun d => nth d gsh 0) (seq k (nd - k)))).
  { rewrite <- zprod_app, <- map_app. rewrite <- (BaseLemmas.map_nth_seq gsh 0) at 1. apply zprod_perm, Permutation_map. fold nd. replace nd with (k + (nd - k))%nat at 1 by lia. rewrite seq_app. cbn [Nat.add]. apply Permutation_app_tail. now apply Permutation_sym. }
  rewrite Z1. apply Z.div_mul. assert (Z0 : forall l, (forall d, In d l -> (d < nd)%nat) -> 0 < zprod (map (fun d => nth d gsh 0) l)).
  { induction l as [|d l IH]; intros Hl; [reflexivity|]. cbn [map]. assert (0 < nth d gsh 0) by (rewrite Forall_forall in F; apply F, nth_In, Hl; cbn; auto). assert (0 < zprod (map (fun d => nth d gsh 0) l)) by (apply IH; intros; apply Hl; cbn; auto). unfold zprod in *. cbn [fold_right]. nia. }
  specialize (Z0 (seq k (nd - k))). assert (0 < zprod (map (fun d => nth d gsh 0) (seq k (nd - k)))); [apply Z0; intros d Hd; apply in_seq in Hd; lia|lia].
Qed.
Lemma find_idx_app (f : nat -> bool) a b : find_idx f (a ++ b) = match find_idx f a with Some i => Some i | None => option_map (fun i => (length a + i)%nat) (find_idx f b) end.
Proof. induction a as [|x a IH]; cbn [app find_idx length]; [destruct (find_idx f b); reflexivity|]. destruct (f x); [reflexivity|]. rewrite IH. destruct (find_idx f a); [reflexivity|]. destruct (find_idx f b); reflexivity. Qed.
Lemma find_idx_in s l : In s l -> exists i, find_idx (Nat.eqb s) l = Some i /\ (i < length l)%nat.
Proof. induction l as [|x l IH]; intros H; [destruct H|]. cbn [find_idx length]. destruct (Nat.eqb_spec s x); [exists 0%nat; split; [auto|lia]|]. destruct H as [->|H]; [congruence|]. destruct (IH H) as (i & -> & L). exists (S i). split; [reflexivity|lia]. Qed.
Lemma find_idx_notin s l : ~ In s l -> find_idx (Nat.eqb s) l = None.
Proof. induction l as [|x l IH]; intros H; [reflexivity|]. cbn [find_idx]. destruct (Nat.eqb_spec s x); [exfalso; apply H; cbn; auto|]. rewrite IH; [reflexivity|]. intros X. apply H. cbn. auto. Qed.
Lemma find_idx_seq s : forall n a, (a <= s < a + n)%nat -> find_idx (Nat.eqb s) (seq a n) = Some (s - a)%nat.
Proof. induction n as [|n IH]; intros a H; [lia|]. cbn [seq find_idx]. destruct (Nat.eqb_spec s a); [subst; f_equal; lia|]. rewrite IH by lia. cbn. f_equal. lia. Qed.
(** ... and the result is then split as the remaining axes are *)
Theorem C72_tuple_split_leading_partial : forall nd axis k s, Permutation axis (seq 0 k) -> (0 < k <= nd)%nat -> (s < nd)%nat ->
  tuple_split nd axis (Some s) = Ok (Some (if (s <? k)%nat then 0%nat else (s - k + 1)%nat)).
Proof.
  intros nd axis k s P H Hs. unfold tuple_split. rewrite (non_op_leading nd k) by (auto; lia). assert (LA : length axis = k) by (rewrite (Permutation_length P); apply seq_length).
  assert (M : forall d, mem_nat d axis = true <-> (d < k)%nat). { intros d. rewrite mem_nat_iff. split; intros X; [apply (Permutation_in _ P) in X; apply in_seq in X; lia|apply (Permutation_in d (Permutation_sym P)), in_seq; lia]. }
  rewrite find_idx_app. destruct (Nat.ltb_spec s k).
  - destruct (find_idx_in s axis) as (i & -> & L); [apply mem_nat_iff, M; auto|]. replace (mem_nat i axis) with true by (symmetry; apply M; lia). do 2 f_equal.
    assert (I0 : In 0%nat axis) by (apply mem_nat_iff, M; lia). clear -I0. assert (G : forall a l, In 0%nat l -> fold_right Nat.min a l = 0%nat) by (intros a l; induction l as [|x l IH]; intros I; [destruct I|]; cbn [fold_right]; destruct I as [->|I]; [lia|rewrite IH by auto; lia]). auto.
  - rewrite find_idx_notin by (rewrite <- mem_nat_iff, M; lia). rewrite find_idx_seq by lia. cbn [option_map]. rewrite LA. replace (k + (s - k))%nat with s by lia.
    destruct (mem_nat s axis) eqn:E; [apply M in E; lia|]. assert (MX : (fold_right Nat.max 0 axis < k)%nat).
    { assert (G : forall l, (forall d, In d l -> (d < k)%nat) -> (fold_right Nat.max 0 l < k)%nat) by (induction l as [|x l IH]; intros I; cbn [fold_right]; [lia|]; assert (x < k)%nat by (apply I; cbn; auto); assert (fold_right Nat.max 0 l < k)%nat by (apply IH; intros; apply I; cbn; auto); lia). apply G. intros d Hd. apply M. now apply mem_nat_iff. }
    replace (fold_right Nat.max 0 axis <? s)%nat with true by lia. do 2 f_equal. lia.
Qed.
(** ... and wrong otherwise: percentile over the axes (1, 2) of a (2, 3, 4) array has four results instead of two *)
Theorem C72_tuple_shape_refuted : exists gsh axis, axis = [1; 2]%nat /\ gsh = [2; 3; 4] /\ right_shape gsh axis = [12; 2] /\ tuple_shape gsh axis = [8; 3].
Proof. exists [2; 3; 4], [1; 2]%nat. repeat split; reflexivity. Qed.
(** ... or the new split axis is undefined *)
Theorem C72_tuple_split_refuted : tuple_split 3 [0; 2]%nat (Some 2%nat) = Err RuntimeError /\ tuple_split 3 [1; 2]%nat (Some 1%nat) = Err RuntimeError.
Proof. vm_compute. auto. Qed.
