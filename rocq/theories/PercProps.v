(** C72: percentile and median. *)
From Coq Require Import QArith Qround Permutation Sorted Lqa.
From Verif Require Import Base ShapeSpec BaseLemmas LayoutModel LayoutProofs NdSpec TensorSpec TensorLemmas NdLemmas OpsModel ShapeModel ShapeProps SortModel SortNd SortSpec SortProps SortProps2 BinModel PercSpec PercModel PercFloat PercProofs PercProofs2 PercProofs3 PercProofs4.
Open Scope Z_scope.

(** order statistics are determined by the data *)
Lemma sorted_unique (s s' : list Q) : Permutation s s' -> StronglySorted Qle s -> StronglySorted Qle s' -> (forall a b, In a s -> In b s -> Qle a b -> Qle b a -> a = b) -> s = s'.
Proof.
  revert s'. induction s as [|a s IH]; intros s' P S1 S2 A; [apply Permutation_nil in P; now subst|].
  destruct s' as [|b s']; [apply Permutation_sym, Permutation_nil in P; discriminate|].
  apply StronglySorted_inv in S1 as [S1 F1]. apply StronglySorted_inv in S2 as [S2 F2]. rewrite Forall_forall in F1, F2.
  assert (IB : In b (a :: s)) by (apply (Permutation_in b (Permutation_sym P)); cbn; auto). assert (IA : In a (b :: s')) by (apply (Permutation_in a P); cbn; auto).
  assert (E : a = b). { destruct IB as [|IB]; [auto|]. destruct IA as [|IA]; [auto|]. apply A; cbn; auto. }
  subst b. f_equal. apply IH; auto; [now apply Permutation_cons_inv in P|]. intros; apply A; cbn; auto.
Qed.
Lemma sorted_version_unique l s s' k : sorted_version l s -> sorted_version l s' -> Qeq (at_pos s k) (at_pos s' k).
Proof.
  intros [P1 S1] [P2 S2]. assert (E : map Qred s = map Qred s').
  { assert (SM : forall t, StronglySorted Qle t -> StronglySorted Qle (map Qred t)) by (intros t Ht; apply (sorted_map Qle Qle); auto; intros a b _ _ L; now rewrite !Qred_correct).
    apply sorted_unique; auto.
    - apply Permutation_map. now rewrite P1, P2.
    - intros a b Ha Hb L1 L2. apply in_map_iff in Ha as (a' & <- & _), Hb as (b' & <- & _). assert (X : Qeq (Qred a') (Qred b')) by lra. rewrite !Qred_correct in X. now apply Qred_complete. }
  unfold at_pos. rewrite <- (Qred_correct (nth (Z.to_nat k) s 0%Q)), <- (Qred_correct (nth (Z.to_nat k) s' 0%Q)).
  change 0%Q with (Qred 0). rewrite <- !(map_nth Qred). change (Qred 0) with 0%Q. now rewrite E.
Qed.

(** good_index for exact arithmetic and for float32 *)
Lemma good_id m q n : (0 <= q <= inject_Z 100)%Q -> 0 < n -> good_index (fun a => a) m q n.
Proof.
  intros Hq Hn. split; [|reflexivity]. unfold raw_index. assert (N0 : (0 <= inject_Z (n - 1))%Q) by (change 0%Q with (inject_Z 0); rewrite <- Zle_Qle; lia).
  change (inject_Z 100) with 100%Q in *. unfold Qdiv. change (/ 100)%Q with (1 # 100)%Q. assert (A : (0 <= q * (1 # 100) <= 1)%Q) by lra. split; nra.
Qed.
Lemma good_f32 m q n : (0 <= q <= inject_Z 100)%Q -> 0 < n <= 2 ^ 24 + 1 -> (m = Midpoint -> n <= 2 ^ 23 + 1) -> good_index f32 m q n.
Proof.
  intros Hq Hn HM. assert (R := raw_index_range q n Hq Hn). split; [exact R|]. intros E. specialize (HM E). set (h := raw_index f32 q n) in *. assert (F := floor_in h R). assert (C := ceil_in h R).
  assert (S1 : (inject_Z (Qfloor h) + inject_Z (Qceiling h) == inject_Z (Qfloor h + Qceiling h))%Q) by now rewrite inject_Z_plus.
  assert (E1 : (f32 (inject_Z (Qfloor h) + inject_Z (Qceiling h)) == inject_Z (Qfloor h) + inject_Z (Qceiling h))%Q).
  { apply (f32_exact _ (Qfloor h + Qceiling h) 0); [lia|lia|]. rewrite S1. change (Qpower 2 (-0)) with 1%Q. ring. }
  set (g := f32 (inject_Z (Qfloor h) + inject_Z (Qceiling h))) in *. rewrite <- E1. apply (f32_exact _ (Qfloor h + Qceiling h) 1); [lia|lia|]. rewrite E1, S1. change (Qpower 2 (-(1))) with (1 # 2)%Q. ring.
Qed.

Lemma f32_eq x y : (0 <= x)%Q -> Qeq x y -> Qeq (f32 x) (f32 y).
Proof. intros H E. assert (A := f32_mono x y ltac:(lra)). assert (B := f32_mono y x ltac:(lra)). lra. Qed.
Lemma raw_index_eq q q' n : (0 <= q)%Q -> 0 < n -> Qeq q q' -> Qeq (raw_index f32 q n) (raw_index f32 q' n).
Proof.
  intros H Hn E. unfold raw_index. assert (N0 : (0 <= inject_Z (n - 1))%Q) by (change 0%Q with (inject_Z 0); rewrite <- Zle_Qle; lia).
  assert (A0 := f32_mono _ _ (conj H (Qle_refl q))). assert (N1 := f32_mono _ _ (conj N0 (Qle_refl _))). assert (E1 := f32_eq _ _ H E).
  assert (D0 : (0 <= f32 q / inject_Z 100)%Q) by (unfold Qdiv; change (/ inject_Z 100)%Q with (1 # 100)%Q; lra).
  assert (E2 : Qeq (f32 (f32 q / inject_Z 100)) (f32 (f32 q' / inject_Z 100))) by (apply f32_eq; [exact D0|now rewrite E1]).
  assert (D1 := f32_mono _ _ (conj D0 (Qle_refl _))). apply f32_eq; [nra|now rewrite E2].
Qed.

Lemma dyadic_index q a j n : (0 <= q)%Q -> 0 <= j <= 10 -> 0 <= a <= 2 ^ j -> 0 < n <= 2 ^ 24 + 1 -> a * (n - 1) <= 2 ^ 24 -> Qeq q (inject_Z (100 * a) * Qpower 2 (- j)) ->
  Qeq (raw_index f32 q n) (position q n).
Proof. intros H Hj Ha Hn Hb E. rewrite (raw_index_eq q _ n H (proj1 Hn) E), raw_index_dyadic by auto. unfold position. now rewrite E. Qed.

(** What the theorems assume of the input array: [x] is a distributed array with contents [G]; if it is distributed along the
    reduced axis its layout is the canonical one (sort's requirement); [cv] is the conversion to the float type of the result. *)
Definition input (cv : Q -> Q) (ts : bool -> list Q -> list nat) (cast : Z -> Z) (x : dnd Q) (G : list Z -> Q) (cnts : list Z) (axis : Z) : Prop :=
  let ax := norm (length (d_gshape x)) axis in let n := nth ax (d_gshape x) 0 in
  sorts 0%Q Qltb ts /\ rep x cnts G /\ (0 < length cnts)%nat /\ valid_axis (length (d_gshape x)) axis /\ 0 < n <= 2 ^ 31 /\
  (d_split x = Some ax -> (1 < length cnts)%nat -> cnts = zcounts n (length cnts) /\ forall i, 0 <= i < n -> cast i = i) /\
  (forall a b, (a <= b)%Q -> (cv a <= cv b)%Q).
(** the data of the lane that the result index [i] stands for *)
Definition lane_of_result (cv : Q -> Q) (x : dnd Q) (G : list Z -> Q) (axis : Z) (kd : bool) (i : list Z) : list Q :=
  let ax := norm (length (d_gshape x)) axis in map (fun j => cv (G (on_lane ax kd i j))) (zr (nth ax (d_gshape x) 0)).

(** with exact index arithmetic, percentile returns NumPy's percentile for every q, interpolation, axis, split and process count *)
Theorem C72_percentile_exact_arithmetic : forall cv ts cast x G cnts axis kd m q, input cv ts cast x G cnts axis -> (0 <= q <= inject_Z 100)%Q ->
  let ax := norm (length (d_gshape x)) axis in
  exists y c H, percentile (fun a => a) cv ts cast x (QS q) axis m kd = Ok y /\ length c = length cnts /\
    d_gshape y = out_shape ax kd (d_gshape x) /\ d_split y = scalar_split x axis kd /\ rep y c H /\
    forall i, in_bounds (out_shape ax kd (d_gshape x)) i -> is_percentile m q (lane_of_result cv x G axis kd i) (H i).
Proof.
  intros cv ts cast x G cnts axis kd m q (I1 & I2 & I3 & I4 & I5 & I6 & I7) Hq ax. assert (Hn' : 0 < nth ax (d_gshape x) 0) by apply I5.
  destruct (percentile_scalar (fun a => a) cv ts cast x G cnts axis kd I1 I2 I3 I4 I5 I6 I7 m q (good_id m q _ Hq (proj1 I5))) as (y & c & H & E1 & E2 & E3 & E4 & E5 & E6).
  exists y, c, H. repeat (split; [assumption|]). intros i Hi. destruct (E6 i Hi) as (s & S1 & S2). exists s. split; [exact S1|]. unfold lane_of_result. rewrite map_length, length_zr. fold ax. rewrite Z2Nat.id by lia. exact S2.
Qed.
(** in float32 the position is off by at most (n-1)/2^22, and the value is the one at that position *)
Theorem C72_percentile_float32_partial : forall cv ts cast x G cnts axis kd m q, input cv ts cast x G cnts axis -> (0 <= q <= inject_Z 100)%Q ->
  let ax := norm (length (d_gshape x)) axis in let n := nth ax (d_gshape x) 0 in
  n <= 2 ^ 24 + 1 -> (m = Midpoint -> n <= 2 ^ 23 + 1) ->
  exists y c H h, percentile f32 cv ts cast x (QS q) axis m kd = Ok y /\ length c = length cnts /\
    d_gshape y = out_shape ax kd (d_gshape x) /\ d_split y = scalar_split x axis kd /\ rep y c H /\
    (position q n - inject_Z (n - 1) * (1 # 4194304) <= h <= position q n + inject_Z (n - 1) * (1 # 4194304))%Q /\
    forall i, in_bounds (out_shape ax kd (d_gshape x)) i -> exists s, sorted_version (lane_of_result cv x G axis kd i) s /\ interp_at m s h (H i).
Proof.
  intros cv ts cast x G cnts axis kd m q (I1 & I2 & I3 & I4 & I5 & I6 & I7) Hq ax n Hn HM.
  destruct (percentile_scalar f32 cv ts cast x G cnts axis kd I1 I2 I3 I4 I5 I6 I7 m q) as (y & c & H & E1 & E2 & E3 & E4 & E5 & E6).
  { apply good_f32; auto. split; [apply I5|exact Hn]. }
  exists y, c, H, (raw_index f32 q n). repeat (split; [assumption|]). split; [apply raw_index_err; auto; split; [apply I5|exact Hn]|]. exact E6.
Qed.
(** ... and it is NumPy's percentile when q/100 = a/2^j (0, 12.5, 25, 50, 75, 100, ...) and the axis is not too long *)
Theorem C72_percentile_dyadic_partial : forall cv ts cast x G cnts axis kd m q a j, input cv ts cast x G cnts axis -> 0 <= j <= 10 -> 0 <= a <= 2 ^ j ->
  let ax := norm (length (d_gshape x)) axis in let n := nth ax (d_gshape x) 0 in Qeq q (inject_Z (100 * a) * Qpower 2 (- j)) ->
  n <= 2 ^ 24 + 1 -> a * (n - 1) <= 2 ^ 24 -> (m = Midpoint -> n <= 2 ^ 23 + 1) ->
  exists y c H, percentile f32 cv ts cast x (QS q) axis m kd = Ok y /\ length c = length cnts /\
    d_gshape y = out_shape ax kd (d_gshape x) /\ d_split y = scalar_split x axis kd /\ rep y c H /\
    forall i, in_bounds (out_shape ax kd (d_gshape x)) i -> is_percentile m q (lane_of_result cv x G axis kd i) (H i).
Proof.
  intros cv ts cast x G cnts axis kd m q a j (I1 & I2 & I3 & I4 & I5 & I6 & I7) Hj Ha ax n EQ Hn Hb HM.
  assert (Hn' : 0 < n <= 2 ^ 24 + 1) by (split; [apply I5|exact Hn]).
  assert (Hq : (0 <= q <= inject_Z 100)%Q).
  { rewrite EQ. clear EQ. assert (P := pow2_pos (- j)). assert (E : (Qpower 2 j * Qpower 2 (- j) == 1)%Q) by (rewrite <- pow2_plus; replace (j + - j) with 0 by lia; reflexivity).
    rewrite pow2_inj in E by lia. destruct Ha as [A1 A2]. rewrite Zle_Qle in A1, A2. change (inject_Z 0) with 0%Q in A1. rewrite inject_Z_mult. change (inject_Z 100) with 100%Q. split; nra. }
  destruct (percentile_scalar f32 cv ts cast x G cnts axis kd I1 I2 I3 I4 I5 I6 I7 m q (good_f32 m q n Hq Hn' HM)) as (y & c & H & E1 & E2 & E3 & E4 & E5 & E6).
  exists y, c, H. repeat (split; [assumption|]). intros i Hi. destruct (E6 i Hi) as (s & S1 & S2). exists s. split; [exact S1|]. unfold lane_of_result. rewrite map_length, length_zr. fold ax n. rewrite Z2Nat.id by lia.
  apply interp_at_comp with (raw_index f32 q n); [|exact S2]. apply (dyadic_index q a j n); auto. apply Hq.
Qed.
(** a list of percentiles adds a leading axis; when the data are distributed along the reduced axis the list must be sorted and have two or more entries *)
Theorem C72_percentile_list_partial : forall cv ts cast x G cnts axis kd m qs, input cv ts cast x G cnts axis -> Forall (fun q => 0 <= q <= inject_Z 100)%Q qs ->
  let ax := norm (length (d_gshape x)) axis in let n := nth ax (d_gshape x) 0 in
  (d_split x = Some ax -> (1 < length cnts)%nat -> StronglySorted Qle qs /\ (1 < length qs)%nat) ->
  n <= 2 ^ 24 + 1 -> (m = Midpoint -> n <= 2 ^ 23 + 1) ->
  exists y c H, percentile f32 cv ts cast x (QL qs) axis m kd = Ok y /\ length c = length cnts /\
    d_gshape y = Z.of_nat (length qs) :: out_shape ax kd (d_gshape x) /\ d_split y = list_split x axis kd m /\ rep y c H /\
    forall k i q, nth_error qs k = Some q -> in_bounds (out_shape ax kd (d_gshape x)) i ->
      exists h s, (position q n - inject_Z (n - 1) * (1 # 4194304) <= h <= position q n + inject_Z (n - 1) * (1 # 4194304))%Q /\
        ((exists a j, 0 <= j <= 10 /\ 0 <= a <= 2 ^ j /\ a * (n - 1) <= 2 ^ 24 /\ Qeq q (inject_Z (100 * a) * Qpower 2 (- j))) -> Qeq h (position q n)) /\
        sorted_version (lane_of_result cv x G axis kd i) s /\ interp_at m s h (H (Z.of_nat k :: i)).
Proof.
  intros cv ts cast x G cnts axis kd m qs (I1 & I2 & I3 & I4 & I5 & I6 & I7) Hq ax n HO Hn HM. rewrite Forall_forall in Hq.
  assert (Hn' : 0 < n <= 2 ^ 24 + 1) by (split; [apply I5|exact Hn]).
  destruct (percentile_list f32 cv ts cast x G cnts axis kd I1 I2 I3 I4 I5 I6 I7 m qs f32_mono) as (y & c & H & E1 & E2 & E3 & E4 & E5 & E6).
  { intros q Iq. split; [apply (Hq q Iq)|]. apply good_f32; auto. }
  { exact HO. }
  exists y, c, H. repeat (split; [assumption|]). intros k i q Ek Hi. assert (L : (k < length qs)%nat) by (apply nth_error_Some; congruence). assert (Iq := nth_error_In _ _ Ek).
  specialize (E6 (Z.of_nat k) i ltac:(lia) Hi). rewrite Nat2Z.id, (nth_error_nth _ _ _ Ek) in E6. destruct E6 as (s & S1 & S2). exists (raw_index f32 q n), s. split; [now apply raw_index_err; auto|].
  split; [intros (a & j & Hj & Ha & Hb & EQ); apply (dyadic_index q a j n); auto; apply (Hq q Iq)|]. split; [exact S1|exact S2].
Qed.
(** axis=None: the percentile of all elements, on every process *)
Theorem C72_percentile_flat_partial : forall (cv : Q -> Q) ts cast (x : dnd Q) (G : list Z -> Q) cnts (kd : bool) (m : interp) (q : Q), sorts 0%Q Qltb ts -> rep x cnts G -> (0 < length cnts)%nat ->
  let N := zprod (d_gshape x) in 0 < N <= 2 ^ 24 + 1 -> (d_split x <> None -> (1 < length cnts)%nat -> forall i, 0 <= i < N -> cast i = i) ->
  (forall a b, (a <= b)%Q -> (cv a <= cv b)%Q) -> (0 <= q <= inject_Z 100)%Q -> (m = Midpoint -> N <= 2 ^ 23 + 1) ->
  let rest := if kd then repeat 1%Z (length (d_gshape x)) else [] in
  exists y c H h, percentile_flat f32 cv ts cast x (QS q) m kd = Ok y /\ length c = length cnts /\ d_gshape y = rest /\ d_split y = None /\ rep y c H /\
    (position q N - inject_Z (N - 1) * (1 # 4194304) <= h <= position q N + inject_Z (N - 1) * (1 # 4194304))%Q /\
    ((exists a j, 0 <= j <= 10 /\ 0 <= a <= 2 ^ j /\ a * (N - 1) <= 2 ^ 24 /\ Qeq q (inject_Z (100 * a) * Qpower 2 (- j))) -> Qeq h (position q N)) /\
    forall i, in_bounds rest i -> exists s, sorted_version (map cv (map G (row_major (d_gshape x)))) s /\ interp_at m s h (H i).
Proof.
  intros cv ts cast x G cnts kd m q I1 I2 I3 N HN I6 I7 Hq HM rest. destruct (flat_core f32 cv ts cast x G cnts m (QS q) kd I2 I3) as (x2 & c2 & G2 & -> & E1 & E2 & E3 & E4 & E5 & E6). fold N rest in E1, E5, E6.
  assert (GI : good_index f32 m q N) by (apply good_f32; auto).
  destruct (core_scalar f32 cv ts cast x2 G2 c2 N rest I1 E2 E1 ltac:(lia) ltac:(lia)) with (m := m) (q := q) (ga := true) as (y & c & H & F1 & F2 & F3 & F4 & F5 & F6).
  - intros D1 D2. rewrite E4 in D1. destruct (d_split x) eqn:ED; [|discriminate]. split; [rewrite E3; apply E5; congruence|]. apply I6; [congruence|lia].
  - exact I7.
  - apply good_inside; [lia|exact GI].
  - exists y, c, H, (raw_index f32 q N). split; [exact F1|]. split; [lia|]. split; [exact F3|]. split.
    { rewrite F4, E4. destruct m; destruct (d_split x); reflexivity. }
    split; [exact F5|]. split; [now apply raw_index_err|]. split; [intros (a & j & Hj & Ha & Hb & EQ); apply (dyadic_index q a j N); auto; apply Hq|].
    intros i Hi. rewrite <- (E6 i Hi). apply value_good; auto.
Qed.

(** the median: the middle order statistic, or the mean of the two middle ones *)
Definition is_median (l : list Q) (v : Q) : Prop :=
  exists s, sorted_version l s /\
    let n := Z.of_nat (length l) in
    if Z.odd n then Qeq v (at_pos s (n / 2)) else Qeq v ((at_pos s (n / 2 - 1) + at_pos s (n / 2)) * (1 # 2)).
Lemma median_position s n v : 0 < n -> interp_at Linear s (position (inject_Z 50) n) v ->
  if Z.odd n then Qeq v (at_pos s (n / 2)) else Qeq v ((at_pos s (n / 2 - 1) + at_pos s (n / 2)) * (1 # 2)).
Proof.
  intros Hn H. destruct (Z.odd n) eqn:EO.
  - apply Z.odd_spec in EO as (k & ->). replace ((2 * k + 1) / 2) with k by (rewrite Z.add_comm, Z.mul_comm, Z.div_add by lia; reflexivity).
    assert (E : Qeq (position (inject_Z 50) (2 * k + 1)) (inject_Z k)). { unfold position. replace (2 * k + 1 - 1) with (2 * k) by lia. rewrite inject_Z_mult. change (inject_Z 50) with 50%Q. change (inject_Z 100) with 100%Q. change (inject_Z 2) with 2%Q. field. }
    apply (interp_at_comp _ _ _ _ _ E) in H. cbn [interp_at] in H. rewrite Qfloor_Z, Qceiling_Z in H. rewrite H. ring.
  - assert (EV : Z.even n = true) by (rewrite <- Z.negb_odd, EO; reflexivity). apply Z.even_spec in EV as (k & ->). replace (2 * k / 2) with k by (rewrite Z.mul_comm, Z.div_mul by lia; reflexivity).
    assert (E : Qeq (position (inject_Z 50) (2 * k)) ((1 # 2) * (inject_Z (k - 1) + inject_Z k))). { unfold position. replace (2 * k - 1) with ((k - 1) + k) by lia. rewrite inject_Z_plus. change (inject_Z 50) with 50%Q. change (inject_Z 100) with 100%Q. field. }
    apply (interp_at_comp _ _ _ _ _ E) in H.
    assert (M : Qfloor (inject_Z (k - 1) + (1 # 2)) = k - 1). { pose proof (Qfloor_le (inject_Z (k - 1) + (1 # 2))) as A. pose proof (Qlt_floor (inject_Z (k - 1) + (1 # 2))) as B. set (g := Qfloor (inject_Z (k - 1) + (1 # 2))) in *.
      assert (X : (inject_Z g < inject_Z (k - 1 + 1))%Q) by (rewrite (inject_Z_plus (k - 1)); change (inject_Z 1) with 1%Q; lra). assert (Y : (inject_Z (k - 1) < inject_Z (g + 1))%Q) by lra. rewrite <- Zlt_Qlt in X, Y. lia. }
    assert (C : Qceiling (inject_Z (k - 1) + (1 # 2)) = k). { pose proof (Qle_ceiling (inject_Z (k - 1) + (1 # 2))) as A. pose proof (Qceiling_lt (inject_Z (k - 1) + (1 # 2))) as B. set (g := Qceiling (inject_Z (k - 1) + (1 # 2))) in *.
      assert (X : (inject_Z (g - 1) < inject_Z (k - 1 + 1))%Q) by (rewrite (inject_Z_plus (k - 1)); change (inject_Z 1) with 1%Q; lra). assert (Y : (inject_Z (k - 1) < inject_Z g)%Q) by lra. rewrite <- Zlt_Qlt in X, Y. lia. }
    assert (PT : Qeq ((1 # 2) * (inject_Z (k - 1) + inject_Z k)) (inject_Z (k - 1) + (1 # 2))). { replace (inject_Z k) with (inject_Z (k - 1 + 1)) by (f_equal; lia). rewrite inject_Z_plus. change (inject_Z 1) with 1%Q. ring. }
    cbn [interp_at] in H. rewrite (Qfloor_comp _ _ PT), (Qceiling_comp _ _ PT), M, C, PT in H. rewrite H. ring.
Qed.
Theorem C72_median_partial : forall cv ts cast x G cnts axis kd, input cv ts cast x G cnts axis ->
  let ax := norm (length (d_gshape x)) axis in let n := nth ax (d_gshape x) 0 in n <= 2 ^ 24 + 1 ->
  exists y c H, median f32 cv ts cast x axis kd = Ok y /\ length c = length cnts /\
    d_gshape y = out_shape ax kd (d_gshape x) /\ d_split y = scalar_split x axis kd /\ rep y c H /\
    forall i, in_bounds (out_shape ax kd (d_gshape x)) i -> is_median (lane_of_result cv x G axis kd i) (H i).
Proof.
  intros cv ts cast x G cnts axis kd I ax n Hn. destruct I as (I1 & I2 & I3 & I4 & I5 & I6 & I7). assert (Hn' : 0 < n <= 2 ^ 24 + 1) by (split; [apply I5|exact Hn]).
  destruct (percentile_scalar f32 cv ts cast x G cnts axis kd I1 I2 I3 I4 I5 I6 I7 Linear (inject_Z 50)) as (y & c & H & E1 & E2 & E3 & E4 & E5 & E6).
  { apply good_f32; auto; [split; unfold Qle; cbn; lia|discriminate]. }
  exists y, c, H. repeat (split; [assumption|]). intros i Hi. destruct (E6 i Hi) as (s & S1 & S2). exists s. split; [exact S1|]. unfold lane_of_result. rewrite map_length, length_zr. fold ax n. rewrite Z2Nat.id by lia. cbv zeta.
  apply median_position; [lia|]. apply interp_at_comp with (raw_index f32 (inject_Z 50) n); [|exact S2].
  assert (D := raw_index_dyadic 1 1 n ltac:(lia) ltac:(lia) Hn' ltac:(lia)). rewrite (raw_index_eq (inject_Z 50) (inject_Z (100 * 1) * Qpower 2 (-(1))) n) by (try lia; try reflexivity; unfold Qle; cbn; lia). rewrite D. unfold position. change (inject_Z (100 * 1) * Qpower 2 (-(1)))%Q with (100 # 2)%Q. change (inject_Z 50) with 50%Q. change (inject_Z 100) with 100%Q. field.
Qed.
