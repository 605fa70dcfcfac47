(** percentile and percentile_flat on distributed arrays, at the rounded position. *)
From Coq Require Import QArith Qround Permutation Sorted Lqa.
From Verif Require Import Base ShapeSpec BaseLemmas LayoutModel LayoutProofs NdSpec TensorSpec TensorLemmas NdLemmas OpsModel OpsProofs2 OpsProofs3 OpsProofs4 OpsProofs5 OpsProofs6 RedistModel RedistProofs IndexModel IndexProofs ShapeModel ShapeProofs ShapeProofs2 ShapeProofs3 ShapeProofs4 ShapeProofs5 ShapeProofs6 ShapeProps SortModel SortNd SortSpec SortProps HaloModel BinModel FactoryModel PercSpec PercModel PercFloat PercProofs PercProofs2 PercProofs3.
Open Scope Z_scope.

Lemma interp_at_comp m s h h' v : Qeq h h' -> interp_at m s h v -> interp_at m s h' v.
Proof.
  intros E. unfold interp_at. rewrite (Qfloor_comp _ _ E), (Qceiling_comp _ _ E). destruct m; auto.
  - intros ->. rewrite E. reflexivity.
  - intros (k & A & B & C). exists k. rewrite E in A, B. auto.
Qed.

(** the midpoint of two neighbouring positions *)
Lemma midpoint_value s h v : interp_at Linear s ((1 # 2) * (inject_Z (Qfloor h) + inject_Z (Qceiling h)))%Q v -> interp_at Midpoint s h v.
Proof.
  intros H. cbn [interp_at] in *. set (f := Qfloor h) in *. set (c := Qceiling h) in *.
  assert (FC : c = f \/ c = f + 1). { pose proof (Qfloor_le h) as A. pose proof (Qlt_floor h) as B. pose proof (Qle_ceiling h) as C. pose proof (Qceiling_lt h) as D. fold f in A, B. fold c in C, D.
    assert (X : (inject_Z f < inject_Z (c + 1))%Q) by (rewrite inject_Z_plus; change (inject_Z 1) with 1%Q; lra). assert (Y : (inject_Z (c - 1) < inject_Z (f + 1))%Q) by lra. rewrite <- Zlt_Qlt in X, Y. lia. }
  destruct FC as [E|E]; rewrite E in *.
  - assert (M : ((1 # 2) * (inject_Z f + inject_Z f) == inject_Z f)%Q) by ring. rewrite (Qfloor_comp _ _ M), (Qceiling_comp _ _ M), Qfloor_Z, Qceiling_Z in H. rewrite H. ring.
  - assert (M : ((1 # 2) * (inject_Z f + inject_Z (f + 1)) == inject_Z f + (1 # 2))%Q) by (rewrite inject_Z_plus; change (inject_Z 1) with 1%Q; ring).
    assert (F : Qfloor (inject_Z f + (1 # 2)) = f). { pose proof (Qfloor_le (inject_Z f + (1 # 2))) as A. pose proof (Qlt_floor (inject_Z f + (1 # 2))) as B. set (g := Qfloor (inject_Z f + (1 # 2))) in *.
      assert (X : (inject_Z g < inject_Z (f + 1))%Q) by (rewrite inject_Z_plus; change (inject_Z 1) with 1%Q; lra). assert (Y : (inject_Z f < inject_Z (g + 1))%Q) by lra. rewrite <- Zlt_Qlt in X, Y. lia. }
    assert (C : Qceiling (inject_Z f + (1 # 2)) = f + 1). { pose proof (Qle_ceiling (inject_Z f + (1 # 2))) as A. pose proof (Qceiling_lt (inject_Z f + (1 # 2))) as B. set (g := Qceiling (inject_Z f + (1 # 2))) in *.
      assert (X : (inject_Z (g - 1) < inject_Z (f + 1))%Q) by (rewrite inject_Z_plus; change (inject_Z 1) with 1%Q; lra). assert (Y : (inject_Z f < inject_Z g)%Q) by lra. rewrite <- Zlt_Qlt in X, Y. lia. }
    rewrite (Qfloor_comp _ _ M), (Qceiling_comp _ _ M), F, C, M in H. rewrite H. ring.
Qed.

(** the value at position [h] of the data [l] *)
Definition percentile_at (m : interp) (h : Q) (l : list Q) (v : Q) : Prop := exists s, sorted_version l s /\ interp_at m s h v.
(** rounding places the position inside the data and leaves midpoints alone *)
Definition good_index (rnd : Q -> Q) (m : interp) (q : Q) (n : Z) : Prop :=
  let h := raw_index rnd q n in
  (0 <= h <= inject_Z (n - 1))%Q /\
  (m = Midpoint -> (rnd ((1 # 2) * rnd (inject_Z (Qfloor h) + inject_Z (Qceiling h))) == (1 # 2) * (inject_Z (Qfloor h) + inject_Z (Qceiling h)))%Q).

Lemma good_inside rnd m q n : 0 < n -> good_index rnd m q n -> inside rnd n m q.
Proof.
  intros Hn [A B]. split; [exact A|]. destruct m; auto. specialize (B eq_refl). set (h := raw_index rnd q n) in *. assert (F : 0 <= Qfloor h < n) by (apply floor_in; auto). assert (C : 0 <= Qceiling h < n) by (apply ceil_in; auto).
  rewrite B. assert (P1 : (0 <= inject_Z (Qfloor h) <= inject_Z (n - 1))%Q) by (change 0%Q with (inject_Z 0); rewrite <- !Zle_Qle; lia).
  assert (P2 : (0 <= inject_Z (Qceiling h) <= inject_Z (n - 1))%Q) by (change 0%Q with (inject_Z 0); rewrite <- !Zle_Qle; lia). lra.
Qed.
Lemma value_good rnd cv G n m q i v : good_index rnd m q n -> value_at rnd cv G n m q i v -> percentile_at m (raw_index rnd q n) (data cv G n i) v.
Proof.
  intros [A B] (s & S & V). exists s. split; [exact S|]. destruct m; auto. destruct V as (h & E & V). specialize (B eq_refl). apply midpoint_value. apply interp_at_comp with h; [|exact V]. rewrite <- E. exact B.
Qed.

Section Axis.
Variables (rnd cv : Q -> Q) (ts : bool -> list Q -> list nat) (cast : Z -> Z).
Variables (x : dnd Q) (G : list Z -> Q) (cnts : list Z) (axis : Z) (kd : bool).
Let nd := length (d_gshape x).
Let ax := norm nd axis.
Let n := nth ax (d_gshape x) 0.
Hypothesis HTS : sorts 0%Q Qltb ts.
Hypothesis HR : rep x cnts G.
Hypothesis HP : (0 < length cnts)%nat.
Hypothesis HA : valid_axis nd axis.
Hypothesis Hn : 0 < n <= 2 ^ 31.
Hypothesis HL : d_split x = Some ax -> (1 < length cnts)%nat -> cnts = zcounts n (length cnts) /\ forall i, 0 <= i < n -> cast i = i.
Hypothesis HM : forall a b, (a <= b)%Q -> (cv a <= cv b)%Q.

Definition lane_data (i : list Z) : list Q := map (fun j => cv (G (on_lane ax kd i j))) (zr n).

Lemma ax_lt : (ax < nd)%nat.
Proof. unfold ax, norm, valid_axis in *. destruct (Z.ltb_spec axis 0); lia. Qed.

Lemma percentile_unfold m q : exists x2 G2, percentile rnd cv ts cast x q axis m kd = perc_core rnd cv ts cast m q (out_split_none x ax kd) x2 /\
    d_gshape x2 = n :: out_shape ax kd (d_gshape x) /\ d_split x2 = split2 ax kd (d_split x) /\ rep x2 cnts G2 /\
    (forall i, in_bounds (out_shape ax kd (d_gshape x)) i -> data cv G2 n i = lane_data i) /\
    (d_split x2 = Some 0%nat -> d_split x = Some ax).
Proof.
  assert (AL := ax_lt). destruct (prepare x G cnts ax kd HR AL) as (x2 & G2 & E & E1 & E2 & E3 & E4). exists x2, G2. split; [|split; [exact E1|split; [exact E2|split; [exact E3|split]]]].
  - unfold percentile. fold nd. rewrite (@sanitize_axis_int_ok nd ax axis) by (unfold ax, norm, valid_axis in *; destruct (Z.ltb_spec axis 0); lia). cbn [bind]. rewrite Nat2Z.id. unfold order in E. fold nd in E.
    destruct (transpose x (Some (map Z.of_nat (ax :: seq 0 ax ++ seq (S ax) (nd - S ax))))) as [x1|e]; [|discriminate]. cbn [bind] in *.
    destruct kd; rewrite E; reflexivity.
  - intros i Hi. unfold data, lane_data. apply map_ext_in. intros j Hj. apply in_zr in Hj. now rewrite E4.
  - rewrite E2. unfold split2. destruct (d_split x) as [s|] eqn:E0; [|discriminate]. cbn [option_map]. destruct (Nat.eqb_spec s ax); [congruence|]. destruct kd; [discriminate|]. destruct (Nat.ltb_spec s ax); [discriminate|]. intros [= ->]. lia.
Qed.

(** the split axis of the result *)
Definition scalar_split : option nat :=
  match d_split x with None => None | Some s => if Nat.eqb s ax then None else Some (if kd then s else if (s <? ax)%nat then s else (s - 1)%nat) end.
Definition list_split (m : interp) : option nat :=
  match m with
  | Linear | Midpoint => match d_split x with Some s => if negb kd && Nat.eqb s ax then None else split2 ax kd (d_split x) | None => None end
  | _ => split2 ax kd (d_split x) end.

Lemma percentile_scalar m q : good_index rnd m q n ->
  exists y c H, percentile rnd cv ts cast x (QS q) axis m kd = Ok y /\ length c = length cnts /\ d_gshape y = out_shape ax kd (d_gshape x) /\ d_split y = scalar_split /\ rep y c H /\
    forall i, in_bounds (out_shape ax kd (d_gshape x)) i -> percentile_at m (raw_index rnd q n) (lane_data i) (H i).
Proof.
  intros GI. destruct (percentile_unfold m (QS q)) as (x2 & G2 & -> & E1 & E2 & E3 & E4 & E5).
  destruct (core_scalar rnd cv ts cast x2 G2 cnts n (out_shape ax kd (d_gshape x)) HTS E3 E1 HP Hn ltac:(auto) HM m q (out_split_none x ax kd) (good_inside _ _ _ _ (proj1 Hn) GI)) as (y & c & H & F1 & F2 & F3 & F4 & F5 & F6).
  exists y, c, H. split; [auto|]. split; [auto|]. split; [auto|]. split; [|split; [auto|]].
  - assert (S1 : split1 (split2 ax kd (d_split x)) = scalar_split).
    { unfold split1, split2, scalar_split. destruct (d_split x) as [s|]; [|auto]. cbn [option_map]. destruct (Nat.eqb_spec s ax); [auto|]. destruct kd; [auto|]. destruct (Nat.ltb_spec s ax); [auto|]. destruct s; [lia|]. f_equal. lia. }
    assert (S2 : out_split_none x ax kd = true -> scalar_split = None). { unfold out_split_none, scalar_split. destruct (d_split x) as [s|]; [|auto]. destruct (Nat.eqb s ax); [auto|]. destruct kd; discriminate. }
    rewrite F4, E2, S1. destruct m; auto; destruct (out_split_none x ax kd); auto; symmetry; auto.
  - intros i Hi. rewrite <- E4 by auto. apply value_good; auto.
Qed.

Lemma percentile_list m qs : (forall a b, (0 <= a <= b)%Q -> (0 <= rnd a <= rnd b)%Q) ->
  (forall q, In q qs -> (0 <= q)%Q /\ good_index rnd m q n) ->
  (d_split x = Some ax -> (1 < length cnts)%nat -> StronglySorted Qle qs /\ (1 < length qs)%nat) ->
  exists y c H, percentile rnd cv ts cast x (QL qs) axis m kd = Ok y /\ length c = length cnts /\ d_gshape y = Z.of_nat (length qs) :: out_shape ax kd (d_gshape x) /\ d_split y = list_split m /\ rep y c H /\
    forall k i, 0 <= k < Z.of_nat (length qs) -> in_bounds (out_shape ax kd (d_gshape x)) i -> percentile_at m (raw_index rnd (nth (Z.to_nat k) qs 0%Q) n) (lane_data i) (H (k :: i)).
Proof.
  intros RM GI HO. destruct (percentile_unfold m (QL qs)) as (x2 & G2 & -> & E1 & E2 & E3 & E4 & E5).
  destruct (core_list rnd cv ts cast x2 G2 cnts n (out_shape ax kd (d_gshape x)) HTS E3 E1 HP Hn ltac:(auto) HM RM m qs (out_split_none x ax kd)) as (y & c & H & F1 & F2 & F3 & F4 & F5 & F6).
  { intros q Hq. destruct (GI q Hq). split; [auto|]. apply good_inside; [lia|auto]. }
  { auto. }
  exists y, c, H. split; [auto|]. split; [auto|]. split; [auto|]. split; [|split; [auto|]].
  - rewrite F4, E2. unfold list_split, out_split_none. destruct m, (d_split x); reflexivity.
  - intros k i Hk Hi. rewrite <- E4 by auto. apply value_good; auto. apply GI. apply nth_In. lia.
Qed.
End Axis.

(** axis=None *)
Lemma zprod_length sh : Forall (fun m => 0 <= m) sh -> Z.of_nat (length (row_major sh)) = zprod sh.
Proof. apply row_major_length. Qed.

Lemma of_dist_rep (y : dist Q) sp el : (0 < length y)%nat ->
  match sp with None => forall l, In l y -> l = el | Some s => s = 0%nat /\ glob y = el end ->
  let N := Z.of_nat (length el) in
  rep (of_dist y sp N) (map (fun l => Z.of_nat (length l)) y) (fun i => nth (Z.to_nat (nth 0 i 0)) el 0%Q).
Proof.
  intros HP H N. unfold rep, of_dist. cbn [d_locals d_gshape d_split]. split; [now rewrite !map_length|]. split; [repeat constructor; lia|]. destruct sp as [s|].
  - destruct H as [-> H]. cbn [length nth]. split; [lia|]. split; [apply Forall_forall; intros c Hc; apply in_map_iff in Hc as (l & <- & _); lia|].
    assert (SUM : forall d : dist Q, zsum (map (fun l => Z.of_nat (length l)) d) = Z.of_nat (length (concat d))).
    { induction d as [|l d IH]; [reflexivity|]. cbn [map concat]. rewrite app_length. change (zsum (?a :: ?b)) with (a + zsum b). cbn [zsum fold_right] in *. unfold zsum in *. cbn [fold_right]. lia. }
    split; [rewrite SUM; unfold N; rewrite <- H; reflexivity|].
    intros r t Ht. rewrite nth_error_map in Ht. destruct (nth_error y r) as [l|] eqn:El; [|discriminate]. injection Ht as <-.
    assert (Lr : (r < length y)%nat) by (apply nth_error_Some; congruence).
    assert (NR : nth r (map (fun l => Z.of_nat (length l)) y) 0 = Z.of_nat (length l)). { change 0 with ((fun l : list Q => Z.of_nat (length l)) []). rewrite map_nth. now rewrite (nth_error_nth _ _ _ El). }
    split; [cbn [ash]; rewrite NR; reflexivity|]. intros i Hi. rewrite NR in Hi. apply bounds_cons in Hi as (k & i' & -> & Hk & _). cbn [adat nth move_axis_idx upd].
    rewrite firstn_map, SUM, <- H.
    assert (GN := @glob_nth Q y r (Z.to_nat k) 0%Q). rewrite (nth_error_nth _ _ _ El) in GN. rewrite <- GN by lia. rewrite <- glob_firstn_length. unfold glob. f_equal. unfold move_axis_idx. cbn [nth upd]. unfold upd. cbn. lia.
  - intros t Ht. apply in_map_iff in Ht as (l & <- & Hl). rewrite (H l Hl). split; [reflexivity|]. intros i Hi. reflexivity.
Qed.

Lemma sorted_seq a n : StronglySorted lt (seq a n).
Proof. revert a. induction n as [|n IH]; intros a; cbn [seq]; constructor; auto. apply Forall_forall. intros k Hk. apply in_seq in Hk. lia. Qed.
Lemma no_zero nd : existsb (Nat.eqb 0) (seq 1 nd) = false.
Proof. apply Bool.not_true_iff_false. intros H. apply existsb_exists in H as (k & Hk & E). apply in_seq in Hk. apply Nat.eqb_eq in E. lia. Qed.

Lemma flat_core rnd cv ts cast (x : dnd Q) G cnts m q (kd : bool) : rep x cnts G -> (0 < length cnts)%nat ->
  let el := map G (row_major (d_gshape x)) in let N := zprod (d_gshape x) in
  let rest := if kd then repeat 1 (length (d_gshape x)) else [] in
  exists x2 c G2, percentile_flat rnd cv ts cast x q m kd = perc_core rnd cv ts cast m q true x2 /\
    d_gshape x2 = N :: rest /\ rep x2 c G2 /\ length c = length cnts /\ d_split x2 = option_map (fun _ => 0%nat) (d_split x) /\
    (d_split x <> None -> c = zcounts N (length cnts)) /\
    forall i, in_bounds rest i -> data cv G2 N i = map cv el.
Proof.
  intros HR HP el N rest. assert (LC : length (d_locals x) = length cnts) by apply HR. destruct (C44_flatten Q 0%Q x G cnts HR ltac:(lia)) as (y & sp & E & LY & Y). fold el in Y.
  assert (EN : Z.of_nat (length el) = N). { unfold el. rewrite map_length. apply zprod_length. apply HR. }
  assert (R1 := of_dist_rep y sp el ltac:(lia)). rewrite EN in R1. cbn zeta in R1.
  assert (SP : sp = option_map (fun _ => 0%nat) (d_split x)) by (destruct (d_split x); apply Y).
  assert (H1 : match sp with None => forall l, In l y -> l = el | Some s => s = 0%nat /\ glob y = el end) by (subst sp; destruct (d_split x); cbn [option_map]; [split; [auto|]|]; apply Y).
  specialize (R1 H1). set (x1 := of_dist y sp N) in *. set (c := map (fun l => Z.of_nat (length l)) y) in *.
  assert (LCC : length c = length cnts) by (unfold c; rewrite map_length; lia).
  assert (CC : d_split x <> None -> c = zcounts N (length cnts)).
  { intros HN. destruct (d_split x); [|congruence]. destruct Y as (_ & _ & Y). unfold zcounts. rewrite <- EN, Nat2Z.id. rewrite LC in Y. rewrite <- Y. unfold lens. rewrite map_map. reflexivity. }
  assert (DAT : map (fun j => cv (nth (Z.to_nat j) el 0%Q)) (zr N) = map cv el).
  { unfold zr. rewrite map_map. replace (Z.to_nat N) with (length el) by lia. rewrite <- (map_map (fun k => nth (Z.to_nat (Z.of_nat k)) el 0%Q) cv). f_equal. erewrite map_ext; [apply map_nth_seq|]. intros k. now rewrite Nat2Z.id. }
  unfold percentile_flat. rewrite E. cbn [bind fst snd]. fold N x1. destruct (kd && negb (Nat.eqb (length (d_gshape x)) 0)) eqn:EK.
  - apply andb_prop in EK as [K1 K2]. destruct kd; [|discriminate]. apply Bool.negb_true_iff, Nat.eqb_neq in K2. set (nd := length (d_gshape x)) in *.
    destruct (C44_expand_dims_partial Q x1 _ c (AxTuple (map Z.of_nat (seq 1 nd))) (seq 1 nd) R1) as (x2 & F1 & F2 & F3 & F4 & F5 & F6).
    { change (length (d_gshape x1)) with 1%nat. rewrite map_length, seq_length. split; [destruct nd; [lia|discriminate]|]. split.
      - intros a Ha. apply in_map_iff in Ha as (k & <- & Hk). apply in_seq in Hk. unfold valid_axis. lia.
      - rewrite map_map. symmetry. erewrite map_ext; [apply map_id|]. intros k. unfold norm. replace (Z.of_nat k <? 0) with false by lia. apply Nat2Z.id. }
    { apply sorted_seq. }
    change (length (d_gshape x1)) with 1%nat in *. rewrite seq_length in F2, F6. rewrite F1. cbn [bind]. change (d_gshape x1) with [N] in F3.
    eexists x2, c, _. split; [reflexivity|]. split; [|split; [exact F5|split; [auto|split; [|split; [auto|]]]]].
    + destruct (d_gshape x2) as [|a t] eqn:ES; [discriminate|]. unfold drop_axes in F3. cbn [drop_from] in F3. rewrite no_zero in F3. injection F3 as -> _. f_equal. cbn [length] in F2.
      apply (@nth_ext2 _ _ _ 0); [unfold rest; rewrite repeat_length; lia|]. intros k Hk. specialize (F4 (S k)). cbn [nth] in F4. rewrite F4 by (apply in_seq; lia). unfold rest. symmetry. 
      rewrite (nth_indep _ 0 1) by (rewrite repeat_length; lia). apply nth_repeat.
    + change (d_split x1) with sp in F6. rewrite SP in F6. destruct (d_split x); cbn [option_map] in *; [|auto]. destruct F6 as (s' & -> & F6). cbn [seq] in F6. unfold drop_axes in F6. cbn [drop_from Nat.add seq] in F6. rewrite no_zero in F6. cbn in F6. congruence.
    + intros i Hi. unfold data. rewrite <- DAT. apply map_ext. intros j. unfold drop_axes. cbn [drop_from]. rewrite no_zero. reflexivity.
  - assert (RS : rest = []). { unfold rest. destruct kd; [|auto]. cbn in EK. apply Bool.negb_false_iff, Nat.eqb_eq in EK. rewrite EK. reflexivity. }
    eexists x1, c, _. cbn [bind]. split; [reflexivity|]. split; [rewrite RS; reflexivity|]. split; [exact R1|]. split; [auto|]. split; [exact SP|]. split; [auto|].
    intros i Hi. unfold data. rewrite <- DAT. reflexivity.
Qed.
