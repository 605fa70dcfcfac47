From Verif Require Import Base BaseLemmas LayoutModel LayoutProofs NdSpec TensorSpec NdLemmas TensorLemmas OpsModel OpsProofs4 RedistModel HaloModel HaloProofs HaloProps ShapeModel ShapeSpec ShapeProofs ShapeProofs4 ShapeProps BinModel BinProofs2 ReshapeModel FactoryModel FactoryProps ConcatModel ConcatProps DiagModel DiagProps RollProps SplitModel SplitProps SplitProps2 UnfoldModel UnfoldSpec.
Open Scope Z_scope.

(** number of windows (starts 0, step, ...) starting before o, among nw *)
Definition wb (nw step o : Z) : Z := Z.min nw ((o - 1) / step + 1).
Definition wcnts (nw step : Z) (cnts : list Z) : list Z :=
  map (fun r => wb nw step (zsum (firstn (S r) cnts)) - wb nw step (zsum (firstn r cnts))) (seq 0 (length cnts)).

Lemma tele (f : nat -> Z) n : forall r, (r <= n)%nat -> zsum (firstn r (map (fun i => f (S i) - f i) (seq 0 n))) = f r - f 0%nat.
Proof.
  induction r as [|r IH]; intros Hr; [cbn; lia|]. rewrite zsum_firstn_S by (rewrite map_length, seq_length; lia). rewrite IH by lia.
  rewrite (@nth_map_seq) by lia. lia.
Qed.
Lemma wb_mono nw step o o' : 0 < step -> o <= o' -> wb nw step o <= wb nw step o'.
Proof. intros Hs H. unfold wb. assert ((o - 1) / step <= (o' - 1) / step) by (apply Z.div_le_mono; lia). lia. Qed.
Lemma wb_0 nw step : 0 < step -> 0 <= nw -> wb nw step 0 = 0.
Proof. intros. unfold wb. assert ((0 - 1) / step = -1). { symmetry. apply Z.div_unique with (step - 1); lia. } lia. Qed.
Lemma wb_all step n size : 0 < step -> 1 <= size -> size <= n -> wb ((n - size) / step + 1) step n = (n - size) / step + 1.
Proof. intros. unfold wb. assert ((n - size) / step <= (n - 1) / step) by (apply Z.div_le_mono; lia). lia. Qed.

Lemma last_app1 {B} (l : list B) x d : last (l ++ [x]) d = x.
Proof. apply last_last. Qed.

Lemma in_bounds_snoc sh n idx : in_bounds (sh ++ [n]) idx -> exists i j, idx = i ++ [j] /\ in_bounds sh i /\ 0 <= j < n.
Proof.
  intros H. unfold in_bounds in H. apply Forall2_app_inv_l in H as (i & l2 & H1 & H2 & ->). inversion H2 as [|a b c d Hab Hcd]; subst. inversion Hcd; subst. exists i, b. auto.
Qed.

Lemma win_snoc axis step i j : (axis < length i)%nat -> win axis step (i ++ [j]) = upd i axis (nth axis i 0 * step + j).
Proof. intros H. unfold win. rewrite removelast_last, last_last, app_nth1 by auto. reflexivity. Qed.

Lemma in_bounds_upd sh i axis v n : in_bounds (upd sh axis n) i -> (axis < length sh)%nat -> 0 <= v < nth axis sh 0 -> in_bounds sh (upd i axis v).
Proof.
  intros H HX Hv. apply in_bounds_nth in H as [L H]. rewrite upd_length in L. apply in_bounds_nth. rewrite upd_length. split; [congruence|]. intros k Hk.
  destruct (Nat.eq_dec k axis) as [->|N]; [now rewrite upd_same by lia|]. rewrite upd_other by auto. specialize (H k ltac:(rewrite upd_length; auto)). rewrite upd_other in H by auto. exact H.
Qed.

Lemma torch_unfold_ok {A} axis size step (t : arr A) sh F : 0 < step -> 0 <= size -> (axis < length sh)%nat -> agrees t sh F -> size <= nth axis sh 0 ->
  exists u, torch_unfold axis size step t = Ok u /\ agrees u (upd sh axis ((nth axis sh 0 - size) / step + 1) ++ [size]) (fun idx => F (win axis step idx)).
Proof.
  intros Hs Hz HX [S0 D0] Hn. unfold torch_unfold. rewrite S0. replace ((size <? 0) || (nth axis sh 0 <? size) || (step <=? 0)) with false by lia.
  eexists. split; [reflexivity|]. split; [reflexivity|]. cbn [adat]. intros idx Hi. apply in_bounds_snoc in Hi as (i & j & -> & Hi & Hj).
  assert (LI := in_bounds_length _ _ Hi). rewrite upd_length in LI. fold (win axis step (i ++ [j])). rewrite win_snoc by lia. rewrite D0; [reflexivity|].
  apply in_bounds_upd with ((nth axis sh 0 - size) / step + 1); auto. apply in_bounds_nth in Hi as [_ Hi]. specialize (Hi axis ltac:(rewrite upd_length; auto)). rewrite upd_same in Hi by auto.
  assert (step * ((nth axis sh 0 - size) / step) <= nth axis sh 0 - size) by (apply Z.mul_div_le; lia). nia.
Qed.

Lemma upd_snoc {B} (l : list B) axis v e : (axis < length l)%nat -> upd (l ++ [e]) axis v = upd l axis v ++ [e].
Proof. revert l. induction axis as [|a IH]; intros [|h l] H; cbn in *; try lia; auto. f_equal. apply IH. lia. Qed.

Lemma nth_skipn' {B} (l : list B) a i x : nth i (skipn a l) x = nth (a + i) l x.
Proof. revert l; induction a as [|a IH]; intros [|h l]; cbn; auto. destruct i; auto. Qed.

Lemma slabs_length {A} axis (t : arr A) : length (slabs axis t) = Z.to_nat (nth axis (ash t) 0).
Proof. unfold slabs, zr. now rewrite !map_length, seq_length. Qed.

(** arithmetic of the windows that start in [off, off + l) *)
Lemma ar_q0 off step : 1 <= step -> off <= ((off - 1) / step + 1) * step < off + step.
Proof. intros H. pose proof (Z.div_mod (off - 1) step ltac:(lia)). pose proof (Z.mod_pos_bound (off - 1) step ltac:(lia)). nia. Qed.
Lemma ar_empty off l n size step q0 mi : 1 <= step -> 1 < size <= n -> 0 <= l -> q0 = (off - 1) / step + 1 -> mi + off = q0 * step ->
  (l <= mi \/ (off + l = n /\ l < mi + size)) -> wb ((n - size) / step + 1) step (off + l) - wb ((n - size) / step + 1) step off = 0.
Proof.
  intros Hs Hz Hl Eq Em HC. assert (M := wb_mono ((n - size) / step + 1) step off (off + l) ltac:(lia) ltac:(lia)). unfold wb in *. rewrite <- Eq in *. destruct HC as [HC|[HC1 HC2]].
  - assert ((off + l - 1) / step < q0) by (apply Z.div_lt_upper_bound; [lia|]; rewrite Z.mul_comm; lia). lia.
  - assert ((n - size) / step < q0) by (apply Z.div_lt_upper_bound; [lia|]; rewrite Z.mul_comm; lia). lia.
Qed.
Lemma ar_wq off n size step q0 mi bz : 1 <= step -> q0 = (off - 1) / step + 1 -> mi + off = q0 * step -> off + bz <= n -> size <= bz - mi ->
  wb ((n - size) / step + 1) step off = q0.
Proof.
  intros Hs Eq Em HB HS. unfold wb. rewrite <- Eq. assert (q0 <= (n - size) / step); [|lia]. apply Z.div_le_lower_bound; [lia|]. rewrite Z.mul_comm. lia.
Qed.
Lemma ar_cnt off l n size step q0 mi bz : 1 <= step -> 1 < size <= n -> q0 = (off - 1) / step + 1 -> mi + off = q0 * step -> off + bz <= n -> size <= bz - mi ->
  (bz = l /\ off + l = n \/ bz = l + (size - 1) /\ off + l + (size - 1) <= n) ->
  (bz - mi - size) / step + 1 = wb ((n - size) / step + 1) step (off + l) - wb ((n - size) / step + 1) step off.
Proof.
  intros Hs Hz Eq Em HB HS HC. rewrite (ar_wq off n size step q0 mi bz) by auto. replace (bz - mi - size) with ((off + bz - size) + (- q0) * step) by lia. rewrite Z.div_add by lia. destruct HC as [[-> HC]|[-> HC]].
  - rewrite HC. rewrite (wb_all step n size) by lia. lia.
  - replace (off + (l + (size - 1)) - size) with (off + l - 1) by lia. unfold wb. assert ((off + l - 1) / step <= (n - size) / step) by (apply Z.div_le_mono; lia). lia.
Qed.
Lemma ar_idx off mi i ps big bz : Z.of_nat ps = off -> Z.of_nat big = bz -> 0 <= mi -> 0 <= i < bz - mi ->
  (Z.to_nat mi + Z.to_nat i < big)%nat /\ (ps + (Z.to_nat mi + Z.to_nat i))%nat = Z.to_nat (i + (off + mi)).
Proof. lia. Qed.
Lemma ar_big l size last : 0 <= l -> 1 < size -> Z.of_nat (if last : bool then Z.to_nat l else (Z.to_nat l + Z.to_nat (size - 1))%nat) = (if last then l else l + (size - 1)).
Proof. intros. destruct last; lia. Qed.

Section Along.
Context {A : Type}.
Variables (dflt : A) (x : dnd A) (G : list Z -> A) (cnts : list Z) (axis : nat) (size step : Z).
Hypothesis HR : represents G (d_gshape x) (Some axis) cnts (d_locals x).
Hypothesis Hstep : 1 <= step.
Hypothesis Hsize : 1 < size.
Hypothesis HP : (1 < length (d_locals x))%nat.
Hypothesis Hn : size <= nth axis (d_gshape x) 0.
Hypothesis Hc : Forall (fun c => size - 1 <= c) cnts.
Let P := length (d_locals x).
Let n := nth axis (d_gshape x) 0.
Let d := map (slabs axis) (d_locals x).
Let nw := (n - size) / step + 1.

Lemma LC : length cnts = P. Proof. destruct HR as (H & _). unfold P. auto. Qed.
Lemma AX : (axis < length (d_gshape x))%nat. Proof. destruct HR as (_ & _ & H & _). auto. Qed.
Lemma SUM : zsum cnts = n. Proof. destruct HR as (_ & _ & _ & _ & H & _). auto. Qed.
Lemma CNN : Forall (fun c => 0 <= c) cnts. Proof. destruct HR as (_ & _ & _ & H & _). auto. Qed.
Lemma LOC r t : nth_error (d_locals x) r = Some t -> (r < P)%nat /\ ash t = upd (d_gshape x) axis (nth r cnts 0) /\ nth axis (ash t) 0 = nth r cnts 0 /\ size - 1 <= nth r cnts 0 /\
  forall idx, in_bounds (ash t) idx -> adat t idx = G (move_axis_idx axis (zsum (firstn r cnts)) idx).
Proof.
  intros Ht. assert (Hr : (r < P)%nat) by (unfold P; apply nth_error_Some; congruence). destruct HR as (_ & _ & HX & _ & _ & Q). destruct (Q r t Ht) as [S0 D0]. rewrite S0. rewrite upd_same by auto.
  split; [auto|]. split; [auto|]. split; [auto|]. split; [|auto]. rewrite Forall_forall in Hc. apply Hc, nth_In. rewrite LC. auto.
Qed.
Lemma d_len : length d = P. Proof. unfold d. now rewrite map_length. Qed.
Lemma d_nth r t : nth_error (d_locals x) r = Some t -> nth r d [] = slabs axis t.
Proof. intros H. apply nth_error_nth. unfold d. now rewrite nth_error_map, H. Qed.
Lemma d_lens : lens d = map Z.to_nat cnts.
Proof.
  apply (@nth_ext2 _ _ _ 0%nat); [unfold lens, d; rewrite !map_length; symmetry; apply LC|]. intros r Hr. unfold lens in *. rewrite map_length in Hr. rewrite d_len in Hr.
  destruct (nth_error (d_locals x) r) as [t|] eqn:Et; [|apply nth_error_None in Et; fold P in Et; lia]. destruct (LOC _ _ Et) as (_ & _ & L & _).
  rewrite (@nth_indep _ _ _ 0%nat (length (@nil (list Z -> A)))) by (rewrite map_length, d_len; auto). rewrite map_nth, (d_nth _ _ Et), slabs_length, L.
  change 0%nat with (Z.to_nat 0). now rewrite map_nth.
Qed.
Lemma psum_cnts r : (r <= P)%nat -> Z.of_nat (psum (lens d) r) = zsum (firstn r cnts).
Proof.
  rewrite d_lens. assert (L := LC). assert (C := CNN). induction r as [|r IH]; intros Hr; [reflexivity|].
  rewrite psum_S by (rewrite map_length; lia). rewrite zsum_firstn_S by lia. rewrite Nat2Z.inj_add, IH by lia. change 0%nat with (Z.to_nat 0). rewrite map_nth. rewrite Z2Nat.id; [auto|].
  rewrite Forall_forall in C. apply C, nth_In. lia.
Qed.
Lemma glob_len : Z.of_nat (length (glob d)) = n.
Proof. rewrite glob_length, <- (psum_all (lens d) (Nat.le_refl _)). rewrite lens_length, d_len. rewrite psum_cnts by lia. rewrite <- LC, firstn_all. apply SUM. Qed.

(** the global slab at position i is G at i *)
Lemma glob_slab i idx dd : 0 <= i < n -> (exists m, in_bounds (upd (d_gshape x) axis m) idx) -> nth (Z.to_nat i) (glob d) dd idx = G (upd idx axis i).
Proof.
  intros Hi (m & Hm). assert (L := LC). assert (HX := AX). destruct (zsum_find cnts i CNN ltac:(rewrite SUM; auto)) as (r & Hr & Hb). rewrite L in Hr.
  destruct (nth_error (d_locals x) r) as [t|] eqn:Et; [|apply nth_error_None in Et; fold P in Et; lia]. destruct (LOC _ _ Et) as (_ & SH & LL & _ & D).
  assert (PS := psum_cnts r ltac:(lia)). set (k := (Z.to_nat i - psum (lens d) r)%nat). assert (Hk : (k < length (nth r d []))%nat) by (rewrite (d_nth _ _ Et), slabs_length, LL; unfold k; lia).
  replace (Z.to_nat i) with (psum (lens d) r + k)%nat by (unfold k; lia). rewrite (glob_nth d r dd Hk). rewrite (d_nth _ _ Et) in *. rewrite slabs_length in Hk.
  unfold slabs, zr. rewrite map_map. rewrite (@nth_map_seq) by auto.
  assert (LI := in_bounds_length _ _ Hm). rewrite upd_length in LI. rewrite D.
  - unfold move_axis_idx. rewrite upd_same by lia. rewrite upd_upd_same. f_equal. f_equal. unfold k. lia.
  - rewrite SH. rewrite SH, upd_same in Hk by auto. apply in_bounds_nth in Hm as [_ Hm]. apply in_bounds_nth. rewrite !upd_length. split; [auto|]. intros q Hq.
    specialize (Hm q ltac:(rewrite upd_length; auto)). destruct (Nat.eq_dec q axis) as [->|N]; [rewrite !upd_same by (auto; lia); lia|rewrite !upd_other in * by auto; auto].
Qed.

(** halo + local data = a stretch of the global array *)
Lemma halo_stretch r st : (r < P)%nat -> exists s, get_halo d (size - 1) false true r st = HDone s /\
  let off := psum (lens d) r in let l := length (nth r d []) in
  array_with_halos d r s = sub (glob d) off (if Nat.eqb r (P - 1) then l else l + Z.to_nat (size - 1)) /\
  (Nat.eqb r (P - 1) = false -> off + l + Z.to_nat (size - 1) <= length (glob d))%nat.
Proof.
  intros Hr. assert (POP : forall q, (q < length d)%nat -> nth q d [] <> [] /\ size - 1 <= Z.of_nat (length (nth q d []))).
  { intros q Hq. rewrite d_len in Hq. destruct (nth_error (d_locals x) q) as [t|] eqn:Et; [|apply nth_error_None in Et; fold P in Et; lia]. destruct (LOC _ _ Et) as (_ & _ & L & HC & _).
    rewrite (d_nth _ _ Et). assert (E := slabs_length axis t). rewrite L in E. split; [intros E0; rewrite E0 in E; cbn in E; lia|lia]. }
  assert (OTH : exists q, (q < length d)%nat /\ q <> r /\ nth q d [] <> []).
  { rewrite d_len. destruct (Nat.eq_dec r 0) as [->|]; [exists 1%nat|exists 0%nat]; (split; [unfold P; lia|]); (split; [lia|]); apply POP; rewrite d_len; unfold P; lia. }
  destruct (C12_get_halo d (h := size - 1) false true (r := r) st) as (hp & hn & E & H1 & _ & H3 & H4); [lia|rewrite d_len; auto|apply POP; rewrite d_len; auto|auto|intros q Hq _; apply POP; auto|].
  exists (Halo hp hn true). split; [exact E|]. cbv zeta. rewrite (H1 (or_introl eq_refl)). unfold array_with_halos. cbn [h_prev h_next app]. replace (Nat.leb (length d) 1) with false by (rewrite d_len; unfold P; lia).
  assert (BL := block d (r := r) ltac:(rewrite d_len; auto)). destruct (Nat.eqb_spec r (P - 1)) as [El|Nl].
  - rewrite H3 by (right; intros q Hq; apply nth_overflow; rewrite d_len; lia). rewrite app_nil_r. split; [exact BL|discriminate].
  - assert (NE : ~ (forall q, (r < q)%nat -> nth q d [] = [])) by (intros H0; apply (proj1 (POP (S r) ltac:(rewrite d_len; lia))); apply H0; lia).
    destruct (H4 eq_refl NE) as [H5 ->]. rewrite psum_S in * by (rewrite lens_length, d_len; auto). rewrite lens_nth in *. split; [|intros _; lia].
    rewrite BL at 1. apply sub_app_sub.
Qed.

Lemma unfold_split_ok st r t : nth_error (d_locals x) r = Some t ->
  exists u, unfold_split dflt x axis size step st r t = Ok u /\
    agrees u (upd (upd (d_gshape x) axis nw ++ [size]) axis (nth r (wcnts nw step cnts) 0))
      (fun idx => G (win axis step (move_axis_idx axis (zsum (firstn r (wcnts nw step cnts))) idx))).
Proof.
  intros Ht. destruct (LOC _ _ Ht) as (Hr & SH & LL & HC & _). assert (L := LC). assert (HX := AX). assert (HS := SUM).
  set (off := zsum (firstn r cnts)). set (l := nth r cnts 0) in *.
  assert (OFF : 0 <= off) by (apply zsum_nonneg, Forall_firstn', CNN).
  assert (OFFL : off + l <= n). { unfold off, l. rewrite <- zsum_firstn_S by lia. rewrite <- HS. apply zsum_firstn_le, CNN. }
  assert (LAST : r = (P - 1)%nat -> off + l = n). { intros El. unfold off, l. rewrite <- zsum_firstn_S by lia. rewrite firstn_all2 by lia. exact HS. }
  assert (NLAST : r <> (P - 1)%nat -> off + l + (size - 1) <= n).
  { intros Nl. unfold off, l. rewrite <- zsum_firstn_S by lia. rewrite <- HS. apply Z.le_trans with (zsum (firstn (S (S r)) cnts)); [|apply zsum_firstn_le, CNN]. rewrite (zsum_firstn_S cnts (S r)) by lia.
    rewrite Forall_forall in Hc. specialize (Hc (nth (S r) cnts 0) ltac:(apply nth_In; lia)). lia. }
  assert (NW : 0 <= nw) by (unfold nw; assert (0 <= (n - size) / step) by (apply Z.div_pos; unfold n; lia); lia).
  assert (W0 : zsum (firstn r (wcnts nw step cnts)) = wb nw step off).
  { unfold wcnts. rewrite (tele (fun r => wb nw step (zsum (firstn r cnts)))) by lia. cbn [firstn]. change (zsum []) with 0. rewrite wb_0 by lia. fold off. lia. }
  assert (W1 : nth r (wcnts nw step cnts) 0 = wb nw step (off + l) - wb nw step off).
  { unfold wcnts. rewrite (@nth_map_seq) by lia. rewrite zsum_firstn_S by lia. reflexivity. }
  rewrite W0, W1. assert (UPD : upd (upd (d_gshape x) axis nw ++ [size]) axis (wb nw step (off + l) - wb nw step off) = upd (d_gshape x) axis (wb nw step (off + l) - wb nw step off) ++ [size]).
  { rewrite upd_snoc by (now rewrite upd_length). now rewrite upd_upd_same. }
  rewrite UPD. clear UPD W0 W1.
  unfold unfold_split. rewrite (local_counts _ _ _ _ _ HR). replace (existsb (fun c => c <? size - 1) cnts) with false.
  2:{ symmetry. apply not_true_is_false. intros E. apply existsb_exists in E as (c & Ci & Cl). rewrite Forall_forall in Hc. specialize (Hc c Ci). lia. }
  fold d. destruct (halo_stretch r (st r) Hr) as (s & -> & HA & HB). fold off. rewrite LL. fold P.
  assert (Q1 := ar_q0 off step Hstep). remember ((off - 1) / step + 1) as q0 eqn:Eq0.
  assert (EMI : (q0 * step - off) + off = q0 * step) by ring. assert (M0 : 0 <= q0 * step - off) by (clear -Q1; lia). set (mi := q0 * step - off) in *. clearbody mi. clear Q1.
  assert (L0 : 0 <= l) by (clear -HC Hsize; lia).
  destruct ((l <=? mi) || (Nat.eqb r (P - 1) && (l <? mi + size))) eqn:EC.
  - (* no window starts here *)
    assert (Z0 : wb nw step (off + l) - wb nw step off = 0).
    { apply (ar_empty off l n size step q0 mi); auto. apply orb_true_iff in EC as [EC|EC]; [left; now apply Z.leb_le|right]. apply andb_true_iff in EC as [E1 E2]. apply Nat.eqb_eq in E1. apply Z.ltb_lt in E2. auto. }
    eexists. split; [reflexivity|]. rewrite Z0. apply agrees_empty with axis; [rewrite app_length, upd_length; cbn; clear -HX; lia| |cbn [ash]; now rewrite SH, upd_upd_same].
    rewrite app_nth1 by (now rewrite upd_length). now rewrite upd_same.
  - apply orb_false_iff in EC as [E1 E2]. apply Z.leb_gt in E1. rewrite HA. clear HA. rewrite (d_nth _ _ Ht), slabs_length, LL in *. fold l in HB |- *.
    assert (BZ := ar_big l size (Nat.eqb r (P - 1)) L0 Hsize). set (big := if Nat.eqb r (P - 1) then Z.to_nat l else (Z.to_nat l + Z.to_nat (size - 1))%nat) in *.
    assert (PS := psum_cnts r ltac:(clear -Hr; lia)). fold off in PS.
    set (bz := if Nat.eqb r (P - 1) then l else l + (size - 1)) in *.
    assert (CASES : bz = l /\ off + l = n /\ mi + size <= l \/ bz = l + (size - 1) /\ off + l + (size - 1) <= n).
    { unfold bz. destruct (Nat.eqb_spec r (P - 1)) as [El|Nl]; [left|right; auto]. cbn [andb] in E2. apply Z.ltb_ge in E2. auto. }
    clearbody bz big. clear LAST NLAST E2 HB.
    assert (BB : off + bz <= n) by (clear -CASES Hsize; lia). assert (SB : size <= bz - mi) by (clear -CASES E1 Hsize; lia).
    assert (GL := glob_len).
    assert (LS : Z.of_nat (length (skipn (Z.to_nat mi) (sub (glob d) (psum (lens d) r) big))) = bz - mi).
    { rewrite skipn_length, sub_length by (clear -GL PS BZ BB; lia). clear -BZ SB M0 Hsize. lia. }
    set (sl := skipn (Z.to_nat mi) (sub (glob d) (psum (lens d) r) big)) in *.
    assert (AG : agrees (of_slabs dflt (ash t) axis sl) (upd (d_gshape x) axis (bz - mi)) (fun idx => G (move_axis_idx axis (off + mi) idx))).
    { split; [unfold of_slabs; cbn [ash]; now rewrite SH, upd_upd_same, LS|]. intros idx Hi. unfold of_slabs. cbn [adat]. pose proof Hi as Hi'. apply in_bounds_nth in Hi' as [LI Hi']. specialize (Hi' axis ltac:(rewrite upd_length; auto)). rewrite upd_same in Hi' by auto.
      unfold sl. rewrite nth_skipn'. destruct (ar_idx off mi (nth axis idx 0) _ big bz PS BZ M0 Hi') as [X1 X2]. rewrite sub_nth by exact X1. rewrite X2.
      rewrite glob_slab; [reflexivity|clear -Hi' BB OFF M0; lia|exists (bz - mi); exact Hi]. }
    destruct (torch_unfold_ok axis size step _ _ _ ltac:(clear -Hsize Hstep; lia) ltac:(clear -Hsize Hstep; lia) ltac:(rewrite upd_length; exact HX) AG ltac:(rewrite upd_same by exact HX; exact SB)) as (u & Eu & [Su Du]).
    exists u. split; [exact Eu|]. rewrite upd_same in Su, Du by exact HX. rewrite upd_upd_same in Su, Du.
    assert (CNT : (bz - mi - size) / step + 1 = wb nw step (off + l) - wb nw step off).
    { apply (ar_cnt off l n size step q0 mi bz); auto. clear -CASES. tauto. }
    rewrite <- CNT. split; [exact Su|]. intros idx Hi. rewrite (Du idx Hi). f_equal. apply in_bounds_snoc in Hi as (i & j & -> & Hi & Hj). assert (LI := in_bounds_length _ _ Hi). rewrite upd_length in LI.
    assert (AI : (axis < length i)%nat) by (rewrite LI; exact HX).
    rewrite win_snoc by exact AI. unfold move_axis_idx. rewrite upd_same by exact AI. rewrite upd_upd_same. rewrite app_nth1 by exact AI.
    replace (upd (i ++ [j]) axis (nth axis i 0 + wb nw step off)) with (upd i axis (nth axis i 0 + wb nw step off) ++ [j]).
    2:{ symmetry. apply upd_snoc. exact AI. }
    rewrite win_snoc by (rewrite upd_length; exact AI). rewrite upd_same by exact AI. rewrite upd_upd_same. f_equal.
    assert (WQ : wb nw step off = q0) by (apply (ar_wq off n size step q0 mi bz); auto).
    rewrite WQ. clear -EMI. lia.
Qed.
End Along.
