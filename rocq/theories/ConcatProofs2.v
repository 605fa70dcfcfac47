From Verif Require Import Base BaseLemmas LayoutModel LayoutProofs NdSpec TensorSpec TensorLemmas NdLemmas OpsModel OpsProofs2 RedistModel RedistProofs ShapeSpec ShapeModel ShapeProofs ShapeProofs2 ShapeProofs3 ShapeProofs4 BinModel BinProofs BinProofs2 SlabLemmas ShapeProps RandProofs5 RollProofs RollProofs3 ReshapeModel ReshapeProofs FactoryModel FactoryProps ConcatSpec ConcatModel ConcatProofs.
Open Scope Z_scope.

Lemma cat_shapes_eq axis sh0 sh1 v : cat_shapes axis sh0 sh1 -> upd sh1 axis v = upd sh0 axis v.
Proof.
  intros (H1 & H2 & H3). apply (@nth_ext2 _ _ _ 0); [rewrite !upd_length; auto|]. intros i Hi. rewrite upd_length in Hi.
  destruct (Nat.eq_dec i axis) as [->|N]; [rewrite !upd_same by lia; auto|]. rewrite !upd_other by auto. symmetry. apply H3; lia.
Qed.
Lemma fits_cat axis sh0 sh1 : cat_shapes axis sh0 sh1 -> fits_left axis sh1 sh0 = true.
Proof. intros (H1 & H2 & H3). apply fits_left_iff. split; auto. Qed.
Lemma in_bounds_upd_iff sh idx k c : (k < length sh)%nat -> in_bounds (upd sh k c) idx <->
  length idx = length sh /\ 0 <= nth k idx 0 < c /\ forall j, (j < length sh)%nat -> j <> k -> 0 <= nth j idx 0 < nth j sh 0.
Proof.
  intros Hk. rewrite in_bounds_nth, upd_length. split.
  - intros [H1 H2]. split; [auto|]. split; [specialize (H2 k Hk); rewrite upd_same in H2; auto|]. intros j Hj Hn. specialize (H2 j Hj). rewrite upd_other in H2; auto.
  - intros (H1 & H2 & H3). split; [auto|]. intros j Hj. destruct (Nat.eq_dec j k) as [->|N]; [rewrite upd_same; auto|rewrite upd_other; auto].
Qed.

(** one rank: torch.cat of two pieces *)
Lemma cat_agrees {A} axis gsh (t0 t1 : arr A) a b F H :
  (axis < length gsh)%nat -> 0 <= a -> 0 <= b ->
  agrees t0 (upd gsh axis a) F -> agrees t1 (upd gsh axis b) H ->
  exists t, cat axis t0 t1 = Ok t /\ agrees t (upd gsh axis (a + b)) (glue axis a F H).
Proof.
  intros Hx Ha Hb [S0 D0] [S1 D1]. unfold cat. rewrite S0, S1.
  replace (fits_left axis (upd gsh axis a) (upd gsh axis b)) with true.
  2:{ symmetry. apply fits_left_iff. rewrite !upd_length. split; auto. intros k Hk N. now rewrite !upd_other. }
  rewrite !upd_same by auto. eexists. split; [reflexivity|]. split; [cbn [ash]; now rewrite upd_upd_same|].
  intros idx Hi. cbn [adat]. unfold glue. apply in_bounds_upd_iff in Hi as (L & B & O); [|auto]. destruct (Z.ltb_spec (nth axis idx 0) a).
  - apply D0. apply in_bounds_upd_iff; auto. repeat split; auto; try lia; apply O; auto.
  - apply D1. apply in_bounds_upd_iff; auto. rewrite upd_length, upd_same by lia. repeat split; auto; try lia; rewrite upd_other by auto; apply O; auto.
Qed.

Lemma glue_ext {A} axis a gsh c (F F' H H' : list Z -> A) idx : (axis < length gsh)%nat -> in_bounds (upd gsh axis c) idx ->
  (forall i, in_bounds (upd gsh axis a) i -> F i = F' i) -> (forall i, in_bounds (upd gsh axis (c - a)) i -> H i = H' i) ->
  glue axis a F H idx = glue axis a F' H' idx.
Proof.
  intros Hx Hi E1 E2. unfold glue. apply in_bounds_upd_iff in Hi as (L & B & O); auto. destruct (Z.ltb_spec (nth axis idx 0) a).
  - apply E1. apply in_bounds_upd_iff; auto. repeat split; auto; try lia; apply O; auto.
  - apply E2. apply in_bounds_upd_iff; auto. rewrite upd_length, upd_same by lia. repeat split; auto; try lia; rewrite upd_other by auto; apply O; auto.
Qed.

(** all ranks, pieces along the split axis *)
Lemma cats_axis {A} (GL : list Z -> A) axis osh (lf lg cnts : list Z) (f g : list (arr A)) (F H : nat -> list Z -> A) P :
  (axis < length osh)%nat -> Forall (fun n => 0 <= n) osh ->
  length f = P -> length g = P -> length cnts = P ->
  Forall (fun c => 0 <= c) cnts -> zsum cnts = nth axis osh 0 ->
  (forall r, (r < P)%nat -> 0 <= nth r lf 0 /\ 0 <= nth r lg 0 /\ nth r lf 0 + nth r lg 0 = nth r cnts 0) ->
  (forall r t, nth_error f r = Some t -> agrees t (upd osh axis (nth r lf 0)) (F r)) ->
  (forall r t, nth_error g r = Some t -> agrees t (upd osh axis (nth r lg 0)) (H r)) ->
  (forall r idx, (r < P)%nat -> in_bounds (upd osh axis (nth r lf 0)) idx -> F r idx = GL (move_axis_idx axis (zsum (firstn r cnts)) idx)) ->
  (forall r idx, (r < P)%nat -> in_bounds (upd osh axis (nth r lg 0)) idx -> H r idx = GL (move_axis_idx axis (zsum (firstn r cnts) + nth r lf 0) idx)) ->
  exists ls, cats axis f g = Ok ls /\ length ls = P /\ represents GL osh (Some axis) cnts ls.
Proof.
  intros Hx Hn Lf Lg Lc Fc Sc Hl Hf Hg EF EH. unfold cats.
  destruct (all_ok_Qn (fun p => cat axis (fst p) (snd p))
     (fun r t => agrees t (upd osh axis (nth r cnts 0)) (fun idx => GL (move_axis_idx axis (zsum (firstn r cnts)) idx))) (combine f g)) as (ls & E & L & Q).
  - intros r [t0 t1] Hp. assert (Hr : (r < P)%nat) by (assert (r < length (combine f g))%nat by (apply nth_error_Some; congruence); rewrite combine_length in *; lia).
    apply nth_error_combine in Hp as [P1 P2]. destruct (Hl r Hr) as (A1 & A2 & A3). cbn [fst snd].
    destruct (cat_agrees axis osh t0 t1 _ _ _ _ Hx A1 A2 (Hf r t0 P1) (Hg r t1 P2)) as (t & Et & [St Dt]). exists t. split; [auto|]. rewrite A3 in *. split; [auto|].
    intros idx Hi. rewrite Dt by auto. unfold glue. apply in_bounds_upd_iff in Hi as (LI & B & O); auto. destruct (Z.ltb_spec (nth axis idx 0) (nth r lf 0)).
    + apply EF; auto. apply in_bounds_upd_iff; auto. repeat split; auto; try lia; apply O; auto.
    + rewrite EH; auto.
      * f_equal. unfold move_axis_idx. rewrite upd_same by lia. rewrite upd_upd_same. f_equal. lia.
      * apply in_bounds_upd_iff; auto. rewrite upd_length, upd_same by lia. repeat split; auto; try lia; rewrite upd_other by auto; apply O; auto.
  - rewrite combine_length, Lf, Lg, Nat.min_id in L. exists ls. split; [auto|]. split; [auto|]. split; [lia|]. split; [auto|]. split; [auto|]. split; [auto|]. split; [auto|]. exact Q.
Qed.

(** all ranks, pieces along another axis *)
Lemma cats_other {A} (G0 G1 : list Z -> A) axis gsh0 gsh1 s cnts l0 l1 :
  cat_shapes axis gsh0 gsh1 -> s <> axis ->
  represents G0 gsh0 (Some s) cnts l0 -> represents G1 gsh1 (Some s) cnts l1 ->
  exists ls, cats axis l0 l1 = Ok ls /\ length ls = length l0 /\
    represents (glue axis (nth axis gsh0 0) G0 G1) (cat_shape axis gsh0 gsh1) (Some s) cnts ls.
Proof.
  intros HC Hne R0 R1. destruct R0 as (L0 & N0 & S0 & C0 & Z0 & Q0). destruct R1 as (L1 & N1 & _ & _ & _ & Q1). pose proof HC as (HC1 & HC2 & HC3).
  set (n0 := nth axis gsh0 0). set (n1 := nth axis gsh1 0).
  assert (Hn0 : 0 <= n0) by (rewrite Forall_forall in N0; apply N0, nth_In; auto). assert (Hn1 : 0 <= n1) by (rewrite Forall_forall in N1; apply N1, nth_In; lia).
  unfold cats. destruct (all_ok_Qn (fun p => cat axis (fst p) (snd p))
     (fun r t => agrees t (upd (cat_shape axis gsh0 gsh1) s (nth r cnts 0)) (fun idx => glue axis n0 G0 G1 (move_axis_idx s (zsum (firstn r cnts)) idx))) (combine l0 l1)) as (ls & E & L & Q).
  - intros r [t0 t1] Hp. apply nth_error_combine in Hp as [P1 P2]. cbn [fst snd]. specialize (Q0 r t0 P1). specialize (Q1 r t1 P2).
    set (lsh := upd gsh0 s (nth r cnts 0)).
    assert (E0 : upd gsh0 s (nth r cnts 0) = upd lsh axis n0) by (unfold lsh; symmetry; apply upd_same_list; now rewrite upd_other by auto).
    assert (E1 : upd gsh1 s (nth r cnts 0) = upd lsh axis n1).
    { unfold lsh. rewrite upd_comm by auto. rewrite <- (cat_shapes_eq axis gsh0 gsh1) by auto. rewrite upd_comm by auto. symmetry. apply upd_same_list. now rewrite upd_other by auto. }
    rewrite E0 in Q0. rewrite E1 in Q1.
    destruct (cat_agrees axis lsh t0 t1 n0 n1 _ _ ltac:(unfold lsh; rewrite upd_length; auto) Hn0 Hn1 Q0 Q1) as (t & Et & [St Dt]). exists t. split; [auto|].
    assert (ES : upd lsh axis (n0 + n1) = upd (cat_shape axis gsh0 gsh1) s (nth r cnts 0)) by (unfold lsh, cat_shape; now rewrite upd_comm by auto).
    rewrite ES in *. split; [auto|]. intros idx Hi. rewrite Dt by auto. unfold glue, move_axis_idx. rewrite !upd_other by auto.
    destruct (nth axis idx 0 <? n0); auto. f_equal. apply upd_comm. auto.
  - rewrite combine_length, L0, L1, Nat.min_id in L. exists ls. split; [auto|]. split; [lia|]. split; [lia|]. split.
    { unfold cat_shape. apply Forall_forall. intros z Hz. apply In_nth with (d := 0) in Hz as (k & Hk & <-). rewrite upd_length in Hk. destruct (Nat.eq_dec k axis) as [->|N]; [rewrite upd_same by auto; fold n0 n1; lia|].
      rewrite upd_other by auto. rewrite Forall_forall in N0. apply N0, nth_In; auto. }
    unfold cat_shape. rewrite upd_length. split; [auto|]. split; [auto|]. split; [rewrite upd_other; auto|]. exact Q.
Qed.
Lemma cats_none {A} (G0 G1 : list Z -> A) axis gsh0 gsh1 c0 c1 l0 l1 :
  cat_shapes axis gsh0 gsh1 -> length c0 = length c1 ->
  represents G0 gsh0 None c0 l0 -> represents G1 gsh1 None c1 l1 ->
  exists ls, cats axis l0 l1 = Ok ls /\ length ls = length l0 /\
    represents (glue axis (nth axis gsh0 0) G0 G1) (cat_shape axis gsh0 gsh1) None c0 ls.
Proof.
  intros HC HL (L0 & N0 & Q0) (L1 & N1 & Q1). pose proof HC as (HC1 & HC2 & HC3).
  set (n0 := nth axis gsh0 0). set (n1 := nth axis gsh1 0).
  assert (Hn0 : 0 <= n0) by (rewrite Forall_forall in N0; apply N0, nth_In; auto). assert (Hn1 : 0 <= n1) by (rewrite Forall_forall in N1; apply N1, nth_In; lia).
  unfold cats. destruct (all_ok_Qn (fun p => cat axis (fst p) (snd p))
     (fun r t => agrees t (cat_shape axis gsh0 gsh1) (glue axis n0 G0 G1)) (combine l0 l1)) as (ls & E & L & Q).
  - intros r [t0 t1] Hp. apply nth_error_combine in Hp as [P1 P2]. cbn [fst snd]. apply nth_error_In in P1, P2. specialize (Q0 t0 P1). specialize (Q1 t1 P2).
    rewrite <- (upd_same_list gsh0 axis n0 eq_refl) in Q0.
    assert (E1 : gsh1 = upd gsh0 axis n1) by (rewrite <- (cat_shapes_eq axis gsh0 gsh1) by auto; symmetry; now apply upd_same_list).
    rewrite E1 in Q1. exact (cat_agrees axis gsh0 t0 t1 n0 n1 _ _ HC2 Hn0 Hn1 Q0 Q1).
  - rewrite combine_length, L0, L1, HL, Nat.min_id in L. exists ls. split; [auto|]. split; [lia|]. split; [lia|]. split.
    { unfold cat_shape. apply Forall_forall. intros z Hz. apply In_nth with (d := 0) in Hz as (k & Hk & <-). rewrite upd_length in Hk. destruct (Nat.eq_dec k axis) as [->|N]; [rewrite upd_same by auto; fold n0 n1; lia|].
      rewrite upd_other by auto. rewrite Forall_forall in N0. apply N0, nth_In; auto. }
    intros t Ht. apply In_nth_error in Ht as (r & Ht). eauto.
Qed.

(** the replicated operand cut to balanced chunks along [s] *)
Lemma take_chunk_represents {A} (G : list Z -> A) gsh s c ls P :
  represents G gsh None c ls -> length ls = P -> (0 < P)%nat -> (s < length gsh)%nat ->
  represents G gsh (Some s) (zcounts (nth s gsh 0) P) (map (fun p => take_chunk gsh s P (fst p) (snd p)) (combine (seq 0 P) ls)).
Proof.
  intros (L & N & Q) HL HP Hs. assert (N0 : 0 <= nth s gsh 0) by (rewrite Forall_forall in N; apply N, nth_In; auto).
  destruct (zcounts_ok (nth s gsh 0) P HP N0) as (LZ & FZ & SZ).
  split; [rewrite map_length, combine_length, seq_length; lia|]. split; [auto|]. split; [auto|]. split; [auto|]. split; [auto|].
  intros r t Ht. rewrite nth_error_map in Ht. destruct (nth_error (combine (seq 0 P) ls) r) as [[r' t']|] eqn:E; [|discriminate]. cbn in Ht. injection Ht as <-.
  apply nth_error_combine in E as [E1 E2]. assert (Hr : (r < P)%nat) by (rewrite <- HL; apply nth_error_Some; congruence).
  rewrite (nth_error_nth' _ 0%nat) in E1 by (rewrite seq_length; auto). rewrite seq_nth in E1 by auto. injection E1 as <-. cbn [Nat.add].
  apply nth_error_In in E2. destruct (Q t' E2) as [S D]. unfold take_chunk, cut. destruct (chunk_counts gsh s r P HP Hr) as [C1 C2]. rewrite C1, C2, S.
  rewrite upd_same by auto. split; [reflexivity|]. intros idx Hi. cbn [adat]. apply D. apply (move_in_bounds gsh s (zcounts (nth s gsh 0) P) r idx); auto. lia.
Qed.

(** squeeze and unsqueeze give the piece back when no other extent is one *)
Lemma drop_nil {A} (l : list A) i : drop_from i [] l = l.
Proof. revert i. induction l as [|a l IH]; intros i; cbn; auto. now rewrite IH. Qed.
Lemma ins_nil n : forall i idx, length idx = n -> ins_from i [] n idx = idx.
Proof. induction n as [|n IH]; intros i [|a idx] H; try discriminate; cbn; auto. rewrite IH; auto. Qed.
Lemma drop_single {A} (l : list A) k : (k < length l)%nat -> drop_axes [k] l = remove_at k l.
Proof. intros H. change [k] with ([] ++ [k]). rewrite drop_axes_snoc by (auto; intros j []). apply drop_nil. Qed.
Lemma insert_remove (l : list Z) k x : (k < length l)%nat -> nth k l 0 = x -> py_insert (remove_at k l) k x = l.
Proof.
  intros Hk Hx. apply (@nth_ext2 _ _ _ 0); [rewrite py_insert_length, remove_at_length; lia|]. intros i Hi. rewrite py_insert_nth by (rewrite remove_at_length; lia).
  destruct (Nat.ltb_spec i k).
  - rewrite remove_at_nth by auto. destruct (Nat.ltb_spec i k); [auto|lia].
  - destruct (Nat.eqb_spec i k) as [->|N]; [auto|]. rewrite remove_at_nth by auto. destruct (Nat.ltb_spec (i - 1) k); [lia|]. f_equal. lia.
Qed.
Lemma squeeze_fix_ok {A} axis gsh len (t : arr A) F :
  (axis < length gsh)%nat -> (forall k, (k < length gsh)%nat -> k <> axis -> nth k gsh 0 <> 1) ->
  agrees t (upd gsh axis len) F -> exists t', squeeze_fix axis (length gsh) t = Ok t' /\ agrees t' (upd gsh axis len) F.
Proof.
  intros Hx H1 [S D]. unfold squeeze_fix, squeeze_all. rewrite S, upd_length.
  destruct (Z.eq_dec len 1) as [->|N].
  - assert (E : filter (fun i => nth i (upd gsh axis 1) 0 =? 1) (seq 0 (length gsh)) = [axis]).
    { apply filter_unique; auto. intros k Hk. rewrite Z.eqb_eq. destruct (Nat.eq_dec k axis) as [->|Nk]; [rewrite upd_same by auto; tauto|].
      rewrite upd_other by auto. specialize (H1 k Hk Nk). tauto. }
    rewrite E. cbn [ash]. rewrite !drop_single by (rewrite upd_length; auto). rewrite remove_at_length by (rewrite upd_length; auto). rewrite upd_length.
    replace (_ <? _)%nat with true by (symmetry; apply Nat.ltb_lt; lia). unfold unsqueeze. cbn [ash]. rewrite remove_at_length by (rewrite upd_length; auto). rewrite upd_length.
    replace (_ <=? _)%nat with true by (symmetry; apply Nat.leb_le; lia). eexists. split; [reflexivity|].
    rewrite insert_remove by (try (rewrite upd_length; auto); rewrite upd_same; auto). split; [reflexivity|]. intros idx Hi. cbn [adat].
    assert (LI : length idx = length gsh) by (apply in_bounds_upd_iff in Hi; tauto).
    rewrite <- (drop_single idx axis) by lia. rewrite <- (upd_length gsh axis 1) at 1. unfold drop_axes. rewrite ins_drop; [apply D; auto|]. 
    change (in_bounds (fill_axes [axis] 1 (upd gsh axis 1)) idx). rewrite fill_ones; auto. intros a [<-|[]]. now rewrite upd_same.
  - assert (E : filter (fun i => nth i (upd gsh axis len) 0 =? 1) (seq 0 (length gsh)) = []).
    { apply filter_nil_iff. intros k Hk. apply in_seq in Hk. apply Z.eqb_neq. destruct (Nat.eq_dec k axis) as [->|Nk]; [rewrite upd_same by auto; auto|]. rewrite upd_other by auto. apply H1; auto; lia. }
    rewrite E. cbn [ash]. unfold drop_axes. rewrite drop_nil, upd_length, Nat.ltb_irrefl. eexists. split; [reflexivity|]. split; [reflexivity|].
    intros idx Hi. cbn [adat]. rewrite ins_nil; [apply D; auto|]. apply in_bounds_upd_iff in Hi; tauto.
Qed.
