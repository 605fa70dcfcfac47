(** C40: nonzero returns exactly the global coordinates of the non-zero elements. *)
From Coq Require Import Permutation.
From Verif Require Import Base BaseLemmas LayoutModel LayoutProofs NdSpec TensorSpec TensorLemmas NdLemmas OpsModel OpsProofs2 OpsProofs4 RedistModel RedistProofs ShapeSpec ShapeModel ShapeProofs ShapeProofs2 ShapeProofs3 ShapeProofs4 ShapeProofs5 ShapeProofs6 BinModel BinProofs BinProofs2 ShapeProps RollProofs3 RollProps ReshapeModel ReshapeProofs FactoryModel FactoryProps ConcatSpec ConcatModel ConcatProofs ConcatProofs2 ConcatProofs3 ConcatProps DiagSpec DiagModel DiagProps.
Open Scope Z_scope.

(** numpy.nonzero: coordinates in row-major order *)
Definition nonzero_spec {A} (nz : A -> bool) (gsh : list Z) (G : list Z -> A) : list (list Z) :=
  filter (fun idx => nz (G idx)) (row_major gsh).

Lemma skipn_tl {A} (l : list A) : forall k a r, a :: r = skipn k l -> r = skipn (S k) l.
Proof. induction l as [|x l IH]; intros k a r E; [destruct k; discriminate|]. destruct k; cbn [skipn] in *; [congruence|]. destruct l; [destruct k; discriminate|]. eapply IH; eauto. Qed.
Lemma nth_error_ext_len {A} (l l' : list A) : length l = length l' -> (forall r x, nth_error l r = Some x -> nth_error l' r = Some x) -> l = l'.
Proof.
  revert l'. induction l as [|a l IH]; intros [|b l'] L H; cbn in L; try lia; auto. assert (E := H 0%nat a eq_refl). cbn in E. injection E as ->. f_equal. apply IH; [lia|]. intros r x Hr. apply (H (S r) x Hr).
Qed.
Lemma owner cnts : Forall (fun c => 0 <= c) cnts -> forall i, 0 <= i < zsum cnts ->
  exists r, (r < length cnts)%nat /\ zsum (firstn r cnts) <= i < zsum (firstn r cnts) + nth r cnts 0.
Proof.
  intros C i Hi. assert (GEN : forall n, (n <= length cnts)%nat -> i < zsum (firstn n cnts) -> exists r, (r < n)%nat /\ zsum (firstn r cnts) <= i < zsum (firstn r cnts) + nth r cnts 0).
  { induction n as [|n IH]; intros Hn Hx; [change (zsum (firstn 0 cnts)) with 0 in Hx; lia|]. rewrite zsum_firstn_S in Hx by lia. destruct (Z_lt_le_dec i (zsum (firstn n cnts))) as [L|L].
    - destruct IH as (r & R1 & R2); [lia|auto|]. exists r. split; [lia|auto].
    - exists n. split; [lia|]. lia. }
  apply (GEN (length cnts)); [lia|]. rewrite firstn_all. lia.
Qed.
Lemma NoDup_concat_seg {A} (ls : list (list A)) (key : A -> Z) (lo : nat -> Z) :
  (forall r l, nth_error ls r = Some l -> NoDup l /\ forall x, In x l -> lo r <= key x < lo (S r)) ->
  (forall r, (r < length ls)%nat -> lo r <= lo (S r)) -> NoDup (concat ls).
Proof.
  intros H M. assert (LOW : forall k ls', ls' = skipn k ls -> NoDup (concat ls') /\ forall x, In x (concat ls') -> lo k <= key x).
  { intros k ls'. revert k. induction ls' as [|l ls' IH]; intros k E; cbn [concat]; [split; [constructor|intros x []]|].
    assert (Ek : nth_error ls k = Some l). { rewrite <- (firstn_skipn k ls), <- E. assert (Hk : (k < length ls)%nat). { apply (f_equal (@length _)) in E. rewrite skipn_length in E. cbn in E. lia. } rewrite nth_error_app2; rewrite firstn_length; [|lia]. replace (k - Nat.min k (length ls))%nat with 0%nat by lia. reflexivity. }
    assert (Hk : (k < length ls)%nat) by (apply nth_error_Some; congruence).
    assert (E' : ls' = skipn (S k) ls). { apply skipn_tl in E. exact E. }
    destruct (IH (S k) E') as [N1 L1]. destruct (H k l Ek) as [N0 L0]. split.
    - apply NoDup_app_intro; auto. intros x X1 X2. specialize (L0 x X1). specialize (L1 x X2). lia.
    - intros x Hx. apply in_app_or in Hx as [Hx|Hx]; [apply L0 in Hx; lia|]. apply L1 in Hx. specialize (M k Hk). lia. }
  apply (LOW 0%nat ls). reflexivity.
Qed.
Lemma concat_nth_In {A} (ls : list (list A)) x : In x (concat ls) <-> exists r l, nth_error ls r = Some l /\ In x l.
Proof.
  rewrite in_concat. split.
  - intros (l & Hl & Hx). apply In_nth_error in Hl as [r Hr]. eauto.
  - intros (r & l & Hr & Hx). exists l. split; auto. eapply nth_error_In; eauto.
Qed.
Lemma upd_idx_inj s off idx idx' : length idx = length idx' -> upd idx s (nth s idx 0 + off) = upd idx' s (nth s idx' 0 + off) -> idx = idx'.
Proof.
  intros L E. apply (@nth_ext2 _ _ _ 0); auto. intros k Hk. assert (N := f_equal (fun l => nth k l 0) E). cbn beta in N. destruct (Nat.eq_dec k s) as [->|Nk].
  - rewrite !upd_same in N by lia. lia.
  - rewrite !upd_other in N by auto. auto.
Qed.

Definition block_rows {A} (nz : A -> bool) (s : nat) (off : Z) (t : arr A) : list (list Z) :=
  map (fun idx => upd idx s (nth s idx 0 + off)) (filter (fun idx => nz (adat t idx)) (row_major (ash t))).
Lemma block_rows_In {A} (nz : A -> bool) s off t gsh c (G : list Z -> A) : (s < length gsh)%nat -> 0 <= off -> off + c <= nth s gsh 0 ->
  agrees t (upd gsh s c) (fun idx => G (move_axis_idx s off idx)) ->
  NoDup (block_rows nz s off t) /\
  forall idx, In idx (block_rows nz s off t) <-> in_bounds gsh idx /\ off <= nth s idx 0 < off + c /\ nz (G idx) = true.
Proof.
  intros Hs Ho Hc [S0 D0]. split.
  - unfold block_rows. apply NoDup_map_inj_on; [|apply NoDup_filter, NoDup_row_major]. intros a b Ha Hb E. apply filter_In in Ha as [Ha _], Hb as [Hb _]. apply in_row_major, in_bounds_length in Ha, Hb.
    eapply upd_idx_inj; eauto. congruence.
  - intros idx. unfold block_rows. rewrite in_map_iff. split.
    + intros (a & <- & Ha). apply filter_In in Ha as [Ha Hn]. apply in_row_major in Ha. rewrite S0 in Ha. rewrite D0 in Hn by auto. assert (LA := in_bounds_length _ _ Ha). rewrite upd_length in LA.
      apply in_bounds_nth in Ha as [_ Hb]. rewrite upd_length in Hb. pose proof (Hb s Hs) as Hbs. rewrite upd_same in Hbs by auto. rewrite upd_same by lia. split; [|split; [lia|exact Hn]].
      apply in_bounds_nth. rewrite upd_length. split; [auto|]. intros k Hk. destruct (Nat.eq_dec k s) as [->|Nk]; [rewrite upd_same by lia; lia|]. rewrite upd_other by auto. specialize (Hb k Hk). rewrite upd_other in Hb by auto. auto.
    + intros (Hi & Hk & Hn). assert (LI := in_bounds_length _ _ Hi). exists (upd idx s (nth s idx 0 - off)).
      assert (BK : upd (upd idx s (nth s idx 0 - off)) s (nth s (upd idx s (nth s idx 0 - off)) 0 + off) = idx).
      { rewrite upd_same by lia. rewrite upd_upd_same. replace (nth s idx 0 - off + off) with (nth s idx 0) by lia. apply upd_same_list; auto; lia. }
      split; [auto|]. apply filter_In. rewrite in_row_major, S0.
      assert (BB : in_bounds (upd gsh s c) (upd idx s (nth s idx 0 - off))).
      { apply in_bounds_nth in Hi as [_ Hb]. apply in_bounds_nth. rewrite !upd_length. split; [auto|]. intros k Hkk. destruct (Nat.eq_dec k s) as [->|Nk]; [rewrite !upd_same by lia; lia|]. rewrite !upd_other by auto. auto. }
      split; [auto|]. rewrite D0 by auto. unfold move_axis_idx. rewrite BK. auto.
Qed.

Lemma nonzero_rows_split {A} (nz : A -> bool) (x : dnd A) P s G r l : is_rep P x G -> d_split x = Some s -> nth_error (nonzero_rows nz x) r = Some l ->
  exists t, nth_error (d_locals x) r = Some t /\ (r < P)%nat /\ l = block_rows nz s (zsum (firstn r (zcounts (nth s (d_gshape x) 0) P))) t.
Proof.
  intros [HL HR] Es H. unfold nonzero_rows in H. apply ranked_map in H as (t & Ht & -> & Hr). rewrite HL in Hr. exists t. split; [auto|]. split; [auto|]. cbn [fst snd]. rewrite Es. rewrite (my_off_balanced x P s r HL Hr Es). reflexivity.
Qed.

(** every layout of the library's own: the rows, taken over all ranks, are the coordinates
    of the non-zero elements, each exactly once; the advertised extent is their number *)
Theorem C40_nonzero_set : forall (A : Type) (nz : A -> bool) (x : dnd A) (P s : nat) (G : list Z -> A),
  is_rep P x G -> d_split x = Some s ->
  length (nonzero_rows nz x) = P /\ NoDup (concat (nonzero_rows nz x)) /\
  (forall idx, In idx (concat (nonzero_rows nz x)) <-> in_bounds (d_gshape x) idx /\ nz (G idx) = true) /\
  nonzero_gshape nz x = Z.of_nat (length (concat (nonzero_rows nz x))) /\
  nonzero_gshape nz x = Z.of_nat (length (nonzero_spec nz (d_gshape x) G)).
Proof.
  intros A nz x P s G HX Es. pose proof HX as [HL HR]. unfold rep in HR. rewrite Es in HR. cbn [balanced_counts] in HR. destruct HR as (LC & NN & Hs & C & SM & Q). set (c := zcounts (nth s (d_gshape x) 0) P) in *.
  assert (LN : length (nonzero_rows nz x) = P) by (unfold nonzero_rows; now rewrite map_length, ranked_length).
  assert (BL : forall r l, nth_error (nonzero_rows nz x) r = Some l -> NoDup l /\ (r < P)%nat /\ forall idx, In idx l <-> in_bounds (d_gshape x) idx /\ zsum (firstn r c) <= nth s idx 0 < zsum (firstn r c) + nth r c 0 /\ nz (G idx) = true).
  { intros r l Hr. apply (nonzero_rows_split nz x P s G) in Hr as (t & Ht & Hr & ->); auto. fold c.
    assert (Z0 : 0 <= zsum (firstn r c)) by (pose proof (zsum_firstn_mono c 0 r C ltac:(lia)) as M; exact M).
    assert (Z1 : zsum (firstn r c) + nth r c 0 <= nth s (d_gshape x) 0) by (rewrite <- SM; rewrite <- zsum_firstn_S by (rewrite <- LC; lia); apply zsum_firstn_le; auto).
    destruct (block_rows_In nz s (zsum (firstn r c)) t (d_gshape x) (nth r c 0) G Hs Z0 Z1 (Q r t Ht)) as [B1 B2]. auto. }
  assert (ND : NoDup (concat (nonzero_rows nz x))).
  { apply (NoDup_concat_seg _ (fun idx => nth s idx 0) (fun r => zsum (firstn r c))).
    - intros r l Hr. destruct (BL r l Hr) as (B1 & Br & B2). split; [auto|]. intros y Hy. apply B2 in Hy as (_ & Hy & _). rewrite zsum_firstn_S by (rewrite <- LC; lia). auto.
    - intros r Hr. apply zsum_firstn_mono; auto. }
  assert (IN : forall idx, In idx (concat (nonzero_rows nz x)) <-> in_bounds (d_gshape x) idx /\ nz (G idx) = true).
  { intros idx. rewrite concat_nth_In. split.
    - intros (r & l & Hr & Hx). destruct (BL r l Hr) as (_ & _ & B). apply B in Hx as (? & _ & ?). auto.
    - intros [Hi Hn]. pose proof Hi as Hi'. apply in_bounds_nth in Hi' as [_ Hb]. specialize (Hb s Hs). rewrite <- SM in Hb. destruct (owner c C _ Hb) as (r & R1 & R2).
      destruct (nth_error (nonzero_rows nz x) r) as [l|] eqn:E; [|apply nth_error_None in E; lia]. exists r, l. split; [auto|]. apply (BL r l E). auto. }
  assert (GS : nonzero_gshape nz x = Z.of_nat (length (concat (nonzero_rows nz x)))).
  { unfold nonzero_gshape. rewrite Es. generalize (nonzero_rows nz x). induction l as [|a l IH]; [reflexivity|]. cbn [map concat]. rewrite app_length, Nat2Z.inj_add, <- IH. unfold zsum. reflexivity. }
  split; [auto|]. split; [auto|]. split; [auto|]. split; [auto|]. rewrite GS. f_equal. apply Permutation_length. apply NoDup_Permutation; auto.
  - apply NoDup_filter, NoDup_row_major.
  - intros idx. rewrite IN. unfold nonzero_spec. rewrite filter_In, in_row_major. reflexivity.
Qed.
Print Assumptions C40_nonzero_set.

(** order: replicated arrays, and arrays split along axis 0, give the row-major order *)
Theorem C40_nonzero_replicated : forall (A : Type) (nz : A -> bool) (x : dnd A) (P : nat) (G : list Z -> A),
  is_rep P x G -> d_split x = None ->
  forall l, In l (nonzero_rows nz x) -> l = nonzero_spec nz (d_gshape x) G.
Proof.
  intros A nz x P G [HL HR] Es l Hl. unfold rep in HR. rewrite Es in HR. destruct HR as (_ & _ & Q). apply In_nth_error in Hl as [r Hr]. unfold nonzero_rows in Hr. apply ranked_map in Hr as (t & Ht & -> & _). cbn [fst snd]. rewrite Es, map_id.
  destruct (Q t (nth_error_In _ _ Ht)) as [S0 D0]. unfold nonzero_spec. rewrite S0. apply filter_ext_in. intros a Ha. apply in_row_major in Ha. now rewrite D0.
Qed.
Print Assumptions C40_nonzero_replicated.

Lemma flat_map_zr {B} (f : Z -> list B) cnts : Forall (fun c => 0 <= c) cnts ->
  flat_map f (zr (zsum cnts)) = concat (map (fun r => flat_map (fun i => f (zsum (firstn r cnts) + i)) (zr (nth r cnts 0))) (seq 0 (length cnts))).
Proof.
  intros C. assert (GEN : forall n, (n <= length cnts)%nat -> flat_map f (zr (zsum (firstn n cnts))) = concat (map (fun r => flat_map (fun i => f (zsum (firstn r cnts) + i)) (zr (nth r cnts 0))) (seq 0 n))).
  { induction n as [|n IH]; intros Hn; [reflexivity|]. rewrite zsum_firstn_S by lia. rewrite zr_app.
    - rewrite flat_map_app, IH by lia. rewrite seq_S, map_app, concat_app. cbn [map concat Nat.add]. rewrite app_nil_r. f_equal. rewrite !flat_map_concat_map, map_map. reflexivity.
    - pose proof (zsum_firstn_mono cnts 0 n C ltac:(lia)) as M; exact M.
    - rewrite Forall_forall in C. apply C, nth_In. lia. }
  rewrite <- (GEN (length cnts)) by lia. now rewrite firstn_all.
Qed.
Theorem C40_nonzero_row_major : forall (A : Type) (nz : A -> bool) (x : dnd A) (P : nat) (G : list Z -> A),
  is_rep P x G -> d_split x = Some 0%nat ->
  concat (nonzero_rows nz x) = nonzero_spec nz (d_gshape x) G.
Proof.
  intros A nz x P G HX Es. pose proof HX as [HL HR]. unfold rep in HR. rewrite Es in HR. cbn [balanced_counts] in HR. destruct HR as (LC & NN & Hs & C & SM & Q). set (c := zcounts (nth 0 (d_gshape x) 0) P) in *.
  destruct (d_gshape x) as [|n sh] eqn:Eg; [cbn in Hs; lia|]. cbn [nth] in *. unfold nonzero_spec. cbn [row_major]. rewrite <- SM.
  assert (FF : forall l, filter (fun idx => nz (G idx)) (flat_map (fun i => map (cons i) (row_major sh)) l) = flat_map (fun i => filter (fun idx => nz (G idx)) (map (cons i) (row_major sh))) l).
  { induction l as [|a l IH]; [reflexivity|]. cbn [flat_map]. now rewrite filter_app, IH. }
  rewrite FF, flat_map_zr by auto. f_equal. unfold nonzero_rows. apply nth_error_ext_len. 
  - rewrite !map_length, ranked_length, seq_length. lia.
  - intros r l Hr. apply ranked_map in Hr as (t & Ht & -> & Hr). cbn [fst snd]. rewrite Es. rewrite (my_off_balanced x P 0 r HL ltac:(lia) Es). rewrite Eg. cbn [nth]. fold c. set (off := zsum (firstn r c)).
    rewrite nth_error_map. rewrite (nth_error_nth' _ 0%nat) by (rewrite seq_length; lia). rewrite seq_nth by lia. cbn [option_map Nat.add]. fold off. f_equal.
    destruct (Q r t Ht) as [S0 D0]. cbn [upd] in S0, D0. rewrite S0. cbn [row_major].
    assert (D1 : forall i b, 0 <= i < nth r c 0 -> in_bounds sh b -> adat t (i :: b) = G (off + i :: b)).
    { intros i b Hi Hb. rewrite D0 by (constructor; auto). unfold move_axis_idx. cbn [nth upd]. f_equal. f_equal. unfold off. lia. }
    assert (IZ : forall i, In i (zr (nth r c 0)) -> 0 <= i < nth r c 0) by (intros i; apply in_zr). clear - D1 IZ. revert IZ. induction (zr (nth r c 0)) as [|i l IH]; intros IZ; [reflexivity|]. cbn [flat_map]. rewrite filter_app, map_app, IH by (intros; apply IZ; right; auto). f_equal.
    assert (Hi := IZ i (or_introl eq_refl)). assert (IB : forall b, In b (row_major sh) -> in_bounds sh b) by (intros b; apply in_row_major). revert IB. generalize (row_major sh). clear - D1 Hi.
    induction l as [|b l IH]; intros IB; [reflexivity|]. cbn [map filter]. rewrite (D1 i b Hi (IB b (or_introl eq_refl))). specialize (IH (fun b' H => IB b' (or_intror H))). destruct (nz (G (off + i :: b))); [|exact IH]. cbn [map nth upd]. f_equal; [f_equal; lia|exact IH].
Qed.
Print Assumptions C40_nonzero_row_major.

(** a 2x2 array split along axis 1: rank 0 lists (0,0),(1,0), rank 1 lists (0,1),(1,1) *)
Definition cols22 : dnd Z := mk_dnd [mk_arr [2; 1] (fun _ => 1); mk_arr [2; 1] (fun _ => 1)] [2; 2] (Some 1%nat).
Lemma cols22_rep : is_rep 2 cols22 (fun _ => 1).
Proof.
  split; [reflexivity|]. split; [reflexivity|]. split; [repeat constructor; lia|]. split; [cbn; lia|]. split; [apply zcounts_ok; cbn; lia|]. split; [reflexivity|].
  intros [|[|r]] t Ht; cbn in Ht; try discriminate; [| |destruct r; discriminate]; injection Ht as <-; split; reflexivity.
Qed.
Theorem C40_order_refuted : ~ (forall (A : Type) (nz : A -> bool) (x : dnd A) (P : nat) (G : list Z -> A),
  is_rep P x G -> concat (nonzero_rows nz x) = nonzero_spec nz (d_gshape x) G \/ d_split x = None).
Proof. intros F. destruct (F Z (fun v => negb (v =? 0)) cols22 2%nat (fun _ => 1) cols22_rep) as [E|E]; vm_compute in E; discriminate. Qed.
(** an unbalanced vector (both elements on rank 1): the coordinates are off by one *)
Definition tail2 : dnd Z := mk_dnd [mk_arr [0] (fun _ => 0); mk_arr [2] (fun _ => 1)] [2] (Some 0%nat).
Theorem C40_unbalanced_refuted : ~ (forall (A : Type) (nz : A -> bool) (x : dnd A) (cnts : list Z) (G : list Z -> A),
  rep x cnts G -> d_split x = Some 0%nat -> concat (nonzero_rows nz x) = nonzero_spec nz (d_gshape x) G).
Proof.
  intros F. assert (R : rep tail2 [0; 2] (fun _ => 1)).
  { split; [reflexivity|]. split; [repeat constructor; lia|]. split; [cbn; lia|]. split; [repeat constructor; lia|]. split; [reflexivity|].
    intros [|[|r]] t Ht; cbn in Ht; try discriminate; [| |destruct r; discriminate]; injection Ht as <-; split; try reflexivity. intros idx Hi. inversion Hi as [|? ? ? ? Hx _]. cbn in Hx. lia. }
  specialize (F Z (fun v => negb (v =? 0)) tail2 [0; 2] (fun _ => 1) R eq_refl). vm_compute in F. discriminate.
Qed.
Example C40_instance : concat (nonzero_rows (fun v => negb (v =? 0)) cols22) = [[0; 0]; [1; 0]; [0; 1]; [1; 1]] /\ nonzero_gshape (fun v => negb (v =? 0)) cols22 = 4.
Proof. vm_compute. auto. Qed.
