(** C91: x[mask] = v, and what does not hold. *)
From Coq Require Import Permutation Sorted.
From Verif Require Import Base BaseLemmas LayoutModel LayoutProofs NdSpec TensorSpec TensorLemmas NdLemmas OpsModel OpsProofs2 OpsProofs4 RedistModel RedistProofs ShapeSpec ShapeModel ShapeProofs ShapeProofs2 ShapeProofs3 ShapeProofs4 BinModel BinProofs BinProofs2 ShapeProps ReshapeModel ReshapeProofs FactoryModel FactoryProps ConcatProps DiagSpec DiagModel DiagProps NonzeroProps TraceModel TraceProofs MaskSpec MaskModel MaskProofs MaskProps.
Open Scope Z_scope.

Lemma put_ok {A} (v : A) (t : arr A) ks : (forall k, In k ks -> in_bounds (ash t) k) ->
  exists t', put v t ks = Ok t' /\ ash t' = ash t /\ forall idx, (In idx ks -> adat t' idx = v) /\ (~ In idx ks -> adat t' idx = adat t idx).
Proof.
  intros H. unfold put.
  assert (E1 : forallb (fun k => forallb (fun p => (- snd p <=? fst p) && (fst p <? snd p)) (combine k (ash t))) ks = true).
  { apply forallb_forall. intros k Hk. specialize (H k Hk). clear Hk. unfold in_bounds in H. induction H as [|n i gs k' Hi _ IH]; [reflexivity|]. cbn [combine forallb fst snd]. rewrite IH. rewrite (proj2 (Z.ltb_lt _ _)), (proj2 (Z.leb_le _ _)) by lia. reflexivity. }
  assert (E2 : map (fun k => map (fun p => wrap (snd p) (fst p)) (combine k (ash t))) ks = ks).
  { rewrite <- (map_id ks) at 2. apply map_ext_in. intros k Hk. specialize (H k Hk). clear Hk E1. unfold in_bounds in H. induction H as [|n i gs k' Hi _ IH]; [reflexivity|]. cbn [combine map fst snd]. rewrite IH. unfold wrap. rewrite (proj2 (Z.ltb_ge _ _)) by lia. reflexivity. }
  rewrite E1, E2. eexists. split; [reflexivity|]. split; [reflexivity|]. intros idx. cbn [adat]. split; intros Hi.
  - assert (E : existsb (eqb_idx idx) ks = true) by (apply existsb_exists; exists idx; split; [auto|now apply eqb_idx_eq]). now rewrite E.
  - destruct (existsb (eqb_idx idx) ks) eqn:E; [|auto]. apply existsb_exists in E as (k & Hk & E). apply eqb_idx_eq in E. subst k. contradiction.
Qed.

(** x[mask] = v for every array in the library's own layout (or replicated), every split axis, every mask and any number
    of selected elements, zero included: exactly the selected elements become v *)
Theorem C91_mask_set : forall (A : Type) (v : A) (x : dnd A) (P : nat) (G : list Z -> A) (m : dnd bool) (cm : list Z) (M : list Z -> bool),
  is_rep P x G -> rep m cm M -> d_gshape m = d_gshape x -> length (d_locals m) = P -> (0 < P)%nat ->
  exists y, mask_set v x m = Ok y /\ d_gshape y = d_gshape x /\ d_split y = d_split x /\
    is_rep P y (fun idx => if M idx then v else G idx).
Proof.
  intros A v x P G m cm M [HL HX] HM Eg EL HP. destruct (mask_rows_ok m cm M HM) as [RL RR]. rewrite Eg, EL in RR. set (ks := selected (d_gshape x) M) in *.
  assert (KB : forall k, In k ks <-> in_bounds (d_gshape x) k /\ M k = true) by (intros k; apply sel_in).
  unfold mask_set. unfold rep in HX. destruct (d_split x) as [s|] eqn:Es; cbn [balanced_counts] in HX.
  - pose proof (local_counts _ _ _ _ _ HX) as LC. destruct HX as (_ & NN & Hs & C & SM & Q). set (c := zcounts (nth s (d_gshape x) 0) P) in *.
    destruct (all_ok_Qn (fun p => set_local v x (fst p) (snd p) (nth (fst p) (mask_rows m) []))
      (fun r t => agrees t (upd (d_gshape x) s (nth r c 0)) (fun idx => (fun idx => if M idx then v else G idx) (move_axis_idx s (zsum (firstn r c)) idx))) (ranked (d_locals x))) as (ls & E1 & E2 & E3).
    { intros r p Hp. assert (Hp' : nth_error (map (fun p => p) (ranked (d_locals x))) r = Some p) by now rewrite map_id. apply ranked_map in Hp' as (t & Ht & -> & Hr). cbn [fst snd]. rewrite RR by lia.
      destruct (Q r t Ht) as [S0 D0]. set (lo := zsum (firstn r c)) in *. set (n := nth r c 0) in *.
      assert (MO : my_off x r = lo) by (apply my_off_balanced; auto; lia).
      (* moving coordinates *)
      assert (MB : forall k, in_bounds (d_gshape x) k -> lo <= nth s k 0 < lo + n -> in_bounds (ash t) (upd k s (nth s k 0 - lo)) /\ move_axis_idx s lo (upd k s (nth s k 0 - lo)) = k).
      { intros k Hk Hr'. pose proof (in_bounds_length _ _ Hk) as Lk. split.
        - rewrite S0. apply in_bounds_nth in Hk as [_ Hk]. apply in_bounds_nth. rewrite !upd_length. split; [auto|]. intros i Hi. destruct (Nat.eq_dec i s) as [->|Ne]; [rewrite !upd_same by lia; lia|]. rewrite !upd_other by auto. auto.
        - unfold move_axis_idx. rewrite upd_same by lia. rewrite upd_upd. replace (nth s k 0 - lo + lo) with (nth s k 0) by lia. apply upd_self. }
      assert (MI : forall idx, in_bounds (ash t) idx -> upd (move_axis_idx s lo idx) s (nth s (move_axis_idx s lo idx) 0 - lo) = idx /\ lo <= nth s (move_axis_idx s lo idx) 0 < lo + n /\ in_bounds (d_gshape x) (move_axis_idx s lo idx)).
      { intros idx Hi. rewrite S0 in Hi. pose proof (in_bounds_length _ _ Hi) as Lk. rewrite upd_length in Lk. apply in_bounds_nth in Hi as [_ Hi]. rewrite upd_length in Hi. pose proof (Hi s Hs) as His. rewrite upd_same in His by auto. unfold move_axis_idx.
        rewrite upd_same by lia. rewrite upd_upd. replace (nth s idx 0 + lo - lo) with (nth s idx 0) by lia. split; [apply upd_self|]. split; [lia|]. apply in_bounds_nth. rewrite upd_length. split; [auto|]. intros i Hii. destruct (Nat.eq_dec i s) as [->|Ne].
        - rewrite upd_same by lia. assert (0 <= lo) by (pose proof (zsum_firstn_mono c 0 r C ltac:(lia)) as Z0; exact Z0). assert (lo + n <= nth s (d_gshape x) 0); [|lia]. rewrite <- SM. unfold lo, n. rewrite <- zsum_firstn_S by (rewrite <- LC, map_length; lia). apply zsum_firstn_le; auto.
        - rewrite upd_other by auto. specialize (Hi i Hii). rewrite upd_other in Hi by auto. auto. }
      (* a set of coordinates that is this rank's share of the selection *)
      assert (FIN : forall ls0, (forall idx, in_bounds (ash t) idx -> (In idx ls0 <-> M (move_axis_idx s lo idx) = true)) -> (forall k, In k ls0 -> in_bounds (ash t) k) ->
        exists y, put v t ls0 = Ok y /\ agrees y (upd (d_gshape x) s n) (fun idx => if M (move_axis_idx s lo idx) then v else G (move_axis_idx s lo idx))).
      { intros ls0 H1 H2. destruct (put_ok v t ls0 H2) as (t' & E & S' & D'). exists t'. split; [auto|]. split; [congruence|]. intros idx Hi. rewrite <- S0 in Hi. destruct (D' idx) as [Da Db]. destruct (M (move_axis_idx s lo idx)) eqn:EM.
        - apply Da, H1; auto.
        - rewrite Db; [apply D0; now rewrite <- S0|]. intros HI. apply H1 in HI; auto. congruence. }
      assert (SH : forall kk, (forall k, In k kk <-> In k ks /\ lo <= nth s k 0 < lo + n) -> exists y, put v t (map (fun k => upd k s (nth s k 0 - lo)) kk) = Ok y /\ agrees y (upd (d_gshape x) s n) (fun idx => if M (move_axis_idx s lo idx) then v else G (move_axis_idx s lo idx))).
      { intros kk Hkk. apply FIN.
        - intros idx Hi. destruct (MI idx Hi) as (I1 & I2 & I3). rewrite in_map_iff. split.
          + intros (k & <- & Hk). apply Hkk in Hk as [Hk Hr']. apply KB in Hk as [Hk HMk]. destruct (MB k Hk Hr') as [_ ->]. auto.
          + intros HMi. exists (move_axis_idx s lo idx). split; [auto|]. apply Hkk. split; [apply KB; auto|auto].
        - intros k Hk. apply in_map_iff in Hk as (k0 & <- & Hk). apply Hkk in Hk as [Hk Hr']. apply KB in Hk as [Hk _]. apply MB; auto. }
      assert (RS : real_start x s r = lo) by (unfold real_start, lcounts; rewrite LC; reflexivity).
      unfold set_local. rewrite Es, RS, MO, HL. fold c. unfold lcounts. rewrite LC. fold n.
      assert (ONE : is_dist x = false -> lo = 0 /\ n = nth s (d_gshape x) 0).
      { unfold is_dist. rewrite Es. intros D. apply Nat.ltb_ge in D. assert (P = 1%nat) by lia. assert (r = 0%nat) by lia. subst r. assert (LCl : length c = 1%nat) by (rewrite <- LC, map_length; lia). unfold lo, n. rewrite <- SM. destruct c as [|c0 [|]]; cbn in LCl; try lia. unfold zsum. cbn. lia. }
      assert (IDM : is_dist x = false -> forall kk, map (fun k => upd k s (nth s k 0 - lo)) kk = kk).
      { intros D kk. destruct (ONE D) as [-> _]. rewrite <- (map_id kk) at 2. apply map_ext. intros k. rewrite Z.sub_0_r. apply upd_self. }
      assert (FK : forall k, In k (filter (in_range s lo (lo + n)) ks) <-> In k ks /\ lo <= nth s k 0 < lo + n) by (intros k; rewrite filter_In, in_range_iff; reflexivity).
      assert (MANY : exists y, (if is_dist x then put v t (map (fun k => upd k s (nth s k 0 - lo)) (filter (in_range s lo (lo + n)) ks)) else put v t (filter (in_range s lo (lo + n)) ks)) = Ok y /\ agrees y (upd (d_gshape x) s n) (fun idx => if M (move_axis_idx s lo idx) then v else G (move_axis_idx s lo idx))).
      { destruct (is_dist x) eqn:D; [apply SH; auto|]. rewrite <- (IDM eq_refl (filter _ ks)). apply SH; auto. }
      destruct ks as [|k [|k' ks']] eqn:EK; [exact MANY| |exact MANY].
      (* exactly one selected element *)
      destruct (is_dist x) eqn:D.
      - destruct (in_range s lo (lo + n) k) eqn:IR.
        + apply (SH [k]). intros k0. apply in_range_iff in IR. cbn [In]. intuition (subst; auto).
        + exists t. split; [auto|]. split; [auto|]. intros idx Hi. rewrite D0 by auto. destruct (MI idx) as (_ & I2 & I3); [rewrite S0; exact Hi|]. destruct (M (move_axis_idx s lo idx)) eqn:EM; [|auto].
          assert (HI : In (move_axis_idx s lo idx) [k]) by (apply KB; auto). destruct HI as [HI|[]]. rewrite <- HI in I2. apply in_range_iff in I2. rewrite I2 in IR. discriminate IR.
      - rewrite <- (IDM eq_refl [k]). apply (SH [k]). intros k0. cbn [In]. destruct (ONE eq_refl) as [L0 N0]. split; [|tauto]. intros [<-|[]]. split; [auto|]. assert (HI : In k [k]) by now left. apply KB in HI as [HI _]. apply in_bounds_nth in HI as [_ HI]. specialize (HI s Hs). lia. }
    rewrite E1. cbn [bind]. eexists. split; [reflexivity|]. split; [reflexivity|]. split; [reflexivity|]. rewrite ranked_length in E2. split; [cbn [d_locals]; lia|]. unfold rep. cbn [d_gshape d_split d_locals balanced_counts]. fold c.
    split; [rewrite E2, <- LC, map_length; auto|]. split; [auto|]. split; [auto|]. split; [auto|]. split; [auto|]. exact E3.
  - destruct HX as (_ & NN & Q).
    destruct (all_ok_Qn (fun p => set_local v x (fst p) (snd p) (nth (fst p) (mask_rows m) []))
      (fun r t => agrees t (d_gshape x) (fun idx => if M idx then v else G idx)) (ranked (d_locals x))) as (ls & E1 & E2 & E3).
    { intros r p Hp. assert (Hp' : nth_error (map (fun p => p) (ranked (d_locals x))) r = Some p) by now rewrite map_id. apply ranked_map in Hp' as (t & Ht & -> & Hr). cbn [fst snd]. rewrite RR by lia. unfold set_local. rewrite Es. destruct (Q t (nth_error_In _ _ Ht)) as [S0 D0].
      destruct (put_ok v t ks) as (t' & E & S' & D'); [intros k Hk; rewrite S0; apply KB; auto|]. exists t'. split; [auto|]. split; [congruence|]. intros idx Hi. destruct (D' idx) as [Da Db]. destruct (M idx) eqn:EM; [apply Da, KB; auto|]. rewrite Db; [auto|]. intros HI. apply KB in HI as [_ HI]. rewrite EM in HI. discriminate HI. }
    rewrite E1. cbn [bind]. eexists. split; [reflexivity|]. split; [reflexivity|]. split; [reflexivity|]. rewrite ranked_length in E2. split; [cbn [d_locals]; lia|]. unfold rep. cbn [d_gshape d_split d_locals balanced_counts].
    split; [rewrite repeat_length; lia|]. split; [auto|]. intros t Ht. apply In_nth_error in Ht as [r Ht]. apply (E3 r t Ht).
Qed.
Print Assumptions C91_mask_set.

(** * what does not hold *)
Definition two : dnd Z := mk_dnd [mk_arr [1] (fun _ => 5); mk_arr [1] (fun _ => 6)] [2] (Some 0%nat).
Definition G_two (idx : list Z) : Z := if nth 0 idx 0 =? 0 then 5 else 6.
Lemma two_rep : rep two [1; 1] G_two.
Proof.
  split; [reflexivity|]. split; [repeat constructor; lia|]. split; [cbn; lia|]. split; [repeat constructor; lia|]. split; [reflexivity|].
  intros [|[|r]] t Ht; cbn in Ht; try discriminate; [| |destruct r; discriminate]; injection Ht as <-; (split; [reflexivity|]); intros idx Hi; inversion Hi as [|? i ? l Hx Hl]; subst; cbn in Hx; assert (i = 0) by lia; subst; inversion Hl; reflexivity.
Qed.
Definition rmask (P : nat) (gsh : list Z) (M : list Z -> bool) : dnd bool := mk_dnd (repeat (mk_arr gsh M) P) gsh None.
Lemma rmask_rep P gsh M : Forall (fun n => 0 <= n) gsh -> rep (rmask P gsh M) (repeat 0 P) M.
Proof. intros H. split; [cbn; now rewrite !repeat_length|]. split; [exact H|]. intros t Ht. cbn in Ht. apply repeat_spec in Ht. subst. split; reflexivity. Qed.

(** one selected element of a distributed vector: the shape says (1,), no process holds an element *)
Theorem C91_single_refuted : ~ (forall (x : dnd Z) (cx : list Z) (G : list Z -> Z) (m : dnd bool) (cm : list Z) (M : list Z -> bool),
  rep x cx G -> rep m cm M -> d_gshape m = d_gshape x -> length (d_locals m) = length (d_locals x) -> (0 < length (d_locals x))%nat -> d_split x = Some 0%nat ->
  exists y cy, mask_get x m = Ok y /\ rep y cy (at_coords G (selected (d_gshape x) M))).
Proof.
  intros F. destruct (F two [1; 1] G_two (rmask 2 [2] (fun idx => nth 0 idx 0 =? 0)) (repeat 0 2) (fun idx => nth 0 idx 0 =? 0) two_rep) as (y & cy & E & R); try reflexivity; [apply rmask_rep; repeat constructor; lia|cbn; lia|].
  assert (E' : match mask_get two (rmask 2 [2] (fun idx => nth 0 idx 0 =? 0)) with Ok y => eqb_idx (lcounts y 0) [0; 0] && eqb_idx (d_gshape y) [1] && match d_split y with Some O => true | _ => false end | Err _ => false end = true) by (vm_compute; reflexivity).
  rewrite E in E'. apply andb_true_iff in E' as [E' E3]. apply andb_true_iff in E' as [E1 E2]. apply eqb_idx_eq in E1, E2. unfold rep in R. rewrite E2 in R. destruct (d_split y) as [[|]|]; try discriminate E3. pose proof (local_counts _ _ _ _ _ R) as LC. unfold lcounts in E1. rewrite LC in E1. subst cy. destruct R as (_ & _ & _ & _ & SM & _). vm_compute in SM. discriminate SM.
Qed.
(** split along axis 1: the elements come out in another order than NumPy's *)
Definition sq : dnd Z := mk_dnd [mk_arr [2; 1] (fun idx => 2 * nth 0 idx 0); mk_arr [2; 1] (fun idx => 2 * nth 0 idx 0 + 1)] [2; 2] (Some 1%nat).
Definition G_sq (idx : list Z) : Z := 2 * nth 0 idx 0 + nth 1 idx 0.
Lemma sq_rep : rep sq [1; 1] G_sq.
Proof.
  split; [reflexivity|]. split; [repeat constructor; lia|]. split; [cbn; lia|]. split; [repeat constructor; lia|]. split; [reflexivity|].
  intros [|[|r]] t Ht; cbn in Ht; try discriminate; [| |destruct r; discriminate]; injection Ht as <-; (split; [reflexivity|]); intros idx Hi; inversion Hi as [|? i ? l Hx Hl]; subst; inversion Hl as [|? j ? l' Hj Hl']; subst; inversion Hl'; subst; cbn in Hj; assert (j = 0) by lia; subst; unfold G_sq, move_axis_idx; cbn; lia.
Qed.
Theorem C91_order_refuted : ~ (forall (x : dnd Z) (s : nat) (cx : list Z) (G : list Z -> Z) (m : dnd bool) (cm : list Z) (M : list Z -> bool),
  rep x cx G -> rep m cm M -> d_gshape m = d_gshape x -> length (d_locals m) = length (d_locals x) -> (0 < length (d_locals x))%nat -> d_split x = Some s -> length (selected (d_gshape x) M) <> 1%nat -> Forall (fun n => 1 <= n) (d_gshape x) ->
  exists y cy, mask_get x m = Ok y /\ rep y cy (at_coords G (selected (d_gshape x) M))).
Proof.
  intros F. destruct (F sq 1%nat [1; 1] G_sq (rmask 2 [2; 2] (fun _ => true)) (repeat 0 2) (fun _ => true) sq_rep (rmask_rep 2 [2; 2] (fun _ => true) ltac:(repeat constructor; lia)) eq_refl eq_refl ltac:(cbn; lia) eq_refl) as (y & cy & E & R).
  { intros H. vm_compute in H. discriminate H. }
  { repeat (apply Forall_cons; [lia|]). apply Forall_nil. }
  assert (E' : match mask_get sq (rmask 2 [2; 2] (fun _ => true)) with Ok y => eqb_idx (lcounts y 0) [2; 2] && eqb_idx (d_gshape y) [4] && match d_split y with Some O => true | _ => false end && match d_locals y with t :: _ => adat t [1] =? 2 | _ => false end | Err _ => false end = true) by (vm_compute; reflexivity).
  rewrite E in E'. apply andb_true_iff in E' as [E' E4]. apply andb_true_iff in E' as [E' E3]. apply andb_true_iff in E' as [E1 E2]. apply eqb_idx_eq in E1, E2. unfold rep in R. rewrite E2 in R. destruct (d_split y) as [[|]|]; try discriminate E3. pose proof (local_counts _ _ _ _ _ R) as LC. unfold lcounts in E1. rewrite LC in E1. subst cy. destruct R as (_ & _ & _ & _ & _ & Q).
  destruct (d_locals y) as [|t l]; [discriminate E4|]. destruct (Q 0%nat t eq_refl) as [_ D]. apply Z.eqb_eq in E4. rewrite D in E4; [vm_compute in E4; discriminate E4|]. repeat constructor; cbn; lia.
Qed.
(** an unbalanced layout (1 and 3 elements on two processes): x[[F, T, F, T]] = 9 overwrites elements 2 and 3 *)
Definition lop : dnd Z := mk_dnd [mk_arr [1] (fun _ => 0); mk_arr [3] (fun idx => nth 0 idx 0 + 1)] [4] (Some 0%nat).
Lemma lop_rep : rep lop [1; 3] (fun idx => nth 0 idx 0).
Proof.
  split; [reflexivity|]. split; [repeat constructor; lia|]. split; [cbn; lia|]. split; [repeat constructor; lia|]. split; [reflexivity|].
  intros [|[|r]] t Ht; cbn in Ht; try discriminate; [| |destruct r; discriminate]; injection Ht as <-; (split; [reflexivity|]); intros idx Hi; inversion Hi as [|? i ? l Hx Hl]; subst; cbn in Hx; inversion Hl; subst; unfold move_axis_idx; cbn; lia.
Qed.
Definition odd_mask : dnd bool := rmask 2 [4] (fun idx => Z.odd (nth 0 idx 0)).
Theorem C91_unbalanced_set_refuted : ~ (forall (v : Z) (x : dnd Z) (cx : list Z) (G : list Z -> Z) (m : dnd bool) (cm : list Z) (M : list Z -> bool),
  rep x cx G -> rep m cm M -> d_gshape m = d_gshape x -> length (d_locals m) = length (d_locals x) -> (0 < length (d_locals x))%nat ->
  exists y, mask_set v x m = Ok y /\ rep y cx (fun idx => if M idx then v else G idx)).
Proof.
  intros F. destruct (F 9 lop [1; 3] (fun idx => nth 0 idx 0) odd_mask (repeat 0 2) (fun idx => Z.odd (nth 0 idx 0)) lop_rep) as (y & E & R); try reflexivity; [apply rmask_rep; repeat constructor; lia|cbn; lia|].
  assert (E' : match mask_set 9 lop odd_mask with Ok y => eqb_idx (d_gshape y) [4] && match d_split y with Some O => true | _ => false end && match d_locals y with [_; t] => (adat t [0] =? 1) && (adat t [1] =? 9) | _ => false end | Err _ => false end = true) by (vm_compute; reflexivity).
  rewrite E in E'. apply andb_true_iff in E' as [E' E4]. apply andb_true_iff in E' as [E2 E3]. apply eqb_idx_eq in E2. unfold rep in R. rewrite E2 in R. destruct (d_split y) as [[|]|]; try discriminate E3. destruct R as (_ & _ & _ & _ & _ & Q).
  destruct (d_locals y) as [|u [|t [|]]]; try discriminate E4. destruct (Q 1%nat t eq_refl) as [_ D]. apply andb_true_iff in E4 as [E4 _]. apply Z.eqb_eq in E4. rewrite D in E4; [vm_compute in E4; discriminate E4|]. repeat constructor; cbn; lia.
Qed.
(** an array of shape (0, 3): NumPy returns an empty vector, heat raises IndexError *)
Theorem C91_empty_refuted : exists (x : dnd Z) (m : dnd bool), rep x [0; 0] (fun _ => 0) /\ rep m [0; 0] (fun _ => true) /\ d_gshape m = d_gshape x /\ mask_get x m = Err IndexError.
Proof.
  exists (mk_dnd (repeat (mk_arr [0; 3] (fun _ => 0)) 2) [0; 3] None), (rmask 2 [0; 3] (fun _ => true)). split; [|split; [apply (rmask_rep 2); repeat constructor; lia|split; reflexivity]].
  split; [reflexivity|]. split; [repeat constructor; lia|]. intros t Ht. cbn in Ht. destruct Ht as [<-|[<-|[]]]; split; reflexivity.
Qed.

(** the hypotheses are met: an unbalanced vector for reading, a matrix split along axis 1 for writing *)
Example C91_instance : (match mask_get lop odd_mask with Ok y => eqb_idx (lcounts y 0) [0; 2] && match d_locals y with [_; t] => (adat t [0] =? 1) && (adat t [1] =? 3) | _ => false end | Err _ => false end = true) /\
  (match mask_set 9 sq (rmask 2 [2; 2] (fun idx => nth 0 idx 0 =? nth 1 idx 0)) with Ok y => match d_locals y with [t; u] => (adat t [0; 0] =? 9) && (adat t [1; 0] =? 2) && (adat u [0; 0] =? 1) && (adat u [1; 0] =? 9) | _ => false end | Err _ => false end = true).
Proof. vm_compute. auto. Qed.
