From Verif Require Import Base BaseLemmas LayoutModel LayoutProofs NdSpec TensorSpec NdLemmas TensorLemmas OpsModel OpsProofs4 RollModel RedistModel HaloModel ShapeModel ShapeSpec ShapeProofs ShapeProofs4 ShapeProps BinModel BinProofs2 ReshapeModel ReshapeProofs FactoryModel FactoryProps ConcatModel ConcatProps DiagModel DiagProps SplitProps UnfoldModel UniqueModel UniqueSpec.
Open Scope Z_scope.

Section U.
Context {V : Type} (dv : V) (reps : list (list V) -> list nat).
Hypothesis HU : keeps_unique reps.

Lemma pick_spec {B} (d : B) key (l : list B) :
  (forall b, In b (pick reps d key l) -> In b l) /\ NoDup (map key (pick reps d key l)) /\
  forall b, In b l -> exists b', In b' (pick reps d key l) /\ key b' = key b.
Proof.
  unfold pick. destruct (HU (map key l)) as (R & N & C). rewrite map_length in R.
  assert (E : map key (map (fun p => nth p l d) (reps (map key l))) = map (fun p => nth p (map key l) []) (reps (map key l))).
  { rewrite map_map. apply map_ext_in. intros p Hp. symmetry. rewrite (nth_indep _ [] (key d)) by (rewrite map_length; auto). apply map_nth. }
  split; [|split].
  - intros b Hb. apply in_map_iff in Hb as (p & <- & Hp). apply nth_In. auto.
  - rewrite E. exact N.
  - intros b Hb. specialize (C (key b) (in_map key _ _ Hb)). rewrite <- E in C. apply in_map_iff in C as (b' & EB & HB). exists b'. auto.
Qed.
Lemma u_flat_in l v : In v (u_flat dv reps l) <-> In v l.
Proof.
  destruct (pick_spec dv single l) as (H1 & _ & H3). split; [apply H1|]. intros H. destruct (H3 v H) as (b & Hb & E). unfold single in E. injection E as ->. exact Hb.
Qed.
Lemma u_flat_nodup l : NoDup (u_flat dv reps l).
Proof. destruct (pick_spec dv single l) as (_ & H2 & _). now apply NoDup_map_inv in H2. Qed.

(** the elements of the parts are the elements of the array *)
Lemma rep_elements (x : dnd V) G cnts : rep x cnts G -> (0 < length cnts)%nat ->
  (forall t v, In t (d_locals x) -> In v (flat t) -> exists idx, in_bounds (d_gshape x) idx /\ v = G idx) /\
  (forall idx, in_bounds (d_gshape x) idx -> exists t, In t (d_locals x) /\ In (G idx) (flat t) /\ forall s, d_split x = Some s -> nth s (ash t) 0 <> 0).
Proof.
  intros HR HP. unfold rep in HR. destruct (d_split x) as [s|] eqn:ES.
  - destruct HR as (LC & NN & Hs & CN & SM & Q). split.
    + intros t v Ht Hv. apply In_nth_error in Ht as (r & Ht). destruct (Q r t Ht) as [E D]. unfold flat in Hv. rewrite E in Hv. apply in_map_iff in Hv as (idx & <- & Hi). apply in_row_major in Hi. exists (move_axis_idx s (zsum (firstn r cnts)) idx). split; [|auto].
      assert (Hr : (r < length cnts)%nat) by (rewrite <- LC; apply nth_error_Some; congruence). apply in_bounds_upd_shape in Hi as (L & B1 & B2); [|auto].
      assert (O1 : 0 <= zsum (firstn r cnts)) by (apply zsum_nonneg, Forall_firstn', CN). assert (O2 : zsum (firstn r cnts) + nth r cnts 0 <= nth s (d_gshape x) 0) by (rewrite <- zsum_firstn_S by auto; rewrite <- SM; apply zsum_firstn_le; auto).
      unfold move_axis_idx. apply in_bounds_nth. rewrite upd_length. split; [auto|]. intros k Hk. destruct (Nat.eq_dec k s) as [->|N]; [rewrite upd_same by lia; lia|rewrite upd_other by auto; auto].
    + intros idx Hi. assert (LI := in_bounds_length _ _ Hi). assert (BN := proj1 (in_bounds_nth _ _) Hi). destruct BN as [_ BN]. assert (B := BN s Hs). rewrite <- SM in B. destruct (zsum_find cnts _ CN B) as (r & Hr & Br).
      destruct (nth_error (d_locals x) r) as [t|] eqn:Et; [|apply nth_error_None in Et; lia]. exists t. split; [apply (nth_error_In _ _ Et)|]. destruct (Q r t Et) as [E D]. split.
      * set (j := upd idx s (nth s idx 0 - zsum (firstn r cnts))). assert (Hj : in_bounds (upd (d_gshape x) s (nth r cnts 0)) j).
        { apply in_bounds_upd_shape; auto. unfold j. rewrite upd_length. split; [auto|]. rewrite upd_same by lia. split; [lia|]. intros k Hk N. rewrite upd_other by auto. auto. }
        apply in_map_iff. exists j. split; [|rewrite E; now apply in_row_major]. rewrite (D j Hj). f_equal. unfold move_axis_idx, j. rewrite upd_same by lia. rewrite upd_upd_same. apply upd_same_list. lia.
      * intros s' Es. injection Es as <-. rewrite E, upd_same by auto. lia.
  - destruct HR as (LC & NN & Q). split.
    + intros t v Ht Hv. destruct (Q t Ht) as [E D]. unfold flat in Hv. rewrite E in Hv. apply in_map_iff in Hv as (idx & <- & Hi). apply in_row_major in Hi. exists idx. auto.
    + intros idx Hi. destruct (d_locals x) as [|t l]; [cbn in LC; lia|]. exists t. split; [left; auto|]. destruct (Q t (or_introl eq_refl)) as [E D]. split; [|discriminate]. apply in_map_iff. exists idx. split; [auto|]. rewrite E. now apply in_row_major.
Qed.
Lemma distinct_list (G : list Z -> V) sh l : NoDup l -> (forall v, In v l <-> exists idx, in_bounds sh idx /\ v = G idx) ->
  distinct_elements G sh (Z.of_nat (length l)) (adat (vec1 dv l)).
Proof.
  intros ND HI. unfold vec1. cbn [adat]. split; [|split].
  - intros j Hj. apply HI. apply nth_In. cbn [nth]. lia.
  - intros idx Hi. assert (H : In (G idx) l) by (apply HI; eauto). apply (In_nth _ _ dv) in H as (j & Hj & E). exists (Z.of_nat j). cbn [nth]. rewrite Nat2Z.id. split; [lia|auto].
  - intros j j' Hj Hj' E. cbn [nth] in E. apply Z2Nat.inj; try lia. eapply NoDup_nth; eauto; lia.
Qed.
End U.

(** unique(x): a vector with every element of the array exactly once.  [reps] is
    torch.unique; elements are compared for equality (no NaN).  The result is split along
    axis 0 iff x is distributed along axis 0. *)
Theorem C38_unique : forall (V : Type) (dv : V) (reps : list (list V) -> list nat) (x : dnd V) (G : list Z -> V) (cnts : list Z),
  keeps_unique reps -> rep x cnts G -> (0 < length cnts)%nat ->
  exists y k Y, unique_none dv reps x = Ok y /\ d_gshape y = [k] /\
    d_split y = (match d_split x with Some 0%nat => if (1 <? length cnts)%nat then Some 0%nat else None | _ => None end) /\
    rep y (balanced_counts (length cnts) [k] (d_split y)) Y /\
    distinct_elements G (d_gshape x) k Y.
Proof.
  intros V dv reps x G cnts HU HR HP. destruct (rep_elements x G cnts HR HP) as [R1 R2]. assert (LC : length (d_locals x) = length cnts) by (apply HR).
  assert (LOC : undistributed x = true -> exists y k Y, Ok (mk_dnd (map (fun t => vec1 dv (u_flat dv reps (flat t))) (d_locals x)) [Z.of_nat (length (u_flat dv reps (flat (hd (vec1 dv []) (d_locals x)))))] None) = Ok y /\ d_gshape y = [k] /\
    d_split y = None /\ rep y (balanced_counts (length cnts) [k] None) Y /\ distinct_elements G (d_gshape x) k Y).
  { intros UD. destruct (d_locals x) as [|t0 l0] eqn:EL; [cbn in LC; lia|]. cbn [hd]. eexists _, _, (adat (vec1 dv (u_flat dv reps (flat t0)))). split; [reflexivity|]. split; [reflexivity|]. split; [reflexivity|].
    assert (SAME : forall t, In t (t0 :: l0) -> flat t = flat t0).
    { intros t Ht. unfold undistributed in UD. unfold rep in HR. rewrite EL in HR, UD. destruct (d_split x).
      - destruct l0; [|cbn in UD; discriminate]. destruct Ht as [->|[]]. auto.
      - destruct HR as (_ & _ & Q). rewrite (flat_all t _ G) by auto. rewrite (flat_all t0 _ G) by (apply Q; left; auto). auto. }
    split.
    - unfold rep. cbn [d_gshape d_split d_locals balanced_counts]. split; [now rewrite map_length, repeat_length|]. split; [repeat constructor; lia|]. intros t Ht. apply in_map_iff in Ht as (u & <- & Hu). rewrite (SAME u Hu). split; [reflexivity|auto].
    - apply (distinct_list dv); [now apply u_flat_nodup|]. intros v. rewrite u_flat_in by auto. split.
      + intros H. apply (R1 t0 v); [left; auto|auto].
      + intros (idx & Hi & ->). destruct (R2 idx Hi) as (t & Ht & Hv & _). now rewrite <- (SAME t Ht). }
  unfold unique_none. destruct (d_split x) as [s|] eqn:ES.
  - destruct (undistributed x) eqn:EU.
    + destruct LOC as (y & k & Y & A & B & C & D & F); auto. exists y, k, Y. rewrite A, C. unfold undistributed in EU. rewrite ES in EU. replace (1 <? length cnts)%nat with false by lia. repeat (split; [auto; now destruct s|]). auto.
    + set (gres := u_flat dv reps (concat (map (lres_flat dv reps s) (d_locals x)))).
      assert (HA : asked_split 1 (if (s <? 1)%nat then AxInt (Z.of_nat s) else AxNone) (match s with O => Some 0%nat | _ => None end)).
      { destruct s; cbn; [split; [unfold valid_axis; lia|reflexivity]|reflexivity]. }
      unfold undistributed in EU. rewrite ES in EU. destruct (C55_array_split V (length (d_locals x)) (vec1 dv gres) _ _ ltac:(lia) ltac:(repeat constructor; cbn; lia) HA) as (y & A & B & C & D).
      exists y, (Z.of_nat (length gres)), (adat (vec1 dv gres)). split; [exact A|]. split; [exact B|]. assert (LP : (1 < length cnts)%nat) by lia. replace (1 <? length cnts)%nat with true by lia. rewrite C. split; [destruct s; auto|]. split; [rewrite <- LC; exact D|].
      apply (distinct_list dv); [now apply u_flat_nodup|]. intros v. unfold gres. rewrite u_flat_in by auto. split.
      * intros H. apply in_concat in H as (l & Hl & Hv). apply in_map_iff in Hl as (t & <- & Ht). unfold lres_flat in Hv. destruct (nth s (ash t) 0 =? 0); [destruct Hv|]. apply u_flat_in in Hv; auto. apply (R1 t v); auto.
      * intros (idx & Hi & ->). destruct (R2 idx Hi) as (t & Ht & Hv & NZ). apply in_concat. exists (lres_flat dv reps s t). split; [now apply in_map|]. unfold lres_flat. specialize (NZ s eq_refl). replace (nth s (ash t) 0 =? 0) with false by lia. now apply u_flat_in.
  - destruct LOC as (y & k & Y & A & B & C & D & F); [unfold undistributed; now rewrite ES|]. exists y, k, Y. rewrite C. auto 10.
Qed.
