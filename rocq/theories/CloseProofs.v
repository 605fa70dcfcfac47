(** equal, allclose, isclose: proofs. *)
From Verif Require Import Base ShapeSpec BaseLemmas LayoutModel NdSpec TensorSpec TensorLemmas NdLemmas ShapeProofs3 OpsModel OpsProofs3 OpsProofs4 OpsProofs5 RedistModel ShapeModel ShapeProofs4 ShapeProps BinSpec BinModel BinProofs BinProofs2 BinProofs3 BinProps RollModel RollProofs3 RepeatModel RepeatProofs3 CloseSpec CloseModel.
Open Scope Z_scope.

Lemma every_element {A} (G : list Z -> A) gsh sp c ls (r : A -> bool) : represents G gsh sp c ls -> (0 < length ls)%nat ->
  (forall t, In t ls -> forall idx, in_bounds (ash t) idx -> r (adat t idx) = true) <-> (forall idx, in_bounds gsh idx -> r (G idx) = true).
Proof.
  intros (HL & Hn & HR) HP. destruct sp as [s|].
  - destruct HR as (Hs & Hc & Hsum & HR). split.
    + intros H idx Hidx. assert (Hx : 0 <= nth s idx 0 < zsum c) by (rewrite Hsum; apply in_bounds_nth in Hidx as [_ H']; auto).
      pose proof (owner_spec c _ Hc Hx) as HO. destruct (owner c (nth s idx 0)) as [q y]. destruct HO as (Hr & Hsumy & Hy).
      destruct (nth_error ls q) as [t|] eqn:E; [|apply nth_error_None in E; lia].
      destruct (HR q t E) as [S0 D0]. pose proof (in_bounds_length _ _ Hidx) as L.
      assert (B : in_bounds (upd gsh s (nth q c 0)) (upd idx s y)).
      { apply in_bounds_upd_shape; auto. rewrite upd_length. split; auto. rewrite upd_same by lia. split; auto.
        intros k Hk Hne. rewrite upd_other by auto. apply in_bounds_nth in Hidx as [_ H']; auto. }
      assert (EG : adat t (upd idx s y) = G idx).
      { rewrite (D0 _ B). unfold move_axis_idx. f_equal. rewrite upd_same by lia. rewrite upd_upd.
        replace (y + zsum (firstn q c)) with (nth s idx 0) by lia. apply upd_self. }
      rewrite <- EG. apply (H t); [eapply nth_error_In; eauto|]. rewrite S0. exact B.
    + intros H t Ht idx Hi. apply In_nth_error in Ht as [q E]. destruct (HR q t E) as [S0 D0]. rewrite S0 in Hi. rewrite (D0 _ Hi).
      apply H. unfold move_axis_idx. apply (move_in_bounds gsh s c q); auto. assert (q < length ls)%nat by (apply nth_error_Some; congruence). lia.
  - split.
    + intros H idx Hi. destruct ls as [|t ls]; [simpl in HP; lia|]. destruct (HR t (or_introl eq_refl)) as [S0 D0]. rewrite <- (D0 _ Hi). apply H; [now left|]. now rewrite S0.
    + intros H t Ht idx Hi. destruct (HR t Ht) as [S0 D0]. rewrite S0 in Hi. rewrite (D0 _ Hi). auto.
Qed.

Definition zip {A B} (q : arr A * arr B) : arr (A * B) := mk_arr (ash (fst q)) (fun idx => (adat (fst q) idx, adat (snd q) idx)).
Lemma zip_represents {A B} (G1 : list Z -> A) (G2 : list Z -> B) gsh sp c l1 l2 : represents G1 gsh sp c l1 -> represents G2 gsh sp c l2 ->
  represents (fun idx => (G1 idx, G2 idx)) gsh sp c (map zip (combine l1 l2)) /\ length (combine l1 l2) = length l1 /\
  forall q, In q (combine l1 l2) -> ash (fst q) = ash (snd q).
Proof.
  intros (L1 & Hn & R1) (L2 & _ & R2).
  assert (LC : length (combine l1 l2) = length l1) by (rewrite combine_length; lia).
  split; [|split; [auto|]].
  - split; [rewrite map_length; lia|]. split; [auto|]. destruct sp as [s|].
    + destruct R1 as (Hs & Hc & Hsum & R1). destruct R2 as (_ & _ & _ & R2). split; [auto|]. split; [auto|]. split; [auto|].
      intros r t Ht. rewrite nth_error_map in Ht. destruct (nth_error (combine l1 l2) r) as [q|] eqn:E; [|discriminate]. injection Ht as <-.
      apply nth_error_combine in E as [E1 E2]. destruct (R1 _ _ E1) as [S1 D1]. destruct (R2 _ _ E2) as [S2 D2].
      split; [exact S1|]. intros idx Hi. cbn [zip adat]. now rewrite D1, D2.
    + intros t Ht. apply in_map_iff in Ht as (q & <- & Hq). destruct q as [a b]. pose proof (in_combine_l _ _ _ _ Hq) as I1. pose proof (in_combine_r _ _ _ _ Hq) as I2.
      destruct (R1 _ I1) as [S1 D1]. destruct (R2 _ I2) as [S2 D2]. split; [exact S1|]. intros idx Hi. unfold zip. cbn [fst snd adat]. now rewrite D1, D2.
  - intros q Hq. destruct sp as [s|].
    + destruct R1 as (_ & _ & _ & R1). destruct R2 as (_ & _ & _ & R2). apply In_nth_error in Hq as [r E]. apply nth_error_combine in E as [E1 E2].
      destruct (R1 _ _ E1) as [S1 _]. destruct (R2 _ _ E2) as [S2 _]. congruence.
    + destruct q as [a b]. pose proof (in_combine_l _ _ _ _ Hq) as I1. pose proof (in_combine_r _ _ _ _ Hq) as I2.
      destruct (R1 _ I1) as [S1 _]. destruct (R2 _ I2) as [S2 _]. cbn. congruence.
Qed.
Lemma every_pair {A B} (r : A -> B -> bool) (G1 : list Z -> A) (G2 : list Z -> B) gsh sp c l1 l2 : represents G1 gsh sp c l1 -> represents G2 gsh sp c l2 -> (0 < length l1)%nat ->
  (forall q, In q (combine l1 l2) -> forall idx, in_bounds (ash (fst q)) idx -> r (adat (fst q) idx) (adat (snd q) idx) = true) <->
  (forall idx, in_bounds gsh idx -> r (G1 idx) (G2 idx) = true).
Proof.
  intros H1 H2 HP. destruct (zip_represents G1 G2 gsh sp c l1 l2 H1 H2) as (Z & LC & _).
  pose proof (every_element _ _ _ _ _ (fun p => r (fst p) (snd p)) Z ltac:(rewrite map_length; lia)) as E. cbn beta in E. cbn [fst snd] in E.
  rewrite <- E. split.
  - intros H t Ht idx Hi. apply in_map_iff in Ht as (q & <- & Hq). cbn [zip adat ash fst snd] in *. apply H; auto.
  - intros H q Hq idx Hi. apply (H (zip q)); [now apply in_map|exact Hi].
Qed.

Lemma zero_empty sh : Forall (fun n => 0 <= n) sh -> zprod sh = 0 -> forall idx, ~ in_bounds sh idx.
Proof.
  intros Hn Hz idx Hi. apply in_row_major in Hi. pose proof (row_major_length sh Hn). destruct (row_major sh); [contradiction|simpl in *; lia].
Qed.
Lemma local_equal_ok {A} (eqb : A -> A -> bool) (t1 t2 : arr A) : ash t1 = ash t2 -> Forall (fun n => 0 <= n) (ash t1) ->
  local_equal eqb t1 t2 = true <-> forall idx, in_bounds (ash t1) idx -> eqb (adat t1 idx) (adat t2 idx) = true.
Proof.
  intros E Hn. unfold local_equal. destruct (Z.eqb_spec (zprod (ash t1)) 0) as [Z|Z].
  - split; [|auto]. intros _ idx Hi. exfalso. eapply zero_empty; eauto.
  - replace (eqb_idx (ash t1) (ash t2)) with true by (symmetry; apply eqb_idx_eq; auto). cbn [andb]. rewrite forallb_forall. split; intros H idx Hi; apply H; apply in_row_major; auto.
Qed.
Lemma local_nonneg {A} (G : list Z -> A) gsh sp c ls t : represents G gsh sp c ls -> In t ls -> Forall (fun n => 0 <= n) (ash t).
Proof.
  intros (HL & Hn & HR) Ht. destruct sp as [s|].
  - destruct HR as (Hs & Hc & _ & HR). apply In_nth_error in Ht as [r E]. destruct (HR _ _ E) as [-> _]. apply Forall_upd; [auto|].
    assert (r < length ls)%nat by (apply nth_error_Some; congruence). rewrite Forall_forall in Hc. apply Hc, nth_In. lia.
  - destruct (HR t Ht) as [-> _]. auto.
Qed.
Lemma all_equal_ok {A} (eqb : A -> A -> bool) (G1 G2 : list Z -> A) gsh sp c l1 l2 : represents G1 gsh sp c l1 -> represents G2 gsh sp c l2 -> (0 < length l1)%nat ->
  forallb (fun q => local_equal eqb (fst q) (snd q)) (combine l1 l2) = true <-> forall idx, in_bounds gsh idx -> eqb (G1 idx) (G2 idx) = true.
Proof.
  intros H1 H2 HP. rewrite <- (every_pair eqb G1 G2 gsh sp c l1 l2 H1 H2 HP). destruct (zip_represents G1 G2 gsh sp c l1 l2 H1 H2) as (_ & _ & HS).
  rewrite forallb_forall. split; intros H q Hq.
  - apply local_equal_ok; auto. destruct q as [a b]. eapply local_nonneg; [exact H1|]. eapply in_combine_l; eauto.
  - apply local_equal_ok; auto. destruct q as [a b]. eapply local_nonneg; [exact H1|]. eapply in_combine_l; eauto.
Qed.

Lemma item_ok {A} (dflt : A) (x : dnd A) (G : list Z -> A) c : rep x c G -> (0 < length (d_locals x))%nat -> zprod (d_gshape x) = 1 -> item dflt x = G (origin (d_gshape x)).
Proof.
  intros HR HP HZ. unfold item, first_arr. destruct (resplit_none_represents G x c dflt HR) as (Eg & Es & L & Hn & R).
  set (z := resplit_none dflt x) in *. assert (length (d_locals z) = length (d_locals x)) as L2 by (destruct HR as (-> & _); auto).
  destruct (d_locals z) as [|t l]; [simpl in L2; lia|]. cbn [nth]. destruct (R t (or_introl eq_refl)) as [S0 D0]. unfold origin. rewrite S0. apply D0.
  pose proof HZ as HZ'. clear - HZ' Hn. revert HZ' Hn. generalize (d_gshape x). intros sh HZ Hn.
  assert (forall k, In k sh -> 0 < k).
  { intros k Hk. rewrite Forall_forall in Hn. specialize (Hn k Hk). destruct (Z.eq_dec k 0) as [->|]; [|lia]. exfalso.
    assert (zprod sh = 0); [|lia]. clear -Hk. induction sh as [|a sh IH]; [contradiction|]. destruct Hk as [->|Hk]; cbn [zprod]; [lia|rewrite IH; auto; lia]. }
  clear HZ Hn. induction sh as [|a sh IH]; cbn [map]; constructor; [|apply IH; intros; apply H; now right]. specialize (H a (or_introl eq_refl)). lia.
Qed.

Section E.
Context {A : Type} (dflt : A) (py : A -> A) (eqb : A -> A -> bool) (u1 u2 : bnd A) (G1 G2 : list Z -> A) (c1 c2 : list Z).
Let x := b_arr u1. Let y := b_arr u2.
Hypothesis R1 : rep x c1 G1. Hypothesis R2 : rep y c2 G2.
Hypothesis F1 : flag_ok u1 c1. Hypothesis F2 : flag_ok u2 c2.
Hypothesis HP : (0 < length (d_locals x))%nat. Hypothesis HPP : length (d_locals y) = length (d_locals x).

Lemma equal_ok : (zprod (d_gshape x) <> 1 -> zprod (d_gshape y) <> 1 -> d_gshape x = d_gshape y -> forall s t, d_split x = Some s -> d_split y = Some t -> s = t) ->
  exists b, ht_equal dflt py eqb u1 u2 = Ok b /\
    (b = true <-> if (zprod (d_gshape x) =? 1) && (zprod (d_gshape y) =? 1)
                  then eqb (py (G1 (origin (d_gshape x)))) (py (G2 (origin (d_gshape y)))) = true
                  else same_elements eqb (d_gshape x) (d_gshape y) G1 G2).
Proof.
  intros HS. pose proof (flag_truthful u1 c1 G1 R1 F1) as T1. pose proof (flag_truthful u2 c2 G2 R2 F2) as T2.
  unfold ht_equal. fold x y. destruct (Z.eqb_spec (zprod (d_gshape x)) 1) as [Zx|Zx].
  - eexists. split; [reflexivity|]. cbn [andb]. destruct (Z.eqb_spec (zprod (d_gshape y)) 1) as [Zy|Zy].
    + rewrite (item_ok dflt x G1 c1), (item_ok dflt y G2 c2) by (auto; lia). tauto.
    + split; [discriminate|]. intros [E _]. rewrite E in Zx. contradiction.
  - cbn [andb]. destruct (Z.eqb_spec (zprod (d_gshape y)) 1) as [Zy|Zy].
    + eexists. split; [reflexivity|]. split; [discriminate|]. intros [E _]. rewrite <- E in Zy. contradiction.
    + destruct (eqb_idx (d_gshape x) (d_gshape y)) eqn:EG; cbn [negb].
      2:{ eexists. split; [reflexivity|]. split; [discriminate|]. intros [E _]. apply eqb_idx_eq in E. congruence. }
      apply eqb_idx_eq in EG. specialize (HS Zx Zy EG).
      assert (K : forall sp c l1 l2, represents G1 (d_gshape x) sp c l1 -> represents G2 (d_gshape x) sp c l2 -> (0 < length l1)%nat ->
        exists b, Ok (forallb (fun q => local_equal eqb (fst q) (snd q)) (combine l1 l2)) = Ok b /\ (b = true <-> same_elements eqb (d_gshape x) (d_gshape y) G1 G2)).
      { intros sp c l1 l2 H1 H2 L. eexists. split; [reflexivity|]. rewrite (all_equal_ok eqb G1 G2 _ sp c l1 l2 H1 H2 L). unfold same_elements. tauto. }
      unfold rep in R1, R2. fold x in T1. fold y in T2. pose proof R1 as (L1 & N1 & _). pose proof R2 as (L2 & N2 & _).
      destruct (d_split x) as [s|] eqn:Sx; destruct (d_split y) as [t|] eqn:Sy; cbn [bind fst snd].
      * specialize (HS s t eq_refl eq_refl). subst t. rewrite Nat.eqb_refl. cbn [negb].
        assert (C1 : lcounts x s = c1) by (unfold lcounts; eapply local_counts; eauto).
        assert (C2 : lcounts y s = c2) by (unfold lcounts; eapply local_counts; eauto).
        destruct (is_bal u1 && is_bal u2) eqn:B; cbn [negb andb bind fst snd].
        -- apply andb_prop in B as [B1 B2]. apply (is_bal_true u1 s T1) in B1; [|auto]. apply (is_bal_true u2 s T2) in B2; [|auto]. fold x in B1. fold y in B2.
           apply (K (Some s) c1); auto. rewrite EG. replace c1 with c2; [auto|]. rewrite <- C1, <- C2, B1, B2, EG, HPP. reflexivity.
        -- destruct (eqb_idx (lcounts x s) (lcounts y s)) eqn:EC; cbn [negb bind fst snd].
           ++ apply eqb_idx_eq in EC. apply (K (Some s) c1); auto. rewrite EG. replace c1 with c2; [auto|congruence].
           ++ destruct (balance_nd_ok dflt x G1 c1 s R1 ltac:(lia)) as (x' & Ex & _ & _ & Rx). destruct (balance_nd_ok dflt y G2 c2 s R2 ltac:(lia)) as (y' & Ey & _ & _ & Ry).
              rewrite Ex, Ey. cbn [bind fst snd]. apply (K (Some s) _ _ _ Rx); [|destruct Rx as (-> & _); assert (Q : (0 < length c1)%nat) by lia; assert (Q2 : 0 <= nth s (d_gshape x) 0) by (eapply represents_nth_nonneg; [exact R1|apply R1]); rewrite (proj1 (zcounts_ok _ _ Q Q2)); lia].
              rewrite EG. replace (length c1) with (length c2) by lia. exact Ry.
      * assert (Hs : (s < length (d_gshape y))%nat) by (rewrite <- EG; apply R1). apply (K (Some s) c1); auto. rewrite EG.
        assert (C1 : lcounts x s = c1) by (unfold lcounts; eapply local_counts; eauto).
        replace (if is_bal u1 then _ else _) with c1.
        -- apply cut_map_aligned with (cnts := c2); auto; try lia; [apply R1|]. destruct R1 as (_ & _ & _ & _ & Q & _). rewrite <- EG. exact Q.
        -- destruct (is_bal u1) eqn:B; [|auto]. apply (is_bal_true u1 s T1) in B; [|auto]. fold x in B. rewrite <- C1, B, EG. reflexivity.
      * assert (Hs : (t < length (d_gshape x))%nat) by (rewrite EG; apply R2).
        assert (C2 : lcounts y t = c2) by (unfold lcounts; eapply local_counts; eauto).
        replace (if is_bal u2 then _ else _) with c2.
        -- apply (K (Some t) c2); [|rewrite EG; auto|cbn [d_locals cut_map]; rewrite map_length, combine_length, seq_length; lia].
           apply cut_map_aligned with (cnts := c1); auto; try lia; [apply R2|]. destruct R2 as (_ & _ & _ & _ & Q & _). rewrite EG. exact Q.
        -- destruct (is_bal u2) eqn:B; [|auto]. apply (is_bal_true u2 t T2) in B; [|auto]. fold y in B. rewrite <- C2, B, <- EG, HPP. reflexivity.
      * apply (K None c1); auto. rewrite EG. destruct R2 as (_ & Hn & R). split; [lia|]. auto.
Qed.
End E.
