(** roll, flip, rot90 of n-dimensional distributed arrays: proofs. *)
From Verif Require Import Base BaseLemmas LayoutModel LayoutProofs TensorSpec NdSpec TensorLemmas NdLemmas OpsModel OpsProofs2 OpsProofs3 OpsProofs4 RedistModel RedistProofs ShapeSpec ShapeModel ShapeProofs ShapeProofs3 ShapeProofs4 ShapeProofs5 ShapeProofs6 BinModel BinProofs SlabLemmas RollSpec RollModel RollProofs.
Open Scope Z_scope.

Lemma represents_ext {A} (G G' : list Z -> A) gsh split cnts ls :
  (forall idx, in_bounds gsh idx -> G idx = G' idx) -> represents G gsh split cnts ls -> represents G' gsh split cnts ls.
Proof.
  intros E (HL & Hn & HR). split; [auto|]. split; [auto|]. destruct split as [s|].
  - destruct HR as (Hs & Hc & Hsum & HR). split; [auto|]. split; [auto|]. split; [auto|]. intros r t Ht.
    destruct (HR r t Ht) as [S D]. split; [auto|]. intros idx Hi. rewrite D by auto. apply E.
    assert (Hr : (r < length cnts)%nat) by (rewrite <- HL; apply nth_error_Some; congruence).
    pose proof (zsum_le cnts r Hc Hr) as Z1.
    apply in_bounds_upd_shape in Hi as (LI & Hcs & Hi); auto. unfold move_axis_idx.
    apply in_bounds_nth. rewrite upd_length. split; [auto|]. intros k Hk.
    destruct (Nat.eq_dec k s) as [->|N]; [rewrite upd_same by lia; lia | rewrite upd_other by auto; auto].
  - intros t Ht. destruct (HR t Ht) as [S D]. split; [auto|]. intros. rewrite D by auto. auto.
Qed.

(** * roll *)
Definition roll1 (sh : list Z) (sa : Z * nat) (idx : list Z) : list Z :=
  upd idx (snd sa) ((nth (snd sa) idx 0 - fst sa) mod nth (snd sa) sh 0).
Lemma roll_src_length gsh sas idx : length (roll_src gsh sas idx) = length gsh.
Proof. unfold roll_src. now rewrite map_length, seq_length. Qed.
Lemma roll_src_nth gsh sas idx k : (k < length gsh)%nat ->
  nth k (roll_src gsh sas idx) 0 = (nth k idx 0 - total_shift sas k) mod nth k gsh 0.
Proof. intros. unfold roll_src. now rewrite (@nth_map_seq _ (fun k => (nth k idx 0 - total_shift sas k) mod nth k gsh 0)). Qed.
Lemma roll_src_bounds gsh sas idx : in_bounds gsh idx -> in_bounds gsh (roll_src gsh sas idx).
Proof.
  intros H. apply in_bounds_nth in H as [L H]. apply in_bounds_nth. rewrite roll_src_length. split; [auto|].
  intros k Hk. rewrite roll_src_nth by auto. specialize (H k Hk). apply Z.mod_pos_bound. lia.
Qed.
Lemma total_shift_cons s a sas k : total_shift ((s, a) :: sas) k = (if Nat.eqb a k then s else 0) + total_shift sas k.
Proof. unfold total_shift. cbn [filter snd]. destruct (Nat.eqb a k); unfold zsum; cbn [map fst fold_right]; lia. Qed.
Lemma total_shift_notin sas k : ~ In k (map snd sas) -> total_shift sas k = 0.
Proof.
  intros H. unfold total_shift. replace (filter _ sas) with (@nil (Z * nat)); [reflexivity|]. symmetry. apply filter_nil_iff.
  intros x Hx. apply Nat.eqb_neq. intros <-. apply H, in_map, Hx.
Qed.

Lemma torch_roll_ok {A} sas (t : arr A) sh F : agrees t sh F -> agrees (torch_roll t sas) sh (fun idx => F (roll_src sh sas idx)).
Proof.
  revert t F. induction sas as [|[s a] sas IH]; intros t F [S D].
  - split; [auto|]. intros idx Hi. cbn. rewrite D by auto. f_equal.
    pose proof (proj1 (in_bounds_nth _ _) Hi) as [L B]. apply (@nth_ext2 _ _ _ 0); [now rewrite roll_src_length|].
    intros k Hk. rewrite roll_src_nth by lia. cbn. rewrite Z.sub_0_r. rewrite Z.mod_small; auto. apply B. lia.
  - cbn [torch_roll fold_left]. fold (@torch_roll A).
    assert (A1 : agrees (torch_roll1 t (s, a)) sh (fun idx => F (roll1 sh (s, a) idx))).
    { split; [auto|]. intros idx Hi. cbn [torch_roll1 adat]. unfold roll1. cbn [fst snd]. rewrite S.
      pose proof (proj1 (in_bounds_nth _ _) Hi) as [L B].
      rewrite D; [reflexivity|]. apply in_bounds_nth. rewrite upd_length. split; [auto|]. intros k Hk.
      destruct (Nat.eq_dec k a) as [->|N]; [rewrite upd_same by lia | rewrite upd_other by auto; auto].
      apply Z.mod_pos_bound. specialize (B a Hk). lia. }
    specialize (IH _ _ A1). destruct IH as [S2 D2]. split; [auto|]. intros idx Hi. unfold torch_roll in *. rewrite D2 by auto. f_equal.
    pose proof (proj1 (in_bounds_nth _ _) Hi) as [L B].
    apply (@nth_ext2 _ _ _ 0); [unfold roll1; now rewrite upd_length, !roll_src_length|].
    unfold roll1. cbn [fst snd]. rewrite upd_length, roll_src_length. intros k Hk.
    rewrite (roll_src_nth sh ((s, a) :: sas)) by auto. rewrite total_shift_cons.
    destruct (Nat.eq_dec k a) as [->|N].
    + rewrite upd_same by now rewrite roll_src_length. rewrite Nat.eqb_refl, roll_src_nth by auto.
      rewrite Zminus_mod_idemp_l. f_equal. lia.
    + rewrite upd_other by auto. rewrite roll_src_nth by auto. replace (a =? k)%nat with false by (symmetry; apply Nat.eqb_neq; auto). f_equal; lia.
Qed.

(** rolling the local parts rolls the whole array, unless the split axis is cut and rolled *)
Lemma torch_roll_represents {A} sas (G : list Z -> A) gsh split cnts ls :
  represents G gsh split cnts ls ->
  match split with Some s => In s (map snd sas) -> length cnts = 1%nat | None => True end ->
  represents (fun idx => G (roll_src gsh sas idx)) gsh split cnts (map (fun t => torch_roll t sas) ls).
Proof.
  intros (HL & Hn & HR) HS. split; [now rewrite map_length|]. split; [auto|]. destruct split as [s|].
  - destruct HR as (Hs & Hc & Hsum & HR). split; [auto|]. split; [auto|]. split; [auto|]. intros r t' Ht.
    rewrite nth_error_map in Ht. destruct (nth_error ls r) as [t|] eqn:E; [|discriminate]. injection Ht as <-.
    pose proof (torch_roll_ok sas _ _ _ (HR r t E)) as [S D]. split; [auto|]. intros idx Hi. rewrite D by auto.
    assert (Hr : (r < length cnts)%nat) by (rewrite <- HL; apply nth_error_Some; congruence).
    pose proof (zsum_le cnts r Hc Hr) as Z1.
    apply in_bounds_upd_shape in Hi as (LI & Hcs & Hi); auto. f_equal. unfold move_axis_idx.
    apply (@nth_ext2 _ _ _ 0); [now rewrite upd_length, !roll_src_length, upd_length|].
    rewrite upd_length, roll_src_length, upd_length. intros k Hk. rewrite (roll_src_nth gsh) by auto.
    destruct (Nat.eq_dec k s) as [->|N].
    + rewrite !upd_same by (rewrite ?roll_src_length, ?upd_length; lia).
      rewrite roll_src_nth, upd_same by (rewrite ?upd_length; lia).
      destruct (in_dec Nat.eq_dec s (map snd sas)) as [I|I].
      * specialize (HS I). destruct cnts as [|c [|c' cnts]]; cbn in HS, Hr; try lia. replace r with 0%nat in * by lia. cbn in *.
        rewrite !Z.add_0_r. f_equal. lia.
      * rewrite total_shift_notin by auto. rewrite !Z.sub_0_r. rewrite !Z.mod_small by lia. reflexivity.
    + rewrite !upd_other by auto. rewrite roll_src_nth by (rewrite upd_length; auto). now rewrite upd_other by auto.
  - intros t' Ht. apply in_map_iff in Ht as (t & <- & Ht). now apply torch_roll_ok, HR.
Qed.

Lemma roll_nd_split_ok {A} (dflt : A) (x : dnd A) (G : list Z -> A) cnts s shift :
  d_split x = Some s -> represents G (d_gshape x) (Some s) cnts (d_locals x) ->
  exists y, roll_nd_split dflt x s shift = Some y /\ d_gshape y = d_gshape x /\ d_split y = Some s /\
    represents (fun idx => G (roll_src (d_gshape x) [(shift, s)] idx)) (d_gshape x) (Some s) cnts (d_locals y).
Proof.
  intros Es HR. pose proof HR as (HL & Hn & Hs & Hc & Hsum & _). set (gsh := d_gshape x) in *.
  destruct (slabs_view _ _ _ _ _ HR) as (LN & GL & V). unfold roll_nd_split. set (d := map (slabs s) (d_locals x)) in *.
  destruct (roll_split_ok d shift (fun _ => dflt)) as (d' & -> & EL & EG).
  eexists. split; [reflexivity|]. cbn [d_gshape d_split d_locals]. split; [auto|]. split; [auto|]. fold gsh.
  apply unslabs_represents; auto; [now rewrite EL|]. intros idx z Hb Hl.
  pose proof (proj1 (in_bounds_nth _ _) Hb) as [L B]. rewrite upd_length in L.
  pose proof (B s Hs) as Bs. rewrite upd_same in Bs by lia.
  rewrite EG by lia. unfold wrap_index. rewrite GL, !Z2Nat.id by lia.
  rewrite V; auto.
  - f_equal. apply (@nth_ext2 _ _ _ 0); [now rewrite upd_length, roll_src_length|]. rewrite upd_length. intros k Hk.
    rewrite roll_src_nth by lia. rewrite total_shift_cons. change (total_shift [] k) with 0. rewrite Z.add_0_r.
    destruct (Nat.eq_dec k s) as [->|N].
    + rewrite Nat.eqb_refl, !upd_same by lia. f_equal.
    + replace (s =? k)%nat with false by (symmetry; apply Nat.eqb_neq; auto). rewrite !upd_other by auto. rewrite Z.sub_0_r, Z.mod_small; auto.
      specialize (B k ltac:(lia)). rewrite upd_other in B by auto. auto.
  - apply Z.mod_pos_bound. lia.
  - intros k Hk N. specialize (B k Hk). rewrite upd_other in B by auto. auto.
Qed.

Lemma total_shift_filter sas s k : k <> s ->
  total_shift (filter (fun p => negb (Nat.eqb (snd p) s)) sas) k = total_shift sas k.
Proof.
  intros N. induction sas as [|[sh a] sas IH]; [reflexivity|]. cbn [filter snd]. rewrite total_shift_cons.
  destruct (Nat.eqb_spec a s) as [->|Na]; cbn [negb].
  - rewrite IH. replace (s =? k)%nat with false by (symmetry; apply Nat.eqb_neq; auto). lia.
  - now rewrite total_shift_cons, IH.
Qed.
Lemma mem_nat_iff k l : mem_nat k l = true <-> In k l.
Proof. unfold mem_nat. rewrite existsb_exists. split; [intros (x & H & E); apply Nat.eqb_eq in E; now subst | intros H; exists k; split; auto; apply Nat.eqb_refl]. Qed.

Lemma roll_pairs_ok {A} (dflt : A) (x : dnd A) (G : list Z -> A) cnts sas :
  represents G (d_gshape x) (d_split x) cnts (d_locals x) -> (0 < length cnts)%nat ->
  exists y, roll_pairs dflt x sas = Some y /\ d_gshape y = d_gshape x /\ d_split y = d_split x /\
    represents (fun idx => G (roll_src (d_gshape x) sas idx)) (d_gshape x) (d_split x) cnts (d_locals y).
Proof.
  intros HR HP. unfold roll_pairs. destruct (d_split x) as [s|] eqn:Es.
  - pose proof HR as (HL & Hn & Hs & Hc & Hsum & _).
    destruct ((1 <? length (d_locals x))%nat && mem_nat s (map snd sas)) eqn:EC.
    + apply andb_true_iff in EC as [_ EC]. apply mem_nat_iff in EC.
      destruct (roll_nd_split_ok dflt x G cnts s (total_shift sas s) Es HR) as (y & E & Eg & Esp & R).
      unfold total_shift in E. rewrite E. eexists. split; [reflexivity|]. cbn [d_gshape d_split d_locals].
      split; [auto|]. split; [auto|].
      pose proof (torch_roll_represents (filter (fun p => negb (Nat.eqb (snd p) s)) sas) _ _ _ _ _ R) as R2.
      eapply represents_ext; [|apply R2].
      * intros idx Hi. cbv beta. f_equal. pose proof (proj1 (in_bounds_nth _ _) Hi) as [L B].
        apply (@nth_ext2 _ _ _ 0); [now rewrite !roll_src_length|]. rewrite roll_src_length. intros k Hk.
        rewrite !roll_src_nth by auto. rewrite total_shift_cons. change (total_shift [] k) with 0.
        destruct (Nat.eq_dec k s) as [->|N].
        -- rewrite Nat.eqb_refl. rewrite (total_shift_notin (filter _ _)).
           ++ rewrite Z.sub_0_r, Z.add_0_r, Zminus_mod_idemp_l. reflexivity.
           ++ intros I. apply in_map_iff in I as (p & Ep & Ip). apply filter_In in Ip as [_ Ip]. subst s. rewrite Nat.eqb_refl in Ip. discriminate.
        -- replace (s =? k)%nat with false by (symmetry; apply Nat.eqb_neq; auto). rewrite total_shift_filter by auto. now rewrite !Z.sub_0_r, Z.mod_mod by (specialize (B k Hk); lia).
      * intros I. exfalso. apply in_map_iff in I as (p & Ep & Ip). apply filter_In in Ip as [_ Ip]. subst s. rewrite Nat.eqb_refl in Ip. discriminate.
    + eexists. split; [reflexivity|]. cbn [d_gshape d_split d_locals]. split; [auto|]. split; [auto|].
      apply torch_roll_represents; auto. intros I. apply mem_nat_iff in I. rewrite I, andb_true_r in EC. rewrite HL in EC.
      apply Nat.ltb_ge in EC. lia.
  - eexists. split; [reflexivity|]. cbn [d_gshape d_split d_locals]. split; [auto|]. split; [auto|]. now apply torch_roll_represents.
Qed.
