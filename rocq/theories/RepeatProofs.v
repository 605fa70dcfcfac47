(** Proofs for repeat: local repetition. *)
From Verif Require Import Base BaseLemmas LayoutModel LayoutProofs NdSpec TensorSpec TensorLemmas NdLemmas OpsModel OpsProofs4 OpsProofs5 RedistModel ShapeModel BinModel BinProofs SlabLemmas RollModel ReshapeModel FactoryModel RepeatSpec RepeatModel.
Open Scope Z_scope.

Lemma zs_nonneg l : Forall (fun n => 0 <= n) l -> 0 <= zsum l.
Proof. induction 1; [reflexivity|]. change (zsum (x :: l)) with (x + zsum l). lia. Qed.
Lemma spread_app {A} (l1 l2 : list A) r1 r2 : length l1 = length r1 -> spread (l1 ++ l2) (r1 ++ r2) = spread l1 r1 ++ spread l2 r2.
Proof.
  revert r1. induction l1 as [|x l1 IH]; intros [|k r1] H; cbn in H; try discriminate; [reflexivity|].
  cbn. fold (spread (l1 ++ l2) (r1 ++ r2)). rewrite IH by lia. now rewrite app_assoc.
Qed.
Lemma spread_map {A B} (f : A -> B) l r : spread (map f l) r = map f (spread l r).
Proof.
  revert r. induction l as [|x l IH]; intros [|k r]; cbn; auto. fold (spread l r). fold (spread (map f l) r). rewrite map_app, IH. f_equal.
  induction (Z.to_nat k) as [|m IHm]; cbn; [auto|now rewrite IHm].
Qed.
Lemma spread_length {A} (l : list A) r : length l = length r -> Forall (fun k => 0 <= k) r -> Z.of_nat (length (spread l r)) = zsum r.
Proof.
  revert r. induction l as [|x l IH]; intros [|k r] H F; cbn in H; try discriminate; [reflexivity|]. inversion F; subst.
  cbn [spread combine flat_map fst snd]. fold (spread l r). rewrite app_length, repeat_length. change (zsum (k :: r)) with (k + zsum r). rewrite <- (IH r) by (auto; lia). lia.
Qed.
Lemma nth_spread_at {A} (l : list A) r i j d : length l = length r -> Forall (fun k => 0 <= k) r -> (i < length l)%nat -> 0 <= j < nth i r 0 ->
  nth (Z.to_nat (zsum (firstn i r) + j)) (spread l r) d = nth i l d.
Proof.
  revert r i. induction l as [|x l IH]; intros [|k r] i H F Hi Hj; cbn [length] in *; try lia. inversion F as [|? ? Hk Fr]; subst.
  cbn [spread combine flat_map fst snd]. fold (spread l r). destruct i as [|i].
  - cbn [firstn nth] in *. change (zsum []) with 0. rewrite app_nth1 by (rewrite repeat_length; lia).
    rewrite (nth_indep _ d x) by (rewrite repeat_length; lia). apply nth_repeat.
  - cbn [firstn nth] in *. change (zsum (k :: firstn i r)) with (k + zsum (firstn i r)).
    assert (0 <= zsum (firstn i r)) by (apply zs_nonneg; apply Forall_forall; intros y Hy; rewrite Forall_forall in Fr; apply Fr; rewrite <- (firstn_skipn i r); apply in_app_iff; now left).
    rewrite app_nth2; rewrite repeat_length; [|lia]. rewrite <- (IH r i) by (auto; lia). f_equal. lia.
Qed.
(** position of the source of element [z] of the result *)
Definition src (reps : list Z) (z : Z) : nat := nth (Z.to_nat z) (spread (seq 0 (length reps)) reps) (length reps).
Lemma nth_spread {A} (l : list A) r z d : length l = length r -> nth (Z.to_nat z) (spread l r) d = nth (src r z) l d.
Proof.
  intros H. unfold src. rewrite <- H.
  assert (E : l = map (fun i => nth i l d) (seq 0 (length l))) by (symmetry; apply map_nth_seq).
  rewrite E at 1. rewrite spread_map.
  rewrite <- (map_nth (fun i => nth i l d)). f_equal. now rewrite nth_overflow by auto.
Qed.
Lemma in_spread {A} (x : A) l r : In x (spread l r) -> In x l.
Proof.
  revert r. induction l as [|y l IH]; intros [|k r] H; try contradiction. cbn [spread combine flat_map fst snd] in H. fold (spread l r) in H. apply in_app_iff in H as [H|H]; [left; symmetry; now apply repeat_spec in H|right; eauto].
Qed.
Lemma src_bound r z : Forall (fun k => 0 <= k) r -> 0 <= z < zsum r -> (src r z < length r)%nat.
Proof.
  intros F Hz. unfold src. assert (L := spread_length (seq 0 (length r)) r ltac:(apply seq_length) F).
  assert (I : In (nth (Z.to_nat z) (spread (seq 0 (length r)) r) (length r)) (spread (seq 0 (length r)) r)) by (apply nth_In; lia).
  apply in_spread, in_seq in I. lia.
Qed.
Lemma src_at r i j : Forall (fun k => 0 <= k) r -> (i < length r)%nat -> 0 <= j < nth i r 0 -> src r (zsum (firstn i r) + j) = i.
Proof. intros F Hi Hj. unfold src. rewrite nth_spread_at by (auto; rewrite ?seq_length; auto). rewrite seq_nth by auto. reflexivity. Qed.

Definition rep_fun {A} (a : nat) (reps : list Z) (F : list Z -> A) (idx : list Z) : A := F (upd idx a (Z.of_nat (src reps (nth a idx 0)))).
Lemma rep_fun_spec {A} a reps gsh (G : list Z -> A) : (a < length gsh)%nat -> Z.of_nat (length reps) = nth a gsh 0 -> Forall (fun k => 0 <= k) reps ->
  repeated_along a reps gsh G (rep_fun a reps G).
Proof.
  intros Ha HL F idx j Hi i Hj. unfold rep_fun. pose proof (proj1 (in_bounds_nth _ _) Hi) as [L B]. specialize (B a Ha).
  rewrite upd_same by lia. rewrite src_at by (auto; lia). rewrite upd_upd. unfold i. rewrite Z2Nat.id by lia.
  f_equal. apply (@nth_ext2 _ _ _ 0); [apply upd_length|]. intros k Hk. rewrite upd_length in Hk. destruct (Nat.eq_dec k a) as [->|N]; [now rewrite upd_same|now rewrite upd_other].
Qed.

Definition fits (reps l : list Z) (n : nat) : Prop := (exists k, reps = [k] /\ l = repeat k n) \/ (reps = l /\ length l = n).
Lemma fits_length reps l n : fits reps l n -> length l = n.
Proof. intros [(k & _ & ->)|[_ H]]; [apply repeat_length|auto]. Qed.
Lemma torch_counts_fits reps l n : fits reps l n -> Forall (fun k => 0 <= k) l -> torch_counts n reps = Ok l.
Proof.
  intros H F. assert (E : match reps with [k] => repeat k n | _ => reps end = l).
  { destruct H as [(k & -> & ->)|[-> H]]; [auto|]. destruct l as [|k [|k' l]]; auto. cbn in H. subst n. reflexivity. }
  unfold torch_counts. rewrite E. rewrite (fits_length _ _ _ H), Nat.eqb_refl. cbn [negb].
  replace (existsb (fun k => k <? 0) l) with false; auto. symmetry. apply not_true_is_false. intros X. apply existsb_exists in X as (k & Hk & X). rewrite Forall_forall in F. specialize (F k Hk). lia.
Qed.
Lemma all_ok_map_ok {A B} (f : A -> res B) (g : A -> B) l : (forall x, In x l -> f x = Ok (g x)) -> all_ok (map f l) = Ok (map g l).
Proof. induction l as [|x l IH]; intros H; [reflexivity|]. cbn. rewrite (H x) by now left. cbn [bind]. rewrite IH by (intros; apply H; now right). reflexivity. Qed.

Lemma agrees_repeat {A} (dflt : A) (t : arr A) sh F a reps l : agrees t sh F -> (a < length sh)%nat -> 0 <= nth a sh 0 -> fits reps l (Z.to_nat (nth a sh 0)) -> Forall (fun k => 0 <= k) l ->
  torch_repeat dflt t reps (Some a) = Ok (unslabs dflt a (ash t) (spread (slabs a t) l)) /\
  agrees (unslabs dflt a (ash t) (spread (slabs a t) l)) (upd sh a (zsum l)) (rep_fun a l F).
Proof.
  intros [E H] Ha H0 HF Fn. assert (L : length (slabs a t) = length l) by (rewrite slabs_length, E; symmetry; now apply (fits_length reps)). split.
  - cbn [torch_repeat]. rewrite (torch_counts_fits reps l); [reflexivity| |auto]. now rewrite slabs_length, E.
  - split; [cbn [unslabs ash]; rewrite spread_length by auto; now rewrite E|].
    intros idx Hi. cbn [unslabs adat]. pose proof (proj1 (in_bounds_nth _ _) Hi) as [LI B]. rewrite upd_length in *.
    assert (Ba := B a Ha). rewrite upd_same in Ba by auto. rewrite nth_spread by auto. assert (SB := src_bound l _ Fn Ba).
    rewrite slabs_nth by (rewrite E; rewrite <- (fits_length _ _ _ HF); auto). unfold rep_fun. apply H.
    apply in_bounds_nth. rewrite upd_length. split; [lia|]. intros k Hk. destruct (Nat.eq_dec k a) as [->|N].
    + rewrite upd_same by lia. apply fits_length in HF. lia.
    + rewrite upd_other by auto. specialize (B k Hk). now rewrite upd_other in B by auto.
Qed.
Lemma agrees_ext {A} (t : arr A) sh F F' : agrees t sh F -> (forall idx, in_bounds sh idx -> F idx = F' idx) -> agrees t sh F'.
Proof. intros [E H] X. split; auto. intros idx Hi. rewrite H by auto. auto. Qed.
Lemma upd_comm {A} (l : list A) a b u v : a <> b -> upd (upd l a u) b v = upd (upd l b v) a u.
Proof. revert a b. induction l as [|x l IH]; intros [|a] [|b] H; cbn; auto; try lia. now rewrite IH by lia. Qed.

(** the repeated axis is not distributed *)
Lemma repeat_other {A} (dflt : A) (G : list Z -> A) gsh sp cnts ls a reps l cs :
  represents G gsh sp cnts ls -> (a < length gsh)%nat -> sp <> Some a -> fits reps l (Z.to_nat (nth a gsh 0)) -> Forall (fun k => 0 <= k) l ->
  length cs = length ls -> (forall c, In c cs -> c = reps) ->
  exists ls', all_ok (map (fun p => torch_repeat dflt (fst p) (snd p) (Some a)) (combine ls cs)) = Ok ls' /\
    represents (rep_fun a l G) (upd gsh a (zsum l)) sp cnts ls' /\ length ls' = length ls.
Proof.
  intros HR Ha Hs HF Fn HL HC. pose proof HR as (HL1 & Hn & HX).
  assert (N0 : 0 <= nth a gsh 0) by (rewrite Forall_forall in Hn; apply Hn, nth_In; auto).
  set (g := fun t => unslabs dflt a (ash t) (spread (slabs a t) l)).
  assert (AG : forall t, In t ls -> torch_repeat dflt t reps (Some a) = Ok (g t)).
  { intros t Ht. destruct sp as [s|].
    - destruct HX as (_ & _ & _ & HX). apply In_nth_error in Ht as (r & Er). specialize (HX r t Er).
      destruct (agrees_repeat dflt t _ _ a reps l HX) as [X _]; rewrite ?upd_length; auto; rewrite ?upd_other by congruence; auto.
    - destruct (agrees_repeat dflt t _ _ a reps l (HX t Ht)) as [X _]; auto. }
  exists (map g ls). split; [|split; [|apply map_length]].
  - rewrite (all_ok_map_ok _ (fun p => g (fst p))).
    + f_equal. rewrite <- (map_map fst g). f_equal. clear -HL. revert cs HL. induction ls as [|x ls IH]; intros [|c cs] H; cbn in *; try lia; auto. now rewrite IH by lia.
    + intros [t c] I. cbn [fst snd]. rewrite (HC c) by (now apply in_combine_r in I). apply AG. now apply in_combine_l in I.
  - assert (F' : Forall (fun n => 0 <= n) (upd gsh a (zsum l))).
    { apply Forall_forall. intros z Hz. apply (In_nth _ _ 0) in Hz as (k & Hk & <-). rewrite upd_length in Hk. destruct (Nat.eq_dec k a) as [->|N].
      - rewrite upd_same by auto. now apply zs_nonneg.
      - rewrite upd_other by auto. rewrite Forall_forall in Hn. apply Hn, nth_In; auto. }
    split; [now rewrite map_length|]. split; [auto|]. destruct sp as [s|].
    + destruct HX as (Hs' & Hc & Hsum & HX). rewrite upd_length. split; [auto|]. split; [auto|]. split; [rewrite upd_other by congruence; auto|].
      intros r t Ht. rewrite nth_error_map in Ht. destruct (nth_error ls r) as [t0|] eqn:E0; [|discriminate]. injection Ht as <-.
      specialize (HX r t0 E0). destruct (agrees_repeat dflt t0 _ _ a reps l HX) as [_ X]; rewrite ?upd_length; auto; rewrite ?upd_other by congruence; auto.
      fold (g t0) in X. rewrite upd_comm by congruence. eapply agrees_ext; [exact X|].
      intros idx Hi. unfold rep_fun, move_axis_idx. pose proof (proj1 (in_bounds_nth _ _) Hi) as [LI _]. rewrite !upd_length in LI.
      rewrite !upd_other by congruence. f_equal. now rewrite upd_comm by congruence.
    + intros t Ht. apply in_map_iff in Ht as (t0 & <- & I). now destruct (agrees_repeat dflt t0 _ _ a reps l (HX t0 I)) as [_ X].
Qed.
