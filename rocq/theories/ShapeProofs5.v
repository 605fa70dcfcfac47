(** moveaxis, swapaxes, flatten, stack. *)
From Verif Require Import Base ShapeSpec BaseLemmas LayoutModel LayoutProofs NdSpec TensorSpec TensorLemmas NdLemmas OpsModel OpsProofs2 OpsProofs3 OpsProofs4 OpsProofs5 OpsProofs6 RedistModel RedistProofs ShapeModel ShapeProofs ShapeProofs2 ShapeProofs3 ShapeProofs4.
From Coq Require Import Permutation Sorted.
Open Scope Z_scope.

(** * the order computed by moveaxis *)
Lemma NoDup_app_intro {A} (a b : list A) : NoDup a -> NoDup b -> (forall x, In x a -> In x b -> False) -> NoDup (a ++ b).
Proof.
  induction a as [|x a IH]; simpl; intros Ha Hb H; auto. inversion Ha; subst. constructor.
  - rewrite in_app_iff. intros [Q|Q]; [contradiction|eapply H; eauto].
  - apply IH; auto. intros y Hy. apply H. auto.
Qed.
Lemma drop_from_mem {A} i a b (l : list A) : (forall k, In k a <-> In k b) -> drop_from i a l = drop_from i b l.
Proof.
  intros H. revert i; induction l as [|x l IH]; intros i; simpl; auto.
  replace (memb i a) with (memb i b); [now rewrite !IH|].
  destruct (memb i b) eqn:E; symmetry; [apply memb_in, H, memb_in; auto|apply memb_nin; rewrite H; now apply memb_nin].
Qed.
Lemma drop_from_seq axes n : forall i, drop_from i axes (seq i n) = filter (fun k => negb (memb k axes)) (seq i n).
Proof.
  induction n as [|n IH]; intros i; simpl; auto. destruct (memb i axes); simpl; rewrite IH; auto.
Qed.
Lemma drop_axes_seq axes n : drop_axes axes (seq 0 n) = filter (fun k => negb (memb k axes)) (seq 0 n).
Proof. apply drop_from_seq. Qed.

Definition ins_all (ps : list (nat * nat)) (base : list nat) : list nat :=
  fold_left (fun o p => py_insert o (fst p) (snd p)) ps base.
Lemma ins_all_snoc ps p base : ins_all (ps ++ [p]) base = py_insert (ins_all ps base) (fst p) (snd p).
Proof. unfold ins_all. now rewrite fold_left_app. Qed.
Lemma ins_all_length ps base : length (ins_all ps base) = (length base + length ps)%nat.
Proof.
  induction ps as [|p ps IH] using rev_ind; [simpl; lia|].
  rewrite ins_all_snoc, py_insert_length, IH, app_length. simpl. lia.
Qed.
Lemma py_insert_perm {A} (l : list A) k x : Permutation (py_insert l k x) (x :: l).
Proof. unfold py_insert. rewrite <- Permutation_middle, firstn_skipn. auto. Qed.
Lemma ins_all_perm ps base : Permutation (ins_all ps base) (map snd ps ++ base).
Proof.
  induction ps as [|p ps IH] using rev_ind; [simpl; auto|].
  rewrite ins_all_snoc, py_insert_perm, IH, map_app. simpl. rewrite <- app_assoc. simpl. apply Permutation_middle.
Qed.
Lemma sorted_snoc (l : list nat) x : StronglySorted lt (l ++ [x]) -> StronglySorted lt l /\ Forall (fun y => (y < x)%nat) l.
Proof.
  induction l as [|y l IH]; simpl; intros H; [split; constructor|]. inversion H as [|? ? H1 H2]; subst.
  destruct (IH H1) as [S F]. apply Forall_app in H2 as [H2 H3]. inversion H3; subst. split; constructor; auto.
Qed.
Lemma sorted_bound (l : list nat) n x : StronglySorted lt (l ++ [x]) -> (forall k, In k (l ++ [x]) -> (k < n + length (l ++ [x]))%nat) ->
  forall k, In k l -> (k < n + length l)%nat.
Proof.
  intros S B k Hk. apply sorted_snoc in S as [_ F]. rewrite Forall_forall in F. specialize (F k Hk).
  specialize (B x ltac:(apply in_or_app; right; left; auto)). rewrite app_length in B. simpl in B. lia.
Qed.
Lemma ins_all_spec ps base : StronglySorted lt (map fst ps) ->
  (forall k, In k (map fst ps) -> (k < length base + length ps)%nat) ->
  drop_axes (map fst ps) (ins_all ps base) = base /\
  forall k v, In (k, v) ps -> nth k (ins_all ps base) 0%nat = v.
Proof.
  induction ps as [|p ps IH] using rev_ind; intros S B.
  - split; [|intros ? ? []]. simpl. unfold ins_all. simpl. unfold drop_axes.
    generalize 0%nat. induction base; intros i; simpl; auto. now rewrite IHbase.
  - rewrite map_app in S, B. simpl in S, B. pose proof (sorted_snoc _ _ S) as [S1 F].
    assert (Lp : (fst p <= length (ins_all ps base))%nat).
    { rewrite ins_all_length. specialize (B (fst p) ltac:(apply in_or_app; right; left; auto)).
      rewrite app_length in B. simpl in B. lia. }
    destruct IH as [D N]; auto.
    { intros k Hk. replace (length ps) with (length (map fst ps)) by apply map_length.
      eapply sorted_bound; eauto. intros j Hj. specialize (B j Hj). rewrite app_length in *. simpl in *.
      rewrite map_length. lia. }
    rewrite map_app, ins_all_snoc. simpl. split.
    + rewrite drop_axes_snoc.
      * rewrite remove_insert by auto. auto.
      * intros j Hj. rewrite Forall_forall in F. auto.
      * rewrite py_insert_length. lia.
    + intros k v Hin. rewrite py_insert_nth by auto. apply in_app_or in Hin as [Hin|[->|[]]].
      * rewrite Forall_forall in F. assert (k < fst p)%nat by (apply F; apply in_map_iff; exists (k, v); auto).
        destruct (Nat.ltb_spec k (fst p)); [|lia]. auto.
      * simpl. rewrite Nat.ltb_irrefl, Nat.eqb_refl. auto.
Qed.
Lemma insert_pair_perm p l : Permutation (insert_pair p l) (p :: l).
Proof.
  induction l as [|q l IH]; simpl; auto. destruct (_ || _); auto. rewrite IH. apply perm_swap.
Qed.
Lemma sort_pairs_perm l : Permutation (sort_pairs l) l.
Proof. induction l as [|p l IH]; simpl; auto. now rewrite insert_pair_perm, IH. Qed.
Lemma insert_pair_sorted p l : ~ In (fst p) (map fst l) -> StronglySorted lt (map fst l) -> StronglySorted lt (map fst (insert_pair p l)).
Proof.
  induction l as [|q l IH]; simpl; intros N S; [repeat constructor|].
  inversion S as [|? ? S1 F]; subst.
  destruct ((fst p <? fst q)%nat || _) eqn:E; simpl.
  - assert (fst p < fst q)%nat by (destruct (Nat.ltb_spec (fst p) (fst q)); [auto|simpl in E; destruct (Nat.eqb_spec (fst p) (fst q)); [exfalso; apply N; auto|discriminate]]).
    constructor; auto. constructor; auto. rewrite Forall_forall in *. intros x Hx. specialize (F x Hx). lia.
  - constructor; [apply IH; auto|]. rewrite Forall_forall in *. intros x Hx.
    eapply Permutation_in in Hx; [|apply Permutation_map, insert_pair_perm]. destruct Hx as [<-|Hx]; auto.
    destruct (Nat.ltb_spec (fst p) (fst q)); [discriminate|]. assert (fst p <> fst q) by (intros Q; apply N; auto). lia.
Qed.
Lemma sort_pairs_sorted l : NoDup (map fst l) -> StronglySorted lt (map fst (sort_pairs l)).
Proof.
  induction l as [|p l IH]; simpl; intros H; [constructor|]. inversion H; subst. apply insert_pair_sorted; auto.
  intros Q. apply H2. eapply Permutation_in; [apply Permutation_map, sort_pairs_perm|auto].
Qed.
Lemma map_fst_combine {A B} (a : list A) (b : list B) : length a = length b -> map fst (combine a b) = a.
Proof. revert b; induction a as [|x a IH]; intros [|y b]; simpl; intros; try lia; auto. rewrite IH; auto. Qed.
Lemma map_snd_combine {A B} (a : list A) (b : list B) : length a = length b -> map snd (combine a b) = b.
Proof. revert b; induction a as [|x a IH]; intros [|y b]; simpl; intros; try lia; auto. rewrite IH; auto. Qed.
Lemma combine_nth_in {A B} (a : list A) (b : list B) i x y : nth_error a i = Some x -> nth_error b i = Some y -> In (x, y) (combine a b).
Proof. revert b i; induction a as [|u a IH]; intros [|v b] [|i]; simpl; intros; try discriminate; [left; congruence|right; eauto]. Qed.

Lemma moveaxis_order_spec n src dst : length src = length dst -> NoDup src -> NoDup dst ->
  (forall k, In k src -> (k < n)%nat) -> (forall k, In k dst -> (k < n)%nat) ->
  let o := moveaxis_order n src dst in
  perm_axes n o /\
  (forall i s d, nth_error src i = Some s -> nth_error dst i = Some d -> nth d o 0%nat = s) /\
  drop_axes dst o = drop_axes src (seq 0 n).
Proof.
  intros HL Ns Nd Bs Bd. set (o := moveaxis_order n src dst).
  set (ps := sort_pairs (combine dst src)). set (base := filter (fun k => negb (mem_nat k src)) (seq 0 n)).
  change o with (ins_all ps base).
  assert (Pp : Permutation ps (combine dst src)) by apply sort_pairs_perm.
  assert (F1 : Permutation (map fst ps) dst) by (rewrite Pp, map_fst_combine; auto).
  assert (F2 : Permutation (map snd ps) src) by (rewrite Pp, map_snd_combine; auto).
  assert (PB : Permutation (src ++ base) (seq 0 n)).
  { apply NoDup_Permutation.
    - apply NoDup_app_intro; auto. apply NoDup_filter, seq_NoDup.
      intros x Hx Hb. apply filter_In in Hb as [_ Hb]. unfold mem_nat in Hb. rewrite (proj2 (memb_in x src) Hx) in Hb. discriminate.
    - apply seq_NoDup.
    - intros x. rewrite in_app_iff, in_seq. unfold base. rewrite filter_In, in_seq. split.
      + intros [H|[H _]]; [specialize (Bs x H); lia|lia].
      + intros H. destruct (memb x src) eqn:E; [left; now apply memb_in|right]. split; auto.
        unfold mem_nat. rewrite E. auto. }
  assert (PO : Permutation (ins_all ps base) (seq 0 n)) by (rewrite ins_all_perm, F2; auto).
  assert (LB : (length base + length ps = n)%nat).
  { apply Permutation_length in PB. rewrite app_length, seq_length in PB.
    rewrite <- (map_length snd ps), (Permutation_length F2). lia. }
  assert (S : StronglySorted lt (map fst ps)).
  { apply sort_pairs_sorted. rewrite map_fst_combine; auto. }
  destruct (ins_all_spec ps base S) as [D N].
  { intros k Hk. rewrite LB. apply Bd. eapply Permutation_in; eauto. }
  split; [|split].
  - split; [|split].
    + now rewrite (Permutation_length PO), seq_length.
    + eapply Permutation_NoDup; [symmetry; eauto|apply seq_NoDup].
    + intros k. split; intros H.
      * eapply Permutation_in in H; [|eauto]. apply in_seq in H. lia.
      * eapply Permutation_in; [symmetry; eauto|]. apply in_seq. lia.
  - intros i s d E1 E2. apply N. eapply Permutation_in; [symmetry; eauto|]. eapply combine_nth_in; eauto.
  - rewrite drop_axes_seq. change (drop_axes dst (ins_all ps base) = base). rewrite <- D at 2.
    apply drop_from_mem. intros k. split; intros; [eapply Permutation_in; [symmetry|]; eauto|eapply Permutation_in; eauto].
Qed.
