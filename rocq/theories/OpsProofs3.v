(** Proofs about reductions: local reductions, then the whole of __reduce_op. *)
From Verif Require Import Base BaseLemmas LayoutModel LayoutProofs NdSpec TensorSpec TensorLemmas NdLemmas OpsModel OpsProofs2.
From Coq Require Import Permutation.
Open Scope Z_scope.

Section Red.
Variables (A : Type) (ok : A -> Prop) (op : A -> A -> A) (e : A).
Hypothesis M : comm_monoid ok op e.

Lemma reduce_steps strict axes (t0 : arr A) :
  NoDup axes -> (forall d, In d axes -> (d < length (ash t0))%nat) ->
  (strict = true -> Forall (fun n => 1 <= n) (ash t0)) ->
  (forall i, in_bounds (ash t0) i -> ok (adat t0 i)) ->
  let t := fold_left (reduce_step op e strict) axes t0 in
  agrees t (fill_axes axes 1 (ash t0)) (reduce_keep op e (adat t0) (ash t0) axes).
Proof.
  intros ND Hax Hs Hok. revert ND Hax. induction axes as [|d axes IH] using rev_ind; intros ND Hax.
  - simpl. split.
    + apply (@nth_ext2 _ _ _ 0); [now rewrite fill_axes_length|]. intros k Hk. now rewrite fill_axes_nth.
    + intros idx H. 
      assert (E0 : forall l, fill_axes [] 0 l = l).
      { intros l. apply (@nth_ext2 _ _ _ 0); [now rewrite fill_axes_length|].
        intros k Hk. rewrite fill_axes_length in Hk. now rewrite fill_axes_nth. }
      assert (H' : in_bounds (ash t0) idx).
      { replace (fill_axes [] 1 (ash t0)) with (ash t0) in H; auto.
        apply (@nth_ext2 _ _ _ 0); [now rewrite fill_axes_length|]. intros k Hk. now rewrite fill_axes_nth. }
      unfold reduce_keep.
      assert (E : filter (fun i => eqb_idx (fill_axes [] 0 i) idx) (row_major (ash t0)) = [idx]).
      { apply in_row_major in H'. apply in_split in H' as (l1 & l2 & E). pose proof (NoDup_row_major (ash t0)) as N.
        rewrite E in *. rewrite filter_app. cbn [filter]. rewrite E0. rewrite (proj2 (eqb_idx_eq idx idx) eq_refl).
        apply NoDup_remove_2 in N.
        assert (N' : forall x, In x (l1 ++ l2) -> eqb_idx (fill_axes [] 0 x) idx = false).
        { intros x Hx. rewrite E0. destruct (eqb_idx x idx) eqn:Ex; auto. apply eqb_idx_eq in Ex. now subst. }
        rewrite (proj2 (filter_nil_iff _ l1)), (proj2 (filter_nil_iff _ l2)); auto; intros; apply N', in_app_iff; auto. }
      rewrite E. cbn. symmetry. apply (op_e_r _ ok _ _ M). auto.
  - rewrite fold_left_app. cbn [fold_left].
    pose proof (NoDup_remove axes [] d ND) as [ND' Hd]. rewrite app_nil_r in ND', Hd.
    specialize (IH ND' (fun x Hx => Hax x (in_or_app _ _ _ (or_introl Hx)))).
    assert (Hdl : (d < length (ash t0))%nat) by (apply Hax, in_app_iff; right; left; auto).
    set (t := fold_left (reduce_step op e strict) axes t0) in *. cbv zeta in IH. destruct IH as [Esh Edat].
    assert (En : nth d (ash t) 0 = nth d (ash t0) 0).
    { rewrite Esh, fill_axes_nth by auto. now rewrite (proj2 (memb_nin d axes) Hd). }
    assert (Est : reduce_step op e strict t d = reduce_dim op e d t).
    { unfold reduce_step. destruct strict; [|now rewrite andb_false_r].
      rewrite andb_true_r. destruct (Z.eqb_spec (zprod (ash t)) 0) as [E|]; auto. exfalso.
      enough (1 <= zprod (ash t)) by lia. apply zprod_pos. rewrite Esh. apply Forall_forall. intros n Hn.
      apply (In_nth _ _ 0) in Hn as (k & Hk & <-). rewrite fill_axes_length in Hk. rewrite fill_axes_nth by auto.
      destruct (memb k axes); [lia|]. apply (proj1 (Forall_nth _ _) (Hs eq_refl)). auto. }
    rewrite Est. split; [simpl; rewrite fill_app_upd, Esh; auto|].
    intros idx Hidx. cbn [reduce_dim adat]. rewrite En.
    pose proof (in_bounds_length _ _ Hidx) as Lidx. rewrite fill_axes_length in Lidx.
    assert (Hb : forall j, In j (zr (nth d (ash t0) 0)) -> in_bounds (fill_axes axes 1 (ash t0)) (upd idx d j)).
    { intros j Hj. apply in_zr in Hj. rewrite fill_app_upd in Hidx. apply in_bounds_nth in Hidx as [_ Hidx].
      rewrite upd_length, fill_axes_length in Hidx. apply in_bounds_nth. rewrite upd_length, fill_axes_length. split; auto.
      intros k Hk. specialize (Hidx k Hk). destruct (Nat.eq_dec k d) as [->|Hne].
      - rewrite upd_same by lia. rewrite <- Esh, En. auto.
      - rewrite upd_other in Hidx |- * by auto. auto. }
    rewrite (map_ext_in _ (fun j => reduce_keep op e (adat t0) (ash t0) axes (upd idx d j)))
      by (intros j Hj; apply Edat; auto).
    unfold reduce_keep. 
    rewrite <- (big_partition A ok op e M (zr (nth d (ash t0) 0)) (row_major (ash t0)) (adat t0)
             (fun j i => eqb_idx (fill_axes axes 0 i) (upd idx d j)) (fun i => eqb_idx (fill_axes (axes ++ [d]) 0 i) idx)).
    + reflexivity.
    + intros i Hi. apply Hok. now apply in_row_major.
    + apply NoDup_zr.
    + intros i Hi Q. apply eqb_idx_eq in Q. apply in_row_major in Hi.
      pose proof (in_bounds_length _ _ Hi) as Li.
      exists (nth d i 0). split.
      * apply in_zr. apply in_bounds_nth in Hi as [_ Hi]. auto.
      * apply eqb_idx_eq. rewrite <- Q, fill_app_upd. apply (@nth_ext2 _ _ _ 0); [now rewrite !upd_length|].
        intros k Hk. rewrite fill_axes_length in Hk. destruct (Nat.eq_dec k d) as [->|Hne].
        -- rewrite upd_same by (rewrite upd_length, fill_axes_length; lia). rewrite fill_axes_nth by auto.
           now rewrite (proj2 (memb_nin d axes) Hd).
        -- rewrite !upd_other by auto. reflexivity.
    + intros i j Hi Hj Q. apply eqb_idx_eq in Q. apply eqb_idx_eq. rewrite fill_app_upd, Q.
      apply in_row_major in Hi. pose proof (in_bounds_length _ _ Hi) as Li.
      apply (@nth_ext2 _ _ _ 0); [now rewrite !upd_length|].
      intros k Hk. rewrite !upd_length in Hk. destruct (Nat.eq_dec k d) as [->|Hne].
      * rewrite upd_same by (rewrite upd_length; lia).
        apply in_bounds_nth in Hidx as [_ Hidx]. rewrite fill_axes_length in Hidx. specialize (Hidx d Hdl).
        rewrite fill_axes_nth in Hidx by auto. rewrite existsb_app in Hidx. simpl in Hidx.
        rewrite Nat.eqb_refl, !orb_true_r in Hidx. lia.
      * rewrite !upd_other by auto. reflexivity.
    + intros i j j' Hi Hj Hj' Q Q'. apply eqb_idx_eq in Q, Q'. rewrite Q in Q'.
      apply (f_equal (fun l => nth d l 0)) in Q'. rewrite !upd_same in Q' by lia. auto.
Qed.

Lemma losedim_drop sh axes : losedim sh axes = drop_axes axes sh.
Proof.
  unfold losedim, drop_axes, mem_nat.
  enough (G : forall i pre, length pre = i -> 
     map (fun d => nth d (pre ++ sh) 0) (filter (fun d => negb (memb d axes)) (seq i (length sh))) = drop_from i axes sh).
  { apply (G 0%nat []). reflexivity. }
  induction sh as [|n sh IH]; intros i pre Hp; [reflexivity|]. cbn [length seq filter drop_from].
  specialize (IH (S i) (pre ++ [n])). rewrite app_length, <- app_assoc in IH. simpl in IH.
  destruct (memb i axes); cbn [negb map].
  - apply IH. lia.
  - rewrite app_nth2, Hp, Nat.sub_diag by lia. cbn [nth]. f_equal. apply IH. lia.
Qed.

Lemma reshape_drop axes sh (t : arr A) F :
  agrees t (fill_axes axes 1 sh) F ->
  exists t', reshape e t (drop_axes axes sh) = Ok t' /\
    agrees t' (drop_axes axes sh) (fun idx => F (ins_from 0 axes (length sh) idx)).
Proof.
  intros [Hs Hd]. unfold reshape. rewrite Hs. unfold fill_axes, drop_axes.
  rewrite zprod_fill, Z.eqb_refl. eexists; split; [reflexivity|]. split; [reflexivity|].
  intros idx H. cbn [adat]. rewrite row_major_fill, map_map.
  rewrite nth_indep with (d' := adat t (ins_from 0 axes (length sh) [])).
  - rewrite (map_nth (fun x => adat t (ins_from 0 axes (length sh) x))). unfold ravel.
    rewrite row_major_ravel by auto. apply Hd. now apply ins_bounds.
  - rewrite map_length. unfold ravel. pose proof (dot_bounds _ _ H).
    assert (F0 : Forall (fun n => 0 <= n) (drop_from 0 axes sh)).
    { apply Forall_forall. intros n Hn. apply (In_nth _ _ 0) in Hn as (k & Hk & <-).
      apply in_bounds_nth in H as [_ H]. specialize (H k Hk). lia. }
    pose proof (row_major_length _ F0). lia.
Qed.

Lemma reduce_keep_ins axes sh (G : list Z -> A) idx : in_bounds (drop_axes axes sh) idx ->
  reduce_keep op e G sh axes (ins_from 0 axes (length sh) idx) = reduce_drop op e G sh axes idx.
Proof.
  intros H. unfold reduce_keep, reduce_drop. f_equal. f_equal. apply filter_ext_in. intros i Hi.
  apply in_row_major in Hi. pose proof (in_bounds_length _ _ Hi) as Li.
  pose proof (ins_bounds _ _ _ _ H) as B. pose proof (in_bounds_length _ _ B) as Lb. rewrite fill_from_length in Lb.
  apply eq_true_iff_eq. rewrite !eqb_idx_eq.
  rewrite <- (fill_axes_self _ _ _ B). rewrite fill_axes_eq by lia. 
  rewrite <- drop_axes_eq by lia. unfold drop_axes. rewrite drop_ins by auto. tauto.
Qed.

(** local reduction of a tensor that has nothing special about it *)
Lemma local_reduce_drop strict axes lsh (t0 : arr A) F :
  NoDup axes -> (forall d, In d axes -> (d < length (ash t0))%nat) ->
  (strict = true -> Forall (fun n => 1 <= n) (ash t0)) ->
  agrees t0 (ash t0) F -> (forall i, in_bounds (ash t0) i -> ok (F i)) ->
  length lsh = length (ash t0) -> length lsh <> 1%nat ->
  (exists d, (d < length lsh)%nat /\ ~ In d axes) ->
  (forall d, (d < length lsh)%nat -> ~ In d axes -> nth d lsh 0 = nth d (ash t0) 0) ->
  exists p, local_reduce op e strict lsh (Some axes) false t0 = Ok p /\
    agrees p (drop_axes axes lsh) (reduce_drop op e F (ash t0) axes).
Proof.
  intros ND Hax Hs HF Hok Ll L1 (d0 & Hd0 & Hn0) Hsame.
  assert (Hok' : forall i, in_bounds (ash t0) i -> ok (adat t0 i)) by (intros i Hi; rewrite (proj2 HF); auto).
  pose proof (reduce_steps strict axes t0 ND Hax Hs Hok') as [Psh Pdat].
  unfold local_reduce. set (p := fold_left (reduce_step op e strict) axes t0) in *.
  rewrite Psh, fill_axes_length, <- Ll. rewrite (proj2 (Nat.eqb_neq _ _) L1). cbn [negb andb].
  rewrite losedim_drop.
  assert (Hsh : drop_axes axes lsh = drop_axes axes (ash t0)).
  { apply drop_axes_eq; [auto|]. intros k Hk Hn. apply Hsame; auto. }
  assert (Hl0 : (0 < length lsh)%nat) by lia.
  assert (E1 : mem_nat 0 axes && negb (nth 0 (fill_axes axes 1 (ash t0)) 0 =? 1) = false).
  { unfold mem_nat. rewrite fill_axes_nth by lia. destruct (memb 0 axes); auto. }
  assert (E2 : negb (mem_nat 0 axes) && negb (nth 0 (fill_axes axes 1 (ash t0)) 0 =? nth 0 lsh 0) = false).
  { unfold mem_nat. rewrite fill_axes_nth by lia. destruct (memb 0 axes) eqn:E0; auto.
    rewrite Hsame; [|lia|now apply memb_nin]. now rewrite Z.eqb_refl. }
  rewrite E1, E2. rewrite Hsh.
  destruct (reshape_drop axes (ash t0) p (reduce_keep op e (adat t0) (ash t0) axes)) as (t' & Et & At).
  { split; auto. }
  exists t'. split.
  - destruct (drop_axes axes (ash t0)) eqn:ED; [|exact Et]. exfalso.
    assert (X : nth (d0 - length (filter (fun j => memb j axes) (seq 0 d0))) (drop_axes axes (map (fun _ => 1) lsh)) 0 = 1).
    { unfold drop_axes. rewrite drop_from_nth; [|now rewrite map_length|auto].
      rewrite nth_indep with (d' := 1) by (now rewrite map_length). apply (map_nth (fun _ : Z => 1) lsh 0). }
    assert (E' : length (drop_axes axes (map (fun _ => 1) lsh)) = length (drop_axes axes (ash t0))).
    { unfold drop_axes. assert (Lm : length (map (fun _ => 1) lsh) = length (ash t0)) by (now rewrite map_length).
      revert Lm. generalize (map (fun _ => 1) lsh) as a, (ash t0) as b. clear. generalize 0%nat as i.
      intros i a; revert i; induction a as [|x a IH]; intros i [|y b] L; simpl in *; try discriminate; auto.
      destruct (memb i axes); simpl; auto. }
    rewrite ED in E'. destruct (drop_axes axes (map (fun _ => 1) lsh)); [|discriminate E'].
    destruct (d0 - _)%nat in X; discriminate X.
  - destruct At as [As Ad]. split; auto. intros idx Hidx. rewrite Ad by auto.
    rewrite reduce_keep_ins by auto. unfold reduce_drop. f_equal. apply map_ext_in. intros i Hi.
    apply filter_In in Hi as [Hi _]. apply in_row_major in Hi. now apply HF.
Qed.

Lemma local_reduce_keep strict axes lsh (t0 : arr A) F keepdims :
  NoDup axes -> (forall d, In d axes -> (d < length (ash t0))%nat) ->
  (strict = true -> Forall (fun n => 1 <= n) (ash t0)) ->
  agrees t0 (ash t0) F -> (forall i, in_bounds (ash t0) i -> ok (F i)) ->
  keepdims = true \/ length (ash t0) = 1%nat ->
  exists p, local_reduce op e strict lsh (Some axes) keepdims t0 = Ok p /\
    agrees p (fill_axes axes 1 (ash t0)) (reduce_keep op e F (ash t0) axes).
Proof.
  intros ND Hax Hs HF Hok Hk.
  assert (Hok' : forall i, in_bounds (ash t0) i -> ok (adat t0 i)) by (intros i Hi; rewrite (proj2 HF); auto).
  pose proof (reduce_steps strict axes t0 ND Hax Hs Hok') as [Psh Pdat].
  unfold local_reduce. set (p := fold_left (reduce_step op e strict) axes t0) in *.
  rewrite Psh, fill_axes_length. exists p. split.
  - destruct Hk as [->|Hk]; [reflexivity|]. rewrite Hk. cbn [Nat.eqb negb]. rewrite andb_false_r. reflexivity.
  - split; auto. intros idx Hidx. rewrite Pdat by auto. unfold reduce_keep. f_equal. apply map_ext_in. intros i Hi.
    apply filter_In in Hi as [Hi _]. apply in_row_major in Hi. now apply HF.
Qed.
End Red.
