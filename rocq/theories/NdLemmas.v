(** Lemmas about removing / filling axes and row-major positions. *)
From Verif Require Import Base BaseLemmas NdSpec TensorSpec TensorLemmas.
Open Scope Z_scope.

Notation memb k l := (existsb (Nat.eqb k) l).

Lemma memb_in k l : memb k l = true <-> In k l.
Proof.
  rewrite existsb_exists. split.
  - intros (x & H & E). apply Nat.eqb_eq in E. now subst.
  - intros H. exists k. split; auto. apply Nat.eqb_refl.
Qed.
Lemma memb_nin k l : memb k l = false <-> ~ In k l.
Proof. rewrite <- memb_in. destruct (memb k l); split; intros; congruence. Qed.
Lemma eqb_idx_eq a b : eqb_idx a b = true <-> a = b.
Proof.
  revert b; induction a as [|x a IH]; intros [|y b]; simpl; split; intros H; try congruence; auto.
  - apply andb_true_iff in H as [H1 H2]. apply IH in H2. f_equal; [lia|auto].
  - injection H as -> ->. rewrite Z.eqb_refl. simpl. now apply IH.
Qed.

Lemma fill_from_length {A} i axes (v : A) l : length (fill_from i axes v l) = length l.
Proof. revert i; induction l; intros; simpl; auto. Qed.
Lemma fill_from_nth {A} i axes (v : A) l k d : (k < length l)%nat ->
  nth k (fill_from i axes v l) d = if memb (i + k)%nat axes then v else nth k l d.
Proof.
  revert i k; induction l as [|x l IH]; intros i k Hk; simpl in *; [lia|].
  destruct k; [now rewrite Nat.add_0_r|].
  rewrite IH by lia. now rewrite <- Nat.add_succ_comm.
Qed.
Lemma fill_axes_length {A} axes (v : A) l : length (fill_axes axes v l) = length l.
Proof. apply fill_from_length. Qed.
Lemma fill_axes_nth {A} axes (v : A) l k d : (k < length l)%nat ->
  nth k (fill_axes axes v l) d = if memb k axes then v else nth k l d.
Proof. intros. unfold fill_axes. now rewrite fill_from_nth. Qed.

Definition agree_off (axes : list nat) (n : nat) (a b : list Z) : Prop :=
  forall k, (k < n)%nat -> ~ In k axes -> nth k a 0 = nth k b 0.

Lemma drop_from_eq i axes a b : length a = length b ->
  (drop_from i axes a = drop_from i axes b <->
   forall k, (k < length a)%nat -> ~ In (i + k)%nat axes -> nth k a 0 = nth k b 0).
Proof.
  revert i b; induction a as [|x a IH]; intros i [|y b] L; simpl in *; try discriminate.
  { split; intros; auto; lia. }
  injection L as L.
  assert (S1 : forall k, (i + S k = S i + k)%nat) by (intros; lia).
  destruct (memb i axes) eqn:E.
  - rewrite IH by auto. split; intros H k.
    + intros Hk Hn. destruct k; [apply memb_in in E; rewrite Nat.add_0_r in Hn; contradiction|].
      apply H; [lia|now rewrite <- S1].
    + intros Hk Hn. apply (H (S k)); [lia|now rewrite S1].
  - apply memb_nin in E. split.
    + intros H. injection H as -> H. rewrite (IH (S i) b) in H by auto. intros k Hk Hn. destruct k; auto.
      apply H; [lia|now rewrite <- S1].
    + intros H. rewrite (H 0%nat); [|lia|now rewrite Nat.add_0_r]. f_equal. apply IH; auto.
      intros k Hk Hn. apply (H (S k)); [lia|now rewrite S1].
Qed.
Lemma drop_axes_eq axes a b : length a = length b ->
  (drop_axes axes a = drop_axes axes b <-> agree_off axes (length a) a b).
Proof. apply drop_from_eq. Qed.
Lemma fill_axes_eq axes v a b : length a = length b ->
  (fill_axes axes v a = fill_axes axes v b <-> agree_off axes (length a) a b).
Proof.
  intros L. split.
  - intros H k Hk Hn. apply (f_equal (fun l => nth k l 0)) in H. rewrite !fill_axes_nth in H by lia.
    apply memb_nin in Hn. now rewrite Hn in H.
  - intros H. apply (@nth_ext2 _ _ _ 0); [now rewrite !fill_axes_length|].
    intros k Hk. rewrite fill_axes_length in Hk. rewrite !fill_axes_nth by lia.
    destruct (memb k axes) eqn:E; auto. apply H; auto. now apply memb_nin.
Qed.

Lemma fill_axes_self axes sh idx : in_bounds (fill_axes axes 1 sh) idx -> fill_axes axes 0 idx = idx.
Proof.
  intros H. pose proof (in_bounds_length _ _ H) as L. rewrite fill_axes_length in L.
  apply in_bounds_nth in H as [_ H]. rewrite fill_axes_length in H.
  apply (@nth_ext2 _ _ _ 0); [now rewrite fill_axes_length|].
  intros k Hk. rewrite fill_axes_length in Hk. rewrite fill_axes_nth by auto.
  destruct (memb k axes) eqn:E; auto. specialize (H k ltac:(lia)).
  rewrite fill_axes_nth, E in H by lia. lia.
Qed.

Lemma in_bounds_upd sh idx k v : in_bounds sh idx -> 0 <= v < nth k sh 0 -> in_bounds sh (upd idx k v).
Proof.
  rewrite !in_bounds_nth. intros [L H] Hv. rewrite upd_length. split; auto.
  intros i Hi. destruct (Nat.eq_dec i k) as [->|Hne].
  - rewrite upd_same by lia. auto.
  - rewrite upd_other by auto. auto.
Qed.

Lemma fill_app_upd axes d v (sh : list Z) : fill_axes (axes ++ [d]) v sh = upd (fill_axes axes v sh) d v.
Proof.
  apply (@nth_ext2 _ _ _ 0); [now rewrite upd_length, !fill_axes_length|].
  intros k Hk. rewrite fill_axes_length in Hk. rewrite fill_axes_nth, existsb_app by auto. simpl.
  destruct (Nat.eq_dec k d) as [->|Hne].
  - rewrite Nat.eqb_refl. rewrite upd_same by (now rewrite fill_axes_length). now rewrite !orb_true_r.
  - apply Nat.eqb_neq in Hne as E. rewrite E. rewrite upd_other by auto. rewrite fill_axes_nth by auto. now rewrite !orb_false_r.
Qed.

(** positions in row-major order *)
Lemma row_major_ravel sh idx d : in_bounds sh idx ->
  nth (Z.to_nat (dot idx (cstrides sh))) (row_major sh) d = idx.
Proof.
  intros H. assert (Hin := proj2 (in_row_major sh idx) H).
  apply (In_nth _ _ d) in Hin as (p & Hp & E).
  assert (F : Forall (fun n => 0 <= n) sh).
  { apply Forall_forall. intros n Hn. apply (In_nth _ _ 0) in Hn as (k & Hk & <-).
    apply in_bounds_nth in H as [_ H]. specialize (H k Hk). lia. }
  pose proof (cstrides_offsets sh F) as C.
  apply (f_equal (fun l => nth p l 0)) in C.
  rewrite nth_indep with (d' := dot d (cstrides sh)) in C by (now rewrite map_length).
  rewrite (map_nth (fun i => dot i (cstrides sh))) in C. rewrite E in C. rewrite C.
  assert (Hp' : (p < Z.to_nat (zprod sh))%nat).
  { pose proof (row_major_length sh F). lia. }
  unfold zr. rewrite nth_indep with (d' := Z.of_nat 0) by (now rewrite map_length, seq_length).
  rewrite map_nth, seq_nth by auto. rewrite Nat2Z.id. exact E.
Qed.

(** re-insert zeros at the dropped positions *)
Fixpoint ins_from (i : nat) (axes : list nat) (n : nat) (l : list Z) : list Z :=
  match n with
  | O => []
  | S n' => if memb i axes then 0 :: ins_from (S i) axes n' l
            else hd 0 l :: ins_from (S i) axes n' (tl l)
  end.
Lemma row_major_fill i axes sh :
  row_major (fill_from i axes 1 sh) = map (ins_from i axes (length sh)) (row_major (drop_from i axes sh)).
Proof.
  revert i; induction sh as [|n sh IH]; intros i; [reflexivity|].
  cbn [fill_from drop_from length ins_from]. destruct (memb i axes).
  - cbn [row_major]. rewrite zr_1. cbn [flat_map]. rewrite app_nil_r, IH, map_map. reflexivity.
  - cbn [row_major]. rewrite map_flat_map. apply flat_map_ext_in. intros j _.
    rewrite IH, !map_map. reflexivity.
Qed.
Lemma drop_ins i axes sh idx : in_bounds (drop_from i axes sh) idx ->
  drop_from i axes (ins_from i axes (length sh) idx) = idx.
Proof.
  revert i idx; induction sh as [|n sh IH]; intros i idx H; cbn [length ins_from drop_from] in *.
  - inversion H. reflexivity.
  - destruct (memb i axes) eqn:E; cbn [drop_from]; rewrite E.
    + now apply IH.
    + inversion H; subst. simpl. f_equal. now apply IH.
Qed.
Lemma ins_bounds i axes sh idx : in_bounds (drop_from i axes sh) idx ->
  in_bounds (fill_from i axes 1 sh) (ins_from i axes (length sh) idx).
Proof.
  revert i idx; induction sh as [|n sh IH]; intros i idx H; cbn [length ins_from drop_from fill_from] in *.
  - constructor.
  - destruct (memb i axes) eqn:E.
    + constructor; [lia|]. now apply IH.
    + inversion H; subst. constructor; auto. now apply IH.
Qed.
Lemma zprod_fill i axes sh : zprod (fill_from i axes 1 sh) = zprod (drop_from i axes sh).
Proof.
  revert i; induction sh as [|n sh IH]; intros i; [reflexivity|].
  cbn [fill_from drop_from]. destruct (memb i axes); cbn [zprod]; rewrite IH; lia.
Qed.

(** the list of surviving axes; position of a surviving axis *)
Lemma drop_from_nth {A} i axes (l : list A) k d : (k < length l)%nat -> ~ In (i + k)%nat axes ->
  nth (k - length (filter (fun j => memb j axes) (seq i k))) (drop_from i axes l) d = nth k l d.
Proof.
  revert i k; induction l as [|x l IH]; intros i k Hk Hn; simpl in Hk; [lia|].
  destruct k as [|k].
  - rewrite Nat.add_0_r in Hn. apply memb_nin in Hn. cbn [drop_from]. rewrite Hn. reflexivity.
  - cbn [seq filter]. rewrite <- Nat.add_succ_comm in Hn. specialize (IH (S i) k ltac:(lia) Hn).
    cbn [drop_from nth]. destruct (memb i axes) eqn:E.
    + cbn [length]. rewrite <- IH. f_equal. 
    + assert (length (filter (fun j => memb j axes) (seq (S i) k)) <= k)%nat.
      { rewrite <- (seq_length k (S i)) at 2. apply filter_length_le'. }
      replace (S k - length (filter (fun j => memb j axes) (seq (S i) k)))%nat
        with (S (k - length (filter (fun j => memb j axes) (seq (S i) k)))) by lia.
      cbn [nth]. exact IH.
Qed.
