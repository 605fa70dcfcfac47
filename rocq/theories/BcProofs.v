(** broadcast_to and broadcast_arrays: proofs. *)
From Verif Require Import Base ShapeSpec BaseLemmas LayoutModel NdSpec TensorSpec TensorLemmas NdLemmas OpsModel OpsProofs4 RedistModel ShapeModel ShapeProofs3 ShapeProofs4 ShapeProps BinSpec BinModel BinProofs BinProofs2 BinProofs3 BinProps CloseProofs2 VmapProofs BinOutModel BinOutProofs BinOutProps BcSpec BcModel.
Open Scope Z_scope.

Lemma padded_length n sh : (length sh <= n)%nat -> length (padded n sh) = n.
Proof. intros H. unfold padded. rewrite app_length, repeat_length. lia. Qed.
Lemma padded_self sh : padded (length sh) sh = sh.
Proof. unfold padded. now rewrite Nat.sub_diag. Qed.
Lemma nth_padded n sh s : nth (n - length sh + s) (padded n sh) 0 = nth s sh 0.
Proof. unfold padded. rewrite app_nth2; rewrite repeat_length; [f_equal; lia|lia]. Qed.

Lemma nth_skipn_ {A} (l : list A) : forall a k d, nth k (skipn a l) d = nth (a + k) l d.
Proof. induction l as [|v l IH]; intros [|a] k d; cbn [skipn]; auto; [destruct k; destruct (S a + _)%nat; reflexivity|]. cbn [Nat.add nth]. apply IH. Qed.
(** expanding one tensor *)
Lemma expand_ok {A} (t : arr A) shape : bcast_shape (ash t) shape shape -> expand t shape = Ok (mk_arr shape (fun idx => adat t (clamp (ash t) (skipn (length shape - length (ash t)) idx)))).
Proof.
  intros H. unfold expand. rewrite (proj2 (bshapes_ok _ _ _) H), eqb_idx_refl. reflexivity.
Qed.
Lemma expand_err {A} (t : arr A) shape : ~ bcast_shape (ash t) shape shape -> expand t shape = Err RuntimeError.
Proof.
  intros H. unfold expand. destruct (bshapes (ash t) shape) as [o|e] eqn:E; [|reflexivity]. destruct (eqb_idx o shape) eqn:EQ; [|reflexivity].
  apply eqb_idx_eq in EQ. subst o. apply bshapes_ok in E. contradiction.
Qed.
Lemma bcast_in sh shape idx : bcast_shape sh shape shape -> in_bounds shape idx -> in_bounds sh (clamp sh (skipn (length shape - length sh) idx)).
Proof.
  intros [L H] Hi. pose proof (in_bounds_length _ _ Hi) as LI. apply in_bounds_nth in Hi as [_ Hi].
  assert (LS : length (skipn (length shape - length sh) idx) = length sh) by (rewrite skipn_length; lia).
  apply in_bounds_nth. rewrite clamp_length by lia. split; [exact LS || lia|]. intros i Hi'. rewrite clamp_nth by lia.
  specialize (H (length shape - length sh + i)%nat ltac:(lia)). rewrite padded_self in H.
  rewrite (nth_indep _ 1 0) in H by (rewrite padded_length; lia). rewrite nth_padded in H. rewrite (nth_indep shape 1 0) in H by lia.
  specialize (Hi (length shape - length sh + i)%nat ltac:(lia)). rewrite nth_skipn_. unfold bcast_dim in H. destruct (Z.eqb_spec (nth i sh 0) 1); lia.
Qed.
Lemma expand_agrees {A} (t : arr A) sh (G : list Z -> A) shape : agrees t sh G -> bcast_shape sh shape shape ->
  exists z, expand t shape = Ok z /\ agrees z shape (fun idx => G (bcast_idx sh idx)).
Proof.
  intros [S D] H. rewrite expand_ok by (rewrite S; exact H). eexists. split; [reflexivity|]. split; [reflexivity|]. intros idx Hi. cbn [adat]. rewrite S.
  pose proof (in_bounds_length _ _ Hi) as LI. rewrite D by (apply bcast_in; auto). unfold bcast_idx. now rewrite LI.
Qed.

Lemma zeros_rep {A} (z : A) P shape s : (0 < P)%nat -> (s < length shape)%nat -> Forall (fun n => 0 <= n) shape ->
  rep (b_arr (zeros_split z P shape s)) (zcounts (nth s shape 0) P) (fun _ => z) /\ flag_ok (zeros_split z P shape s) (zcounts (nth s shape 0) P) /\ length (d_locals (b_arr (zeros_split z P shape s))) = P.
Proof.
  intros HP Hs Hn. assert (H0 : 0 <= nth s shape 0) by (rewrite Forall_forall in Hn; apply Hn, nth_In; auto). destruct (zcounts_ok (nth s shape 0) P HP H0) as (L & Hc & Hsum).
  unfold rep, zeros_split, flag_ok. cbn [b_arr b_flag d_gshape d_split d_locals]. split; [|split].
  - split; [apply map_length|]. split; [exact Hn|]. split; [exact Hs|]. split; [exact Hc|]. split; [exact Hsum|]. intros r t E. rewrite nth_error_map in E. destruct (nth_error _ r) as [c|] eqn:Ec; [|discriminate E]. injection E as <-.
    split; [|reflexivity]. cbn [ash]. f_equal. symmetry. now apply nth_error_nth.
  - intros _. rewrite map_length, L. reflexivity.
  - rewrite map_length. exact L.
Qed.

(** joint shapes *)
Definition mx (a b : Z) : Z := if a =? 1 then b else a.
Fixpoint mxs (a b : list Z) : list Z := match a, b with x :: a', y :: b' => mx x y :: mxs a' b' | _, _ => [] end.
Lemma mxs_length a : forall b, length a = length b -> length (mxs a b) = length a.
Proof. induction a as [|x a IH]; intros [|y b] H; cbn in *; try lia. now rewrite IH by lia. Qed.
Lemma mxs_nth a : forall b i, length a = length b -> (i < length a)%nat -> nth i (mxs a b) 0 = mx (nth i a 0) (nth i b 0).
Proof. induction a as [|x a IH]; intros [|y b] [|i] H Hi; cbn in *; try lia; auto. apply IH; lia. Qed.
Lemma bshapes_ones g : bshapes [] g = Ok g.
Proof.
  apply bshapes_ok. split; [reflexivity|]. intros i Hi. rewrite padded_self. unfold padded. cbn [length]. rewrite Nat.sub_0_r, app_nil_r. right. left. split; [|reflexivity].
  apply nth_repeat.
Qed.
Lemma fold_joint gs : forall acc o, jointly (acc :: gs) o -> fold_left (fun acc sh => do a <- acc; bshapes a sh) gs (Ok acc) = Ok o.
Proof.
  induction gs as [|g gs IH]; intros acc o [HL HJ]; cbn [fold_left].
  - f_equal. apply (@nth_ext2 _ _ _ 0); [apply HL; now left|]. intros i Hi. rewrite (HL acc (or_introl eq_refl)) in Hi. destruct (HJ i Hi) as [H1 H2]. destruct (H1 acc (or_introl eq_refl)) as [|E]; [auto|].
    destruct H2 as [E2|(g & [<-|[]] & E2)]; lia.
  - cbn [bind]. assert (La : length acc = length o) by (apply HL; now left). assert (Lg : length g = length o) by (apply HL; right; now left).
    assert (EB : bshapes acc g = Ok (mxs acc g)).
    { apply bshapes_ok. split; [rewrite mxs_length by lia; lia|]. rewrite mxs_length by lia. intros i Hi. replace (length acc) with (length g) at 2 by lia. rewrite !padded_self.
      rewrite (nth_indep acc 1 0), (nth_indep g 1 0), (nth_indep (mxs acc g) 1 0) by (rewrite ?mxs_length; lia). rewrite mxs_nth by lia. destruct (HJ i ltac:(lia)) as [H1 _].
      pose proof (H1 acc (or_introl eq_refl)). pose proof (H1 g (or_intror (or_introl eq_refl))). unfold bcast_dim, mx. destruct (Z.eqb_spec (nth i acc 0) 1); lia. }
    rewrite EB. apply IH. split.
    + intros k [<-|Hk]; [rewrite mxs_length by lia; auto|apply HL; right; now right].
    + intros i Hi. destruct (HJ i Hi) as [H1 H2]. pose proof (H1 acc (or_introl eq_refl)) as Ha. pose proof (H1 g (or_intror (or_introl eq_refl))) as Hg.
      assert (En : nth i (mxs acc g) 0 = mx (nth i acc 0) (nth i g 0)) by (apply mxs_nth; lia). split.
      * intros k [<-|Hk]; [rewrite En; unfold mx; destruct (_ =? 1); auto|apply H1; right; now right].
      * destruct (Z.eqb_spec (nth i o 0) 1) as [|Ne]; [now left|]. right. destruct H2 as [|(k & Hk & Ek)]; [contradiction|].
        destruct Hk as [<-|[<-|Hk]]; [exists (mxs acc g)|exists (mxs acc g)|exists k; split; [now right|auto]]; (split; [now left|]); rewrite En; unfold mx; destruct (Z.eqb_spec (nth i acc 0) 1); lia.
Qed.
Lemma fold_shapes_ok gs o : gs <> [] -> jointly gs o -> fold_shapes gs = Ok o.
Proof. intros Hn HJ. destruct gs as [|g gs]; [contradiction|]. unfold fold_shapes. cbn [fold_left bind]. rewrite bshapes_ones. now apply fold_joint. Qed.
Lemma jointly_one gs o g : jointly gs o -> In g gs -> bcast_shape g o o.
Proof.
  intros [HL HJ] Hg. pose proof (HL g Hg) as L. split; [lia|]. intros i Hi. rewrite padded_self. replace (length o) with (length g) by lia. rewrite padded_self.
  destruct (HJ i Hi) as [H1 _]. specialize (H1 g Hg). rewrite (nth_indep g 1 0), (nth_indep o 1 0) by lia. unfold bcast_dim. lia.
Qed.
Lemma bcast_same_len (g o idx : list Z) : length g = length o -> length idx = length o -> bcast_idx g idx = clamp g idx.
Proof. intros H1 H2. unfold bcast_idx. rewrite H1, H2, Nat.sub_diag. reflexivity. Qed.

(** the tensors of one rank, aligned along [s] *)
Lemma expand_aligned {A} (t : arr A) g (G : list Z -> A) s c o e osh : aligned t g G s c o e -> 0 <= c -> bcast_shape g osh osh -> length g = length osh -> (s < length osh)%nat ->
  exists z, expand t (upd osh s c) = Ok z /\ agrees z (upd osh s c) (fun idx => G (clamp g (move_axis_idx s o idx))).
Proof.
  intros (S & He & D) Hc HB LG Hs. assert (LA : length (ash t) = length osh) by (rewrite S, upd_length; auto).
  assert (HB' : bcast_shape (ash t) (upd osh s c) (upd osh s c)).
  { split; [rewrite upd_length; lia|]. rewrite upd_length. intros i Hi. destruct HB as [_ HB]. specialize (HB i Hi). rewrite padded_self in HB.
    replace (padded (length osh) (upd osh s c)) with (upd osh s c) by (unfold padded; rewrite upd_length, Nat.sub_diag; reflexivity). replace (length osh) with (length (ash t)) by lia. rewrite padded_self.
    replace (length osh) with (length g) in HB by lia. rewrite padded_self in HB. rewrite S.
    rewrite (nth_indep g 1 0), (nth_indep osh 1 0) in HB by lia. rewrite (nth_indep _ 1 0) by (rewrite upd_length; lia). rewrite (nth_indep (upd osh s c) 1 0) by (rewrite upd_length; lia).
    destruct (Nat.eq_dec i s) as [->|Hne]; [rewrite !upd_same by lia; unfold bcast_dim; lia|rewrite !upd_other by auto; exact HB]. }
  rewrite expand_ok by exact HB'. eexists. split; [reflexivity|]. split; [reflexivity|]. intros idx Hi. cbn [adat]. rewrite LA, upd_length, Nat.sub_diag. cbn [skipn].
  pose proof (in_bounds_length _ _ Hi) as LI. rewrite upd_length in LI. apply in_bounds_upd_shape in Hi as (_ & Hb & Ho); [|exact Hs]. rewrite D.
  - reflexivity.
  - lia.
  - intros i Hi Hne. specialize (Ho i ltac:(lia) Hne). destruct HB as [_ HB]. specialize (HB i ltac:(lia)). rewrite padded_self in HB. replace (length osh) with (length g) in HB by lia. rewrite padded_self in HB.
    rewrite (nth_indep g 1 0), (nth_indep osh 1 0) in HB by lia. unfold bcast_dim in HB. lia.
  - exact Hb.
Qed.
