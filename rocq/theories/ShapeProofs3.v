(** expand_dims, squeeze, moveaxis, swapaxes: whole functions. *)
From Verif Require Import Base ShapeSpec BaseLemmas LayoutModel NdSpec TensorSpec TensorLemmas NdLemmas OpsModel OpsProofs2 OpsProofs3 OpsProofs4 OpsProofs5 OpsProofs6 ShapeModel ShapeProofs ShapeProofs2.
From Coq Require Import Permutation Sorted.
Open Scope Z_scope.

Lemma move_in_bounds gsh s cnts r i : (s < length gsh)%nat -> Forall (fun c => 0 <= c) cnts -> zsum cnts = nth s gsh 0 ->
  (r < length cnts)%nat -> in_bounds (upd gsh s (nth r cnts 0)) i ->
  in_bounds gsh (move_axis_idx s (zsum (firstn r cnts)) i).
Proof.
  intros Hs Hc Hsum Hr Hi. apply in_bounds_upd_shape in Hi as (L & H0 & H); auto. apply in_bounds_nth.
  unfold move_axis_idx. rewrite upd_length. split; auto. intros k Hk. destruct (Nat.eq_dec k s) as [->|Hn].
  - rewrite upd_same by lia. pose proof (zsum_nonneg _ (Forall_firstn' _ r _ Hc)).
    pose proof (zsum_firstn_le cnts (S r) Hc) as Q. rewrite zsum_firstn_S in Q by auto. lia.
  - rewrite upd_other by auto. auto.
Qed.
Lemma represents_ext {A} (G G' : list Z -> A) gsh split cnts ls :
  (forall i, in_bounds gsh i -> G i = G' i) -> represents G gsh split cnts ls -> represents G' gsh split cnts ls.
Proof.
  intros HG (Hlen & Hn & HR). split; [auto|split; [auto|]]. destruct split as [s|].
  - destruct HR as (Hs & Hc & Hsum & HR). split; [auto|split; [auto|split; [auto|]]].
    intros r t Ht. destruct (HR r t Ht) as [S0 D0]. split; auto. intros idx Hidx. rewrite D0 by auto.
    apply HG. apply move_in_bounds; auto. rewrite <- Hlen. apply nth_error_Some. congruence.
  - intros t Ht. destruct (HR t Ht) as [S0 D0]. split; auto. intros idx Hidx. rewrite D0 by auto. auto.
Qed.

Lemma fold_insert_length axes gsh : length (fold_left (fun sh k => py_insert sh k 1) axes gsh) = (length gsh + length axes)%nat.
Proof.
  revert gsh; induction axes as [|k axes IH]; intros gsh; cbn [fold_left length]; [lia|].
  rewrite IH, py_insert_length. lia.
Qed.
Lemma fold_insert_remove axes gsh : fits (length gsh) axes ->
  fold_right remove_at (fold_left (fun sh k => py_insert sh k 1) axes gsh) axes = gsh.
Proof.
  revert gsh; induction axes as [|k axes IH]; intros gsh Hf; cbn [fold_left fold_right]; auto.
  assert (Hk : (k <= length gsh)%nat) by (specialize (Hf 0%nat ltac:(simpl; lia)); simpl in Hf; lia).
  rewrite IH; [now apply remove_insert|].
  intros i Hi. rewrite py_insert_length. specialize (Hf (S i)). cbn [length nth] in Hf. specialize (Hf ltac:(lia)). lia.
Qed.
Lemma fold_insert_ones axes gsh : fits (length gsh) axes -> StronglySorted lt axes ->
  forall k, In k axes -> nth k (fold_left (fun sh k => py_insert sh k 1) axes gsh) 0 = 1.
Proof.
  intros Hf Hs.
  enough (E : forall j, (j < length gsh + length axes)%nat -> 
      (In j axes -> nth j (fold_left (fun sh k => py_insert sh k 1) axes gsh) 0 = 1) /\
      (Forall (lt j) axes -> nth j (fold_left (fun sh k => py_insert sh k 1) axes gsh) 0 = nth j gsh 0)).
  { intros k Hk. apply E; auto. apply (In_nth _ _ 0%nat) in Hk as (i & Hi & <-). specialize (Hf i Hi). lia. }
  revert gsh Hf. induction Hs as [|k axes Hs IH HF]; intros gsh Hf j Hj; cbn [fold_left length] in *.
  { split; [intros []|auto]. }
  assert (Hk : (k <= length gsh)%nat) by (specialize (Hf 0%nat ltac:(simpl; lia)); simpl in Hf; lia).
  destruct (IH (py_insert gsh k 1)) with (j := j) as [E1 E2].
  { intros i Hi. rewrite py_insert_length. specialize (Hf (S i)). cbn [length nth] in Hf. specialize (Hf ltac:(lia)). lia. }
  { rewrite py_insert_length. lia. }
  split.
  - intros [<-|Hin]; auto. rewrite E2 by auto. rewrite py_insert_nth by auto.
    rewrite Nat.ltb_irrefl, Nat.eqb_refl. reflexivity.
  - intros HF'. inversion HF'; subst. rewrite E2 by auto. rewrite py_insert_nth by auto.
    destruct (Nat.ltb_spec j k); [auto|lia].
Qed.
Lemma nth_fold_remove {A} axes (L : list A) s d : (forall i, (i < length axes)%nat -> (nth i axes 0 <= length L - length axes + i)%nat) ->
  (length axes <= length L)%nat ->
  nth s (fold_right remove_at L axes) d = nth (fold_left (fun s k => bump k s) axes s) L d.
Proof.
  revert s; induction axes as [|k axes IH]; intros s Hf HL; cbn [fold_left fold_right length] in *; auto.
  assert (Hlen : length (fold_right remove_at L axes) = (length L - length axes)%nat).
  { clear IH. assert (G : forall axes', (length axes' <= length L)%nat -> (forall i, (i < length axes')%nat -> (nth i axes' 0 <= length L - length axes' + i)%nat) ->
       length (fold_right remove_at L axes') = (length L - length axes')%nat).
    { induction axes' as [|k' axes' IH']; intros HL' Hf'; cbn [fold_right length] in *; [lia|].
      assert (E : length (fold_right remove_at L axes') = (length L - length axes')%nat).
      { apply IH'; [lia|]. intros i Hi. specialize (Hf' (S i) ltac:(lia)). cbn in Hf'. lia. }
      rewrite remove_at_length; [lia|]. rewrite E. specialize (Hf' 0%nat ltac:(lia)). cbn in Hf'. lia. }
    apply G; [lia|]. intros i Hi. specialize (Hf (S i) ltac:(lia)). cbn in Hf. lia. }
  rewrite remove_nth_bump by (rewrite Hlen; specialize (Hf 0%nat ltac:(lia)); cbn in Hf; lia).
  apply IH; [|lia]. intros i Hi. specialize (Hf (S i) ltac:(lia)). cbn in Hf. lia.
Qed.

Lemma sorted_fits n axes : StronglySorted lt axes -> (forall k, In k axes -> (k < n + length axes)%nat) -> fits n axes.
Proof.
  intros Hs Hb. red.
  enough (G : forall m i, StronglySorted lt axes -> (forall k, In k axes -> (k < m)%nat) -> (i < length axes)%nat ->
     (nth i axes 0 + (length axes - i) <= m)%nat).
  { intros i Hi. specialize (G (n + length axes)%nat i Hs Hb Hi). lia. }
  clear. intros m. induction axes as [|k axes IH]; intros i Hs Hb Hi; simpl in Hi; [lia|].
  apply StronglySorted_inv in Hs as [Hs HF]. destruct i; cbn [nth length].
  - destruct axes as [|k' axes]; [specialize (Hb k (or_introl eq_refl)); simpl; lia|].
    specialize (IH 0%nat Hs (fun j Hj => Hb j (or_intror Hj)) ltac:(simpl; lia)). cbn [nth length] in *.
    inversion HF; subst. lia.
  - specialize (IH i Hs (fun j Hj => Hb j (or_intror Hj)) ltac:(lia)). lia.
Qed.

Lemma expand_dims_axes {A} (x : dnd A) axis axes :
  match axis with
  | AxInt a => let m := (length (d_gshape x) + 1)%nat in - Z.of_nat m <= a < Z.of_nat m /\ axes = [norm m a]
  | AxTuple l => let m := (length (d_gshape x) + length l)%nat in
       l <> [] /\ (forall a, In a l -> - Z.of_nat m <= a < Z.of_nat m) /\ axes = map (norm m) l
  | _ => False end ->
  expand_dims x axis =
  do st <- fold_left expand_step axes (Ok (ind (length (d_gshape x)) (d_split x), d_gshape x, d_locals x));
  let '(bkk', sh', ls') := st in Ok (mk_dnd ls' sh' (find_idx (fun b => b) bkk')).
Proof.
  intros H. unfold expand_dims. destruct axis as [|a|l|]; try contradiction.
  - destruct H as [Hb ->]. set (m := (length (d_gshape x) + 1)%nat) in *.
    assert (E : sanitize_axis m (AxInt a) = Ok (AxInt (Z.of_nat (norm m a)))).
    { unfold sanitize_axis, norm. destruct (Nat.eqb_spec m 0); [lia|].
      destruct ((0 <=? a) && (a <? Z.of_nat m)) eqn:E1.
      - destruct (Z.ltb_spec a 0); [lia|]. do 2 f_equal. lia.
      - destruct (Z.ltb_spec a 0); [|lia].
        replace ((a + Z.of_nat m <? 0) || (Z.of_nat m <=? a + Z.of_nat m)) with false by lia. do 2 f_equal. lia. }
    rewrite E. cbn [bind]. rewrite Nat2Z.id. reflexivity.
  - destruct H as (Hne & Hb & ->). set (m := (length (d_gshape x) + length l)%nat) in *.
    assert (Hm : m <> 0%nat) by (unfold m; destruct l; [congruence|simpl; lia]).
    assert (E : sanitize_axis m (AxTuple l) = Ok (AxTuple (map (fun a => Z.of_nat (norm m a)) l))).
    { unfold sanitize_axis. destruct (Nat.eqb_spec m 0); [lia|].
      assert (E1 : map (fun d => if d <? 0 then d + Z.of_nat m else d) l = map (fun a => Z.of_nat (norm m a)) l).
      { apply map_ext_in. intros a Ha. specialize (Hb a Ha). unfold norm. destruct (Z.ltb_spec a 0); lia. }
      rewrite E1. destruct (existsb _ _) eqn:E2; auto. exfalso. apply existsb_exists in E2 as (z & Hz & E2).
      apply in_map_iff in Hz as (a & <- & Ha). specialize (Hb a Ha). unfold norm in E2. destruct (Z.ltb_spec a 0); lia. }
    rewrite E. cbn [bind]. rewrite map_map. 
    rewrite (map_ext (fun a => Z.to_nat (Z.of_nat (norm m a))) (norm m)) by (intros; apply Nat2Z.id). reflexivity.
Qed.

Lemma expand_dims_ok {A} (x : dnd A) (G : list Z -> A) cnts axis axes :
  let n := length (d_gshape x) in
  represents G (d_gshape x) (d_split x) cnts (d_locals x) ->
  match axis with
  | AxInt a => let m := (n + 1)%nat in - Z.of_nat m <= a < Z.of_nat m /\ axes = [norm m a]
  | AxTuple l => let m := (n + length l)%nat in
       l <> [] /\ (forall a, In a l -> - Z.of_nat m <= a < Z.of_nat m) /\ axes = map (norm m) l
  | _ => False end ->
  StronglySorted lt axes ->
  exists y, expand_dims x axis = Ok y /\
    length (d_gshape y) = (n + length axes)%nat /\ drop_axes axes (d_gshape y) = d_gshape x /\
    (forall k, In k axes -> nth k (d_gshape y) 0 = 1) /\
    represents (fun idx => G (drop_axes axes idx)) (d_gshape y) (d_split y) cnts (d_locals y) /\
    match d_split x with
    | None => d_split y = None
    | Some s => exists s', d_split y = Some s' /\ nth_error (drop_axes axes (seq 0 (n + length axes))) s = Some s'
    end.
Proof.
  intros n HR Hax Hs.
  assert (Hb : forall k, In k axes -> (k < n + length axes)%nat).
  { destruct axis as [|a|l|]; try contradiction; cbv zeta in Hax.
    - destruct Hax as [Hb ->]. intros k [<-|[]]. unfold norm. simpl. destruct (Z.ltb_spec a 0); lia.
    - destruct Hax as (_ & Hb & ->). intros k Hk. apply in_map_iff in Hk as (a & <- & Ha). rewrite map_length.
      specialize (Hb a Ha). unfold norm. destruct (Z.ltb_spec a 0); lia. }
  assert (Hf := sorted_fits n axes Hs Hb).
  rewrite (expand_dims_axes x axis axes Hax).
  destruct (expand_fold axes G (d_gshape x) (d_split x) cnts (d_locals x) HR Hf) as (ls' & E & R). fold n in E. fold n.
  rewrite E. cbn [bind]. 
  set (sp := fold_left (fun s k => option_map (bump k) s) axes (d_split x)) in *.
  set (sh := fold_left (fun sh k => py_insert sh k 1) axes (d_gshape x)) in *.
  assert (Lsh : length sh = (n + length axes)%nat) by apply fold_insert_length.
  assert (Esp : sp = match d_split x with Some s => Some (fold_left (fun s k => bump k s) axes s) | None => None end).
  { unfold sp. clear. destruct (d_split x) as [s|].
    - revert s; induction axes as [|k axes IH]; intros s; simpl; auto.
    - induction axes; simpl; auto. }
  assert (Hfind : find_idx (fun b => b) (ind (n + length axes) sp) = sp).
  { apply find_ind. destruct sp as [s|]; auto. destruct R as (_ & _ & H & _). rewrite Lsh in H. exact H. }
  rewrite Hfind. eexists; split; [reflexivity|]. cbn [d_gshape d_split d_locals].
  split; [auto|split; [|split; [|split]]].
  - rewrite <- (fold_remove_drop axes sh n) by auto. now apply fold_insert_remove.
  - now apply fold_insert_ones.
  - eapply represents_ext; [|exact R]. intros i Hi. cbn beta. f_equal. apply in_bounds_length in Hi. rewrite Lsh in Hi.
    now apply (fold_remove_drop axes i n).
  - rewrite Esp. destruct (d_split x) as [s|] eqn:Es; auto. eexists; split; [reflexivity|].
    assert (LL : length (drop_axes axes (seq 0 (n + length axes))) = n).
    { assert (D : drop_axes axes (seq 0 (n + length axes)) = fold_right remove_at (seq 0 (n + length axes)) axes).
      { clear - Hs Hb. assert (G : forall (l : list nat), length l = (n + length axes)%nat -> fold_right remove_at l axes = drop_axes axes l).
        { intros l. revert l. revert Hb. generalize n as n'. induction axes as [|k axes' IH] using rev_ind; intros n' Hb l Hl.
          - simpl. unfold drop_axes. generalize 0%nat as i. clear. induction l as [|y l IHl]; intros i; simpl; auto. f_equal; auto.
          - rewrite fold_right_app. cbn [fold_right]. rewrite app_length in *. cbn [length] in *.
            assert (Hs' : StronglySorted lt axes' /\ forall j, In j axes' -> (j < k)%nat).
            { clear - Hs. induction axes' as [|a axes IH]; simpl in *; [split; [constructor|intros j []]|].
              apply StronglySorted_inv in Hs as [Hs HF]. destruct (IH Hs) as [H1 H2]. rewrite Forall_app in HF. destruct HF as [HF1 HF2].
              inversion HF2; subst. split; [constructor; auto|]. intros j [<-|Hj]; auto. }
            destruct Hs' as [Hs1 Hs2].
            assert (Hk : (k < n' + (length axes' + 1))%nat) by (apply Hb, in_app_iff; right; left; auto).
            rewrite drop_axes_snoc by (auto; lia). apply (IH Hs1 n').
            + intros j Hj. specialize (Hs2 j Hj). lia.
            + rewrite remove_at_length by lia. lia. }
        symmetry. apply G. now rewrite seq_length. }
      rewrite D. clear - Hf. red in Hf.
      assert (G : forall axes' (L : list nat), (length axes' <= length L)%nat -> (forall i, (i < length axes')%nat -> (nth i axes' 0 <= length L - length axes' + i)%nat) ->
         length (fold_right remove_at L axes') = (length L - length axes')%nat).
      { induction axes' as [|k' axes' IH']; intros L HL' Hf'; cbn [fold_right length] in *; [lia|].
        assert (E : length (fold_right remove_at L axes') = (length L - length axes')%nat).
        { apply IH'; [lia|]. intros i Hi. specialize (Hf' (S i) ltac:(lia)). cbn in Hf'. lia. }
        rewrite remove_at_length; [lia|]. rewrite E. specialize (Hf' 0%nat ltac:(lia)). cbn in Hf'. lia. }
      rewrite G; rewrite seq_length; [lia|lia|]. intros i Hi. specialize (Hf i Hi). lia. }
    assert (Hsn : (s < n)%nat) by (destruct HR as (_ & _ & H & _); exact H).
    rewrite (nth_error_nth' _ 0%nat) by lia. f_equal.
    assert (D : drop_axes axes (seq 0 (n + length axes)) = fold_right remove_at (seq 0 (n + length axes)) axes).
    { pose proof (fold_remove_drop axes (map Z.of_nat (seq 0 (n + length axes))) n Hs Hb) as Q.
      rewrite map_length, seq_length in Q. specialize (Q eq_refl).
      assert (M1 : forall l, fold_right remove_at (map Z.of_nat l) axes = map Z.of_nat (fold_right remove_at l axes)).
      { intros l. clear. induction axes as [|k axes IH]; simpl; auto. rewrite IH. unfold remove_at.
        now rewrite map_app, firstn_map, skipn_map. }
      assert (M2 : forall l, drop_axes axes (map Z.of_nat l) = map Z.of_nat (drop_axes axes l)).
      { intros l. clear. unfold drop_axes. generalize 0%nat as i. induction l as [|y l IH]; intros i; simpl; auto.
        destruct (memb i axes); simpl; rewrite IH; auto. }
      rewrite M1, M2 in Q. symmetry. clear - Q. revert Q. generalize (fold_right remove_at (seq 0 (n + length axes)) axes) as a.
      generalize (drop_axes axes (seq 0 (n + length axes))) as b. induction b as [|y b IH]; intros [|z a] Q; simpl in Q; try discriminate; auto.
      injection Q as Q1 Q2. f_equal; [lia|auto]. }
    rewrite D. rewrite nth_fold_remove.
    + rewrite seq_nth; [auto|]. rewrite Esp in R. destruct R as (_ & _ & R1 & _). rewrite Lsh in R1. exact R1.
    + intros i Hi. rewrite seq_length. specialize (Hf i Hi). lia.
    + rewrite seq_length. lia.
Qed.
