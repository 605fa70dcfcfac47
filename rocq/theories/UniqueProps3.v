From Verif Require Import Base BaseLemmas LayoutModel LayoutProofs NdSpec TensorSpec NdLemmas TensorLemmas OpsModel OpsProofs4 RollModel RedistModel HaloModel ShapeModel ShapeSpec ShapeProofs ShapeProofs4 ShapeProps BinModel BinProofs2 ReshapeModel ReshapeProofs FactoryModel FactoryProps ConcatModel ConcatProps DiagModel DiagProps SplitProps UnfoldModel UnfoldProofs SortProps2 UniqueModel UniqueSpec UniqueProps UniqueProps2.
Open Scope Z_scope.

(** torch.unique by first occurrences (one admissible answer) *)
Definition zl_eqb (a b : list Z) : bool := if list_eq_dec Z.eq_dec a b then true else false.
Definition first_reps (l : list (list Z)) : list nat :=
  filter (fun p => negb (existsb (zl_eqb (nth p l [])) (firstn p l))) (seq 0 (length l)).
Lemma first_reps_keeps : keeps_unique first_reps.
Proof.
  intros l. assert (R : forall p, In p (first_reps l) <-> (p < length l)%nat /\ forall q, (q < p)%nat -> nth q l [] <> nth p l []).
  { intros p. unfold first_reps. rewrite filter_In, in_seq, negb_true_iff. split.
    - intros [Hp E]. split; [lia|]. intros q Hq EQ. assert (X : existsb (zl_eqb (nth p l [])) (firstn p l) = true); [|congruence].
      apply existsb_exists. exists (nth q l []). split.
      + rewrite <- (firstn_skipn p l) at 1. rewrite app_nth1 by (rewrite firstn_length; lia). apply nth_In. rewrite firstn_length. lia.
      + unfold zl_eqb. destruct (list_eq_dec Z.eq_dec _ _); congruence.
    - intros [Hp N]. split; [lia|]. destruct (existsb _ _) eqn:E; [|auto]. apply existsb_exists in E as (k & Hk & EK). unfold zl_eqb in EK. destruct (list_eq_dec Z.eq_dec _ _) as [E'|]; [|discriminate]. exfalso.
      apply (In_nth _ _ []) in Hk as (q & Hq & <-). rewrite firstn_length in Hq. apply (N q); [lia|]. rewrite E'. rewrite <- (firstn_skipn p l) at 1. rewrite app_nth1 by (rewrite firstn_length; lia). auto. }
  split; [intros p Hp; now apply R in Hp|]. split.
  - assert (X : forall m, (forall p, In p m -> In p (first_reps l)) -> NoDup m -> NoDup (map (fun p => nth p l []) m)).
    { induction m as [|a m IH]; intros Hm ND; [constructor|]. apply NoDup_cons_iff in ND as [NI ND]. cbn [map]. constructor; [|apply IH; auto; intros; apply Hm; right; auto].
      intros Hin. apply in_map_iff in Hin as (b & E & Hb). assert (Ra := proj1 (R a) (Hm a (or_introl eq_refl))). assert (Rb := proj1 (R b) (Hm b (or_intror Hb))). destruct (Nat.lt_trichotomy a b) as [H|[H|H]]; [apply (proj2 Rb a H); auto|subst; auto|apply (proj2 Ra b H); auto]. }
    apply X; [auto|]. unfold first_reps. apply NoDup_filter, seq_NoDup.
  - intros k Hk. apply (In_nth _ _ []) in Hk as (p & Hp & <-).
    assert (X : forall p, (p < length l)%nat -> exists q, In q (first_reps l) /\ nth q l [] = nth p l []).
    { intros p0. induction p0 as [p0 IH] using (well_founded_induction lt_wf). intros H0. destruct (existsb (fun q => zl_eqb (nth q l []) (nth p0 l [])) (seq 0 p0)) eqn:E.
      - apply existsb_exists in E as (q & Hq & E). apply in_seq in Hq. unfold zl_eqb in E. destruct (list_eq_dec Z.eq_dec _ _) as [E'|]; [|discriminate]. destruct (IH q) as (q' & A & B); [lia|lia|]. exists q'. split; [auto|congruence].
      - exists p0. split; [|auto]. apply R. split; [auto|]. intros q Hq EQ. assert (X : existsb (fun q => zl_eqb (nth q l []) (nth p0 l [])) (seq 0 p0) = true); [|congruence]. apply existsb_exists. exists q. split; [apply in_seq; lia|]. unfold zl_eqb. destruct (list_eq_dec Z.eq_dec _ _); congruence. }
    destruct (X p Hp) as (q & A & B). apply in_map_iff. exists q. auto.
Qed.

Example C38_example : two_parts 2 1 (fun t1 t2 => (adat t1 [0] =? 5) && (adat t1 [1] =? 7) && (adat t2 [0] =? 8)) (unique_none 0 first_reps (vec 0 [[5; 5; 7]; [5; 8; 8]])) = true.
Proof. vm_compute. reflexivity. Qed.
Example C38_axis_example : two_parts 2 1 (fun t1 t2 => (adat t1 [0] =? 5) && (adat t1 [1] =? 7) && (adat t2 [0] =? 8)) (unique_axis 0 first_reps (vec 0 [[5; 5; 7]; [5; 8; 8]]) 0) = true.
Proof. vm_compute. reflexivity. Qed.

(** an axis other than the split axis (L3597-3617): the first slices are returned, not the
    distinct ones.  Rows (1,1) (1,1) (2,2), one column per rank: the answer has the row
    (1,1) twice and misses (2,2) *)
Definition rows3 : dnd Z := let G idx := if nth 0 idx 0 =? 2 then 2 else 1 in mk_dnd [mk_arr [3; 1] G; mk_arr [3; 1] G] [3; 2] (Some 1%nat).
Definition rows3G (idx : list Z) : Z := if nth 0 idx 0 =? 2 then 2 else 1.
Definition cols2 (r : res (dnd Z)) : bool :=
  match r with
  | Ok y => match d_locals y with
            | [t1; t2] => eqb_idx (ash t1) [2; 1] && eqb_idx (ash t2) [2; 1] && eqb_idx (d_gshape y) [2; 2] && (match d_split y with Some 1%nat => true | _ => false end)
                          && (adat t1 [0; 0] =? 1) && (adat t1 [1; 0] =? 1) && (adat t2 [0; 0] =? 1) && (adat t2 [1; 0] =? 1)
            | _ => false
            end
  | Err _ => false
  end.
Theorem C38_other_axis_refuted : exists (x : dnd Z) (G : list Z -> Z) y,
  rep x [1; 1] G /\ d_gshape x = [3; 2] /\ d_split x = Some 1%nat /\ keeps_unique first_reps /\
  unique_axis 0 first_reps x 0 = Ok y /\
  forall cnts Y, rep y cnts Y -> ~ distinct_slices G [3; 2] 0 (nth 0 (d_gshape y) 0) Y.
Proof.
  assert (E : cols2 (unique_axis 0 first_reps rows3 0) = true) by (vm_compute; reflexivity).
  destruct (unique_axis 0 first_reps rows3 0) as [y|] eqn:EU; [|discriminate]. exists rows3, rows3G, y.
  split.
  { unfold rep, rows3. cbn [d_gshape d_split d_locals]. split; [auto|]. split; [repeat constructor; lia|]. split; [cbn; lia|]. split; [repeat constructor; lia|]. split; [reflexivity|].
    intros [|[|r]] t Ht; cbn in Ht; [injection Ht as <-|injection Ht as <-|destruct r; discriminate]; (split; [reflexivity|]; intros idx Hi; unfold rows3G, move_axis_idx; cbn [adat]; rewrite upd_other by lia; reflexivity). }
  split; [auto|]. split; [auto|]. split; [apply first_reps_keeps|]. split; [exact EU|]. intros cnts Y HR (_ & _ & D). cbn in E.
  destruct (d_locals y) as [|t1 [|t2 [|]]] eqn:EY; try discriminate. repeat (apply andb_prop in E as [E ?H]). apply eqb_idx_eq in E, H4, H5. destruct (d_split y) as [[|[|]]|] eqn:ES; try discriminate.
  unfold rep in HR. rewrite ES, H4, EY in HR. destruct HR as (LC & _ & _ & CN & SM & Q). destruct cnts as [|c1 [|c2 [|]]]; try discriminate. rewrite H4 in D. cbn [nth] in D.
  destruct (Q 0%nat t1 eq_refl) as [A1 D1]. destruct (Q 1%nat t2 eq_refl) as [A2 D2]. rewrite E in A1. rewrite H5 in A2. cbn in A1, A2. injection A1 as <-. injection A2 as <-. cbn [nth upd firstn] in D1, D2. change (zsum []) with 0 in D1. change (zsum [1]) with 1 in D2.
  assert (I : forall a, 0 <= a < 2 -> in_bounds [2; 1] [a; 0]) by (intros a Ha; repeat constructor; lia).
  assert (V1 := D1 [0; 0] (I 0 ltac:(lia))). assert (V2 := D1 [1; 0] (I 1 ltac:(lia))). assert (V3 := D2 [0; 0] (I 0 ltac:(lia))). assert (V4 := D2 [1; 0] (I 1 ltac:(lia))). cbn in V1, V2, V3, V4.
  specialize (D 0 1 ltac:(lia) ltac:(lia)). assert (0 = 1); [|lia]. apply D. intros idx Hi. cbn [upd] in Hi. destruct idx as [|i [|j [|]]]; try (inversion Hi; subst; match goal with H : Forall2 _ _ _ |- _ => inversion H; subst; match goal with H : Forall2 _ _ _ |- _ => inversion H end end; fail).
  inversion Hi as [|? ? ? ? B1 B2]; subst. inversion B2 as [|? ? ? ? B3 B4]; subst. cbn [upd]. assert (j = 0 \/ j = 1) as [-> | ->] by lia; lia.
Qed.
