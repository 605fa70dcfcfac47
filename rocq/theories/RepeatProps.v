(** C82: repeat. *)
From Verif Require Import Base BaseLemmas LayoutModel LayoutProofs NdSpec TensorSpec TensorLemmas NdLemmas OpsModel OpsProofs4 OpsProofs5 RedistModel ShapeModel ShapeProps ShapeProofs6 BinModel BinProofs BinProofs2 SlabLemmas RollModel RollProofs3 ReshapeModel ReshapeProofs ReshapeProps FactoryModel FactoryProps ConcatProofs3 RepeatSpec RepeatModel RepeatProofs RepeatProofs2 RepeatProofs3.
Open Scope Z_scope.

(** the numbers the caller passes as repetitions *)
Definition count_values (P : nat) (r : rep_arg) (vals : list Z) : Prop :=
  match r with
  | RInt k => vals = [k]
  | RSeq l => vals = l
  | RArr c => exists cc C, rep c cc C /\ length cc = P /\ d_gshape c = [Z.of_nat (length vals)] /\ vals = map C (row_major (d_gshape c))
  end.
(** every process holds the counts of its own elements: [cnts] are the extents of the array's
    pieces, [n] their sum *)
Definition aligned (r : rep_arg) (cnts : list Z) (n : Z) : Prop :=
  match r with
  | RInt _ => True
  | RSeq _ => cnts = zcounts n (length cnts)
  | RArr c => if oeqb (d_split c) (Some 0%nat) then lcounts c 0 = cnts else cnts = zcounts n (length cnts)
  end.
(** one number stands for the same number for everybody *)
Definition all_counts (vals : list Z) (n : Z) : list Z := if Nat.eqb (length vals) 1 then repeat (nth 0 vals 0) (Z.to_nat n) else vals.

Lemma lcounts_rep {A} (G : list Z -> A) gsh s cnts (x : dnd A) : represents G gsh (Some s) cnts (d_locals x) -> lcounts x s = cnts.
Proof.
  intros (HL & Hn & Hs & Hc & Hsum & HX). unfold lcounts. apply (@nth_ext2 _ _ _ 0); [now rewrite map_length|]. intros r Hr. rewrite map_length in Hr.
  destruct (nth_error (d_locals x) r) as [t|] eqn:E; [|apply nth_error_None in E; lia].
  erewrite nth_error_nth; [|rewrite nth_error_map, E; reflexivity]. destruct (HX r t E) as [-> _]. now apply upd_same.
Qed.
Lemma concat_repeats (k : Z) cnts : Forall (fun c => 0 <= c) cnts -> concat (map (fun c => repeat k (Z.to_nat c)) cnts) = repeat k (Z.to_nat (zsum cnts)).
Proof.
  induction 1 as [|c cnts H F IH]; [reflexivity|]. cbn [map concat]. rewrite IH. change (zsum (c :: cnts)) with (c + zsum cnts).
  rewrite Z2Nat.inj_add by (auto using zs_nonneg). now rewrite repeat_app.
Qed.
Lemma Forall_repeat {A} (Q : A -> Prop) x n : Q x -> Forall Q (repeat x n).
Proof. intros H. induction n; cbn; auto. Qed.
Lemma nth_all_same {A} (cs : list A) x d r : (forall c, In c cs -> c = x) -> (r < length cs)%nat -> nth r cs d = x.
Proof. intros H Hr. apply H, nth_In, Hr. Qed.

(** one count for everybody *)
Lemma number_axis {A} (dflt : A) (a : dnd A) G cnts ax k cs :
  rep a cnts G -> (0 < length cnts)%nat -> (ax < length (d_gshape a))%nat -> 0 <= k -> length cs = length cnts -> (forall c, In c cs -> c = [k]) ->
  let l := repeat k (Z.to_nat (nth ax (d_gshape a) 0)) in
  exists y G' cnts', (do ls <- local_repeats dflt a cs (Some ax); assemble dflt (d_split a) ls) = Ok y /\
    d_gshape y = upd (d_gshape a) ax (zsum l) /\ d_split y = d_split a /\ rep y cnts' G' /\ repeated_along ax l (d_gshape a) G G' /\
    forall s, d_split y = Some s -> cnts' = zcounts (nth s (d_gshape y) 0) (length cnts).
Proof.
  intros HR HP Ha Hk HLc HC l. unfold rep in HR. pose proof (proj1 HR) as HL. pose proof (proj1 (proj2 HR)) as Hn.
  assert (N0 : 0 <= nth ax (d_gshape a) 0) by (rewrite Forall_forall in Hn; apply Hn, nth_In; auto).
  assert (Fl : Forall (fun k => 0 <= k) l) by (apply Forall_repeat; auto).
  assert (SP : repeated_along ax l (d_gshape a) G (rep_fun ax l G)) by (apply rep_fun_spec; auto; unfold l; rewrite repeat_length; lia).
  assert (X : exists ls' cnts1, local_repeats dflt a cs (Some ax) = Ok ls' /\ represents (rep_fun ax l G) (upd (d_gshape a) ax (zsum l)) (d_split a) cnts1 ls' /\ length cnts1 = length cnts).
  { destruct (d_split a) as [s|] eqn:ES; [destruct (Nat.eq_dec s ax) as [->|N]|].
    - set (lr := map (fun c => repeat k (Z.to_nat c)) cnts). pose proof HR as (_ & _ & _ & Hc & Hsum & _).
      assert (EC : concat lr = l) by (unfold lr, l; rewrite concat_repeats by auto; now rewrite Hsum).
      destruct (repeat_split dflt G (d_gshape a) ax cnts (d_locals a) cs lr HR) as (ls' & E & R & LL); auto.
      + lia.
      + unfold lr. rewrite map_length. lia.
      + intros r Hr. left. exists k. split; [apply nth_all_same; auto; lia|]. unfold lr. erewrite nth_error_nth; [|rewrite nth_error_map, (nth_error_nth' cnts 0) by lia; reflexivity]. reflexivity.
      + now rewrite EC.
      + rewrite EC in R. exists ls', (map zsum lr). split; [exact E|]. split; [auto|]. unfold lr. now rewrite !map_length.
    - destruct (repeat_other dflt G (d_gshape a) (Some s) cnts (d_locals a) ax [k] l cs HR Ha) as (ls' & E & R & LL); auto; [congruence|left; eauto|lia|]. eauto.
    - destruct (repeat_other dflt G (d_gshape a) None cnts (d_locals a) ax [k] l cs HR Ha) as (ls' & E & R & LL); auto; [congruence|left; eauto|lia|]. eauto. }
  destruct X as (ls' & c1 & E & R & L1). rewrite E. cbn [bind].
  destruct (assemble_ok dflt _ _ _ _ _ R ltac:(lia)) as (y & c2 & E1 & E2 & E3 & E4 & E5 & E6).
  exists y, (rep_fun ax l G), c2. split; [auto|]. split; [auto|]. split; [auto|]. split; [auto|]. split; [auto|]. intros s Hs. rewrite E2, <- L1. apply E6. congruence.
Qed.
Lemma no_empty gsh : Forall (fun n => 0 < n) gsh -> existsb (Z.eqb 0) gsh = false.
Proof. intros H. apply not_true_is_false. intros X. apply existsb_exists in X as (n & I & E). rewrite Forall_forall in H. specialize (H n I). lia. Qed.
Lemma replicated_rep P l : rep (replicated P l) (repeat 0 P) (fun idx => nth (Z.to_nat (nth 0 idx 0)) l 0).
Proof.
  split; [cbn; now rewrite !repeat_length|]. split; [cbn; constructor; [lia|constructor]|]. cbn [d_split replicated d_locals d_gshape].
  intros t Ht. apply repeat_spec in Ht. subst t. split; [reflexivity|]. intros idx _. reflexivity.
Qed.
Lemma row_major_1 n : row_major [Z.of_nat n] = map (fun i => [Z.of_nat i]) (seq 0 n).
Proof. cbn [row_major]. unfold zr. rewrite Nat2Z.id. induction (seq 0 n) as [|i l IH]; [reflexivity|]. cbn. now rewrite <- IH. Qed.
Lemma replicated_vals (l : list Z) : map (fun idx => nth (Z.to_nat (nth 0 idx 0)) l 0) (row_major [Z.of_nat (length l)]) = l.
Proof. rewrite row_major_1, map_map. etransitivity; [|apply (map_nth_seq l 0)]. apply map_ext. intros i. cbn [nth]. now rewrite Nat2Z.id. Qed.
(** sequences become replicated arrays: all non-int counts are one-dimensional arrays *)
Lemma as_array P r vals : count_values P r vals -> (0 < P)%nat ->
  match r with
  | RInt k => vals = [k]
  | _ => vals <> [] -> exists c cc C, (match r with RSeq l => match l with [] => Err ValueError | _ => Ok (inr (replicated P l)) end
                        | RArr c => if zprod (d_gshape c) =? 0 then Err ValueError else if negb (Nat.eqb (length (d_gshape c)) 1) then Err ValueError else Ok (inr c)
                        | RInt k => Ok (inl k) end) = Ok (@inr Z (dnd Z) c) /\
                      rep c cc C /\ length cc = P /\ d_gshape c = [Z.of_nat (length vals)] /\ vals = map C (row_major (d_gshape c)) /\
                      (forall cnts n, aligned r cnts n -> if oeqb (d_split c) (Some 0%nat) then cc = cnts else cnts = zcounts n (length cnts))
  end.
Proof.
  intros H HP. destruct r as [k|l|c]; cbn [count_values] in H; [auto| |].
  - subst vals. intros NE. destruct l as [|k l]; [congruence|]. exists (replicated P (k :: l)), (repeat 0 P), (fun idx => nth (Z.to_nat (nth 0 idx 0)) (k :: l) 0).
    split; [reflexivity|]. split; [apply replicated_rep|]. split; [apply repeat_length|]. split; [reflexivity|]. split; [symmetry; apply (replicated_vals (k :: l))|].
    intros cnts n. cbn [aligned replicated d_split oeqb]. auto.
  - destruct H as (cc & C & R & L & E & V). intros NE. exists c, cc, C. rewrite E. split.
    { replace (zprod [Z.of_nat (length vals)]) with (Z.of_nat (length vals)) by (unfold zprod; cbn; lia).
      replace (Z.of_nat (length vals) =? 0) with false by (destruct vals; [congruence|cbn [length]; lia]). reflexivity. }
    split; [auto|]. split; [auto|]. split; [auto|]. split; [now rewrite E in V|].
    intros cnts n. cbn [aligned]. destruct (oeqb (d_split c) (Some 0%nat)) eqn:EO; auto. intros EL.
    destruct (d_split c) as [s|] eqn:ES; cbn in EO; [|discriminate]. apply Nat.eqb_eq in EO. subst s. unfold rep in R. rewrite ES in R. now rewrite <- EL, (lcounts_rep _ _ _ _ _ R).
Qed.

(** ht.repeat(a, counts, axis): slab i along [axis] is repeated counts[i] times (a single count
    stands for all), for an array in any layout, split anywhere; counts may be an int, a
    sequence or an array in any layout.  If there are several counts and [axis] is the
    distributed one, the counts must be distributed like the array.  The result is
    balanced. *)
Theorem C82_repeat_axis_partial : forall (A : Type) (dflt : A) (a : dnd A) (G : list Z -> A) (cnts : list Z) (r : rep_arg) (vals : list Z) (axis : Z),
  rep a cnts G -> (0 < length cnts)%nat -> Forall (fun n => 0 < n) (d_gshape a) -> 0 <= axis < Z.of_nat (length (d_gshape a)) ->
  let ax := Z.to_nat axis in let n := nth ax (d_gshape a) 0 in
  count_values (length cnts) r vals -> Forall (fun k => 0 <= k) vals -> (length vals = 1%nat \/ Z.of_nat (length vals) = n) ->
  (length vals <> 1%nat -> d_split a = Some ax -> aligned r cnts n) ->
  exists y G' cnts', ht_repeat dflt a r (Some axis) = Ok y /\
    d_gshape y = upd (d_gshape a) ax (zsum (all_counts vals n)) /\ d_split y = d_split a /\ rep y cnts' G' /\
    repeated_along ax (all_counts vals n) (d_gshape a) G G' /\
    forall s, d_split y = Some s -> cnts' = zcounts (nth s (d_gshape y) 0) (length cnts).
Proof.
  intros A dflt a G cnts r vals axis HR HP Hpos Hax ax n HV Fv HLen HAl.
  assert (Ha : (ax < length (d_gshape a))%nat) by (unfold ax; lia).
  assert (Hn : 0 < n) by (rewrite Forall_forall in Hpos; apply Hpos, nth_In; auto).
  pose proof HR as HR0. unfold rep in HR0. pose proof (proj1 HR0) as HL.
  assert (NE : vals <> []) by (intros ->; cbn in HLen; lia).
  unfold ht_repeat. rewrite HL. replace ((Z.of_nat (length (d_gshape a)) <=? axis) || (axis <? 0)) with false by lia. cbn [bind]. fold ax.
  assert (AA := as_array _ _ _ HV HP).
  destruct (Nat.eq_dec (length vals) 1) as [E1|N1].
  - destruct vals as [|k [|]]; cbn in E1; try lia. inversion Fv; subst. unfold all_counts. cbn [length Nat.eqb nth].
    destruct r as [k0|l0|c0].
    + injection AA as <-. cbn [bind]. unfold repeat_core. rewrite no_empty by auto.
      apply number_axis; auto; [rewrite repeat_length; lia|]. intros c I. now apply repeat_spec in I.
    + destruct (AA NE) as (c & cc & C & E & R & L & S1 & V & _). rewrite E. cbn [bind]. unfold repeat_core. rewrite no_empty by auto. rewrite S1. cbn [length]. change (zprod [Z.of_nat 1] =? 1) with true. cbv iota.
      destruct (to_split_ok 0 c C cc None R ltac:(lia) ltac:(discriminate)) as (T1 & T2 & T3 & c' & T4 & T5 & _).
      apply number_axis; auto; [rewrite map_length; lia|]. rewrite S1 in T4. intros x I. rewrite (counts_none _ _ _ _ T4 x I). now rewrite <- S1.
    + destruct (AA NE) as (c & cc & C & E & R & L & S1 & V & _). rewrite E. cbn [bind]. unfold repeat_core. rewrite no_empty by auto. rewrite S1. cbn [length]. change (zprod [Z.of_nat 1] =? 1) with true. cbv iota.
      destruct (to_split_ok 0 c C cc None R ltac:(lia) ltac:(discriminate)) as (T1 & T2 & T3 & c' & T4 & T5 & _).
      apply number_axis; auto; [rewrite map_length; lia|]. rewrite S1 in T4. intros x I. rewrite (counts_none _ _ _ _ T4 x I). now rewrite <- S1.
  - destruct HLen as [|HLen]; [lia|]. assert (EA : all_counts vals n = vals) by (unfold all_counts; replace (Nat.eqb (length vals) 1) with false; auto; symmetry; now apply Nat.eqb_neq). rewrite EA.
    assert (SP : repeated_along ax vals (d_gshape a) G (rep_fun ax vals G)) by (apply rep_fun_spec; auto).
    assert (XX : exists c cc C, match r with RInt k => Ok (inl k) | RSeq l => match l with [] => Err ValueError | _ => Ok (inr (replicated (length cnts) l)) end
                        | RArr c => if zprod (d_gshape c) =? 0 then Err ValueError else if negb (Nat.eqb (length (d_gshape c)) 1) then Err ValueError else Ok (inr c) end = Ok (@inr Z (dnd Z) c) /\
                      rep c cc C /\ length cc = length cnts /\ d_gshape c = [Z.of_nat (length vals)] /\ vals = map C (row_major (d_gshape c)) /\
                      (forall cnts n, aligned r cnts n -> if oeqb (d_split c) (Some 0%nat) then cc = cnts else cnts = zcounts n (length cnts))).
    { destruct r as [k0|l0|c0]; [subst vals; cbn in N1; lia| |]; exact (AA NE). }
    destruct XX as (c & cc & C & E & R & L & S1 & V & AL). rewrite E. cbn [bind]. unfold repeat_core. rewrite no_empty by auto. rewrite S1.
    replace (zprod [Z.of_nat (length vals)]) with (Z.of_nat (length vals)) by (unfold zprod; cbn; lia).
    replace (Z.of_nat (length vals) =? 1) with false by lia.
    destruct (to_split_ok 0 c C cc None R ltac:(lia) ltac:(discriminate)) as (T1 & T2 & T3 & c' & T4 & T5 & _).
    destruct (to_split_ok 0 c C cc (Some 0%nat) R ltac:(lia) ltac:(intros k0 E0; injection E0 as <-; rewrite S1; cbn; lia)) as (U1 & U2 & U3 & c'' & U4 & U5 & U6 & U7).
    rewrite T1, S1. rewrite S1 in T4. rewrite S1 in U4.
    replace (zprod [Z.of_nat (length vals)]) with (Z.of_nat (length vals)) by (unfold zprod; cbn; lia).
    assert (FIN : forall sp ls c1, represents (rep_fun ax vals G) (upd (d_gshape a) ax (zsum vals)) sp c1 ls -> length c1 = length cnts -> sp = d_split a ->
       exists y G' cnts', assemble dflt sp ls = Ok y /\ d_gshape y = upd (d_gshape a) ax (zsum vals) /\ d_split y = d_split a /\ rep y cnts' G' /\ repeated_along ax vals (d_gshape a) G G' /\
          (forall s, d_split y = Some s -> cnts' = zcounts (nth s (d_gshape y) 0) (length cnts))).
    { intros sp ls c1 RR L1 Esp. destruct (assemble_ok dflt _ _ _ _ _ RR ltac:(lia)) as (y & c2 & F1 & F2 & F3 & F4 & F5 & F6).
      exists y, (rep_fun ax vals G), c2. split; [auto|]. split; [auto|]. split; [congruence|]. split; [auto|]. split; [auto|]. intros s Hs. rewrite F2, <- L1. apply F6. congruence. }
    assert (FT : fits vals vals (Z.to_nat (nth ax (d_gshape a) 0))) by (right; split; [auto|unfold n in *; lia]).
    assert (CN : forall x, In x (map flat (d_locals (to_split 0 c None))) -> x = vals) by (intros x I; rewrite (counts_none _ _ _ _ T4 x I); now rewrite <- S1).
    destruct (d_split a) as [s|] eqn:ES.
    + destruct (Nat.eqb_spec s ax) as [->|N].
      * assert (Ec : c'' = cnts).
        { specialize (AL cnts n (HAl N1 eq_refl)). destruct (d_split c) as [sc|] eqn:ESc; cbn [oeqb] in AL.
          - destruct (Nat.eqb_spec sc 0) as [->|Nc]; [rewrite (proj1 (U6 eq_refl)); auto|].
            rewrite (U7 0%nat eq_refl) by congruence. rewrite S1. cbn [nth]. rewrite HLen, L. auto.
          - rewrite (U7 0%nat eq_refl) by congruence. rewrite S1. cbn [nth]. rewrite HLen, L. auto. }
        subst c''. set (cl := map flat (d_locals (to_split 0 c (Some 0%nat)))).
        assert (EV : concat cl = vals) by (unfold cl; rewrite (flat_split0 _ _ _ _ U4), <- S1; auto).
        destruct (repeat_split dflt G (d_gshape a) ax cnts (d_locals a) cl cl HR0) as (ls' & F1 & F2 & F3).
        { unfold cl. rewrite map_length. lia. } { unfold cl. rewrite map_length. lia. }
        { intros q Hq. right. split; auto. unfold cl. set (d0 := mk_arr [] (fun _ : list Z => 0)). rewrite (nth_indep _ [] (flat d0)) by (rewrite map_length; lia). rewrite map_nth.
          rewrite (flat_len0 _ _ _ _ q d0 U4) by lia. cbn [tl]. change (zprod []) with 1. f_equal. lia. }
        { now rewrite EV. }
        rewrite EV in F2. unfold local_repeats. rewrite F1. cbn [bind]. apply (FIN _ _ _ F2); auto. pose proof (proj1 F2). lia.
      * replace (nth ax (d_gshape a) 0 =? Z.of_nat (length vals)) with true by (unfold n in *; lia). cbn [negb].
        destruct (repeat_other dflt G (d_gshape a) (Some s) cnts (d_locals a) ax vals vals (map flat (d_locals (to_split 0 c None))) HR0 Ha) as (ls' & F1 & F2 & F3); auto; [congruence|rewrite map_length; lia|].
        unfold local_repeats. rewrite F1. cbn [bind]. apply (FIN _ _ _ F2); auto.
    + replace (nth ax (d_gshape a) 0 =? Z.of_nat (length vals)) with true by (unfold n in *; lia). cbn [negb].
      destruct (repeat_other dflt G (d_gshape a) None cnts (d_locals a) ax vals vals (map flat (d_locals (to_split 0 c None))) HR0 Ha) as (ls' & F1 & F2 & F3); auto; [congruence|rewrite map_length; lia|].
      unfold local_repeats. rewrite F1. cbn [bind]. apply (FIN _ _ _ F2); auto.
Qed.
Print Assumptions C82_repeat_axis_partial.
