From Verif Require Import Base BaseLemmas LayoutModel LayoutProofs RedistModel RedistProofs MetaModel.
Set Implicit Arguments.

(** A freshly created, consistent array. *)
Definition m_wf (m : meta) : Prop :=
  0 < m_size m /\ length (m_bal m) = m_size m /\
  match m_split m with
  | None => True
  | Some s => s < length (m_shape m) /\ list_sum (m_counts m) = nth s (m_shape m) 0
  end.
Definition cache_ok (m : meta) : Prop := m_cache m = None \/ m_cache m = Some (actual_map m).
Definition flag_ok (m : meta) : Prop :=
  forall r, nth r (m_bal m) None = Some true -> m_split m <> None -> balanced_check m = true.

(** Admissible operations: targets describe local shapes of this array, the larray
    setter keeps local extents, resplit axes exist. *)
Definition op_ok (m : meta) (o : mop) : Prop :=
  match o with
  | OpRedist (Some t) => match m_split m with
       | None => True
       | Some s => exists c, t = map (fun x => upd (m_shape m) s x) c /\ length c = m_size m end
  | OpResplit (Some a) => a < length (m_shape m)
  | OpSet c => c = m_counts m
  | _ => True
  end.
Fixpoint ops_ok (m : meta) (ops : list mop) : Prop :=
  match ops with [] => True | o :: t => op_ok m o /\ ops_ok (mstep m o) t end.

Lemma chunk_counts_eq n P : map (fun r => snd (chunk_1d n r P)) (seq 0 P) = counts_of n P.
Proof. unfold counts_of. apply map_ext. intros r. apply clen_val. Qed.

Lemma balanced_check_counts m s : m_split m = Some s -> 1 < m_size m ->
  balanced_check m = true <-> m_counts m = counts_of (nth s (m_shape m) 0) (m_size m).
Proof.
  intros Es Hp. unfold balanced_check. rewrite Es. destruct (Nat.leb_spec (m_size m) 1); [lia|].
  rewrite chunk_counts_eq. unfold eqb_list. destruct (list_eq_dec Nat.eq_dec _ _); split; auto; congruence.
Qed.

Lemma upd_id {A} (l : list A) k d : upd l k (nth k l d) = l.
Proof. revert k; induction l; intros [|k]; simpl; auto. now rewrite IHl. Qed.

Lemma create_spec m force : m_wf m -> cache_ok m ->
  snd (create_lshape_map force m) = actual_map m /\
  fst (create_lshape_map force m) = set_cache m (Some (actual_map m)).
Proof.
  intros (Hp & Hb & Hs) Hc. unfold create_lshape_map.
  assert (K : (if negb (distributed m) then repeat (m_shape m) (m_size m)
        else match m_split m with
             | None => []
             | Some s => if balanced_check m
               then map (fun r => upd (m_shape m) s (snd (chunk_1d (nth s (m_shape m) 0) r (m_size m)))) (seq 0 (m_size m))
               else actual_map m end) = actual_map m).
  { unfold distributed. destruct (m_split m) as [s|] eqn:Es.
    - destruct (Nat.ltb_spec 1 (m_size m)); cbn [negb].
      + destruct (balanced_check m) eqn:B; auto.
        rewrite (balanced_check_counts m Es) in B by auto. unfold actual_map. rewrite Es, B.
        rewrite <- chunk_counts_eq at 1. now rewrite map_map.
      + unfold actual_map. rewrite Es. unfold m_size in *. destruct (m_counts m) as [|c [|]]; simpl in *; try lia.
        destruct Hs as [Hs1 Hs2]. autorewrite with lsum in Hs2. f_equal. replace c with (nth s (m_shape m) 0) by lia. now rewrite upd_id.
    - cbn. unfold actual_map. now rewrite Es. }
  destruct force.
  - rewrite K. auto.
  - destruct Hc as [Hc|Hc]; rewrite Hc; [rewrite K; auto|]. split; auto. destruct m; unfold set_cache; cbn in *. congruence.
Qed.

Lemma col_actual m s c : s < length (m_shape m) -> col s (map (fun x => upd (m_shape m) s x) c) = c.
Proof. intros H. unfold col. rewrite map_map. rewrite <- (map_id c) at 2. apply map_ext. intros x. now rewrite upd_same. Qed.

(** What redistribute_ does to the state, in one place. *)
Lemma m_redistribute_spec m s c : m_wf m -> cache_ok m -> m_split m = Some s -> 1 < m_size m ->
  length c = m_size m ->
  fst (m_redistribute m (Some (map (fun x => upd (m_shape m) s x) c))) =
  (if Nat.eqb (list_sum c) (nth s (m_shape m) 0)
   then Meta (m_shape m) (Some s) c (Some (map (fun x => upd (m_shape m) s x) c)) (repeat (Some false) (m_size m))
   else set_cache m (Some (actual_map m))).
Proof.
  intros W C Es Hp Lc. unfold m_redistribute. rewrite Es.
  assert (D : distributed m = true) by (unfold distributed; rewrite Es; lia). rewrite D. cbn [negb].
  destruct (create_lshape_map true m) as [m1 lmap] eqn:E.
  destruct (create_spec true W C) as [E1 E2]. rewrite E in E1, E2. cbn [fst snd] in E1, E2. subst m1 lmap.
  destruct W as (W1 & W2 & W3). rewrite Es in W3. destruct W3 as [W3 W4].
  unfold set_cache at 1. cbn [m_shape m_size]. change (m_size (set_cache m (Some (actual_map m)))) with (m_size m).
  change (m_shape (set_cache m (Some (actual_map m)))) with (m_shape m).
  rewrite col_actual by auto.
  destruct (Nat.eqb_spec (list_sum c) (nth s (m_shape m) 0)) as [Es2|Es2]; cbn [negb]; [|reflexivity].
  rewrite map_length, Lc, Nat.eqb_refl. cbn [negb orb].
  replace (existsb _ _) with false.
  2:{ symmetry. apply existsb_false_forall. intros row Hrow. apply in_map_iff in Hrow. destruct Hrow as (x & <- & _). now rewrite upd_length, Nat.eqb_refl. }
  rewrite col_actual by auto.
  assert (A : col s (actual_map m) = m_counts m) by (unfold actual_map; rewrite Es; apply col_actual; auto).
  rewrite A. change (m_size (set_bal (set_cache m (Some (actual_map m))) (Some false))) with (m_size m).
  destruct (@redist_passes_lemma (m_counts m) c) as (tr & n & R & N); [unfold m_size in *; lia|lia|lia|].
  rewrite Lc in R. rewrite R.
  destruct (1 <? n); cbn; rewrite Es; reflexivity.
Qed.

Lemma m_redistribute_none m s : m_wf m -> cache_ok m -> m_split m = Some s -> 1 < m_size m ->
  exists b, (b = true \/ b = false) /\
  fst (m_redistribute m None) =
  let c := counts_of (nth s (m_shape m) 0) (m_size m) in
  Meta (m_shape m) (Some s) c (Some (map (fun x => upd (m_shape m) s x) c)) (repeat (Some b) (m_size m)).
Proof.
  intros W C Es Hp. unfold m_redistribute. rewrite Es.
  assert (D : distributed m = true) by (unfold distributed; rewrite Es; lia). rewrite D. cbn [negb].
  destruct (create_lshape_map true m) as [m1 lmap] eqn:E.
  destruct (create_spec true W C) as [E1 E2]. rewrite E in E1, E2. cbn [fst snd] in E1, E2. subst m1 lmap.
  destruct W as (W1 & W2 & W3). rewrite Es in W3. destruct W3 as [W3 W4].
  change (m_size (set_cache m (Some (actual_map m)))) with (m_size m).
  change (m_shape (set_cache m (Some (actual_map m)))) with (m_shape m).
  assert (A : col s (actual_map m) = m_counts m) by (unfold actual_map; rewrite Es; apply col_actual; auto).
  set (n := nth s (m_shape m) 0) in *. set (P := m_size m) in *.
  assert (T : map (fun r => upd (nth r (actual_map m) []) s (snd (chunk_1d n r P))) (seq 0 P) = map (fun x => upd (m_shape m) s x) (counts_of n P)).
  { rewrite <- chunk_counts_eq, map_map. apply map_seq_ext. intros i Hi. unfold actual_map. rewrite Es.
    rewrite nth_indep with (d' := upd (m_shape m) s 0) by (rewrite map_length; exact Hi).
    rewrite (map_nth (fun c => upd (m_shape m) s c)). generalize (nth i (m_counts m) 0). generalize (snd (chunk_1d n i P)).
    clear. intros a b. revert s. induction (m_shape m); intros [|s]; simpl; auto. now rewrite IHl. }
  rewrite T. rewrite col_actual by auto. rewrite A. change (m_size (set_bal (set_cache m (Some (actual_map m))) (Some true))) with P.
  destruct (@redist_passes_lemma (m_counts m) (counts_of n P)) as (tr & k & R & N).
  { now rewrite counts_of_length. } { rewrite counts_of_sum; auto. } { now rewrite counts_of_length. }
  rewrite counts_of_length in R. rewrite R.
  destruct (1 <? k).
  - exists false. split; auto. cbn. rewrite Es. reflexivity.
  - exists true. split; auto. cbn. rewrite Es. reflexivity.
Qed.

Lemma nth_repeat_some b n r : nth r (repeat (Some b) n) None = Some true -> b = true.
Proof. rewrite nth_repeat_le. destruct (r <? n); congruence. Qed.

Lemma step_inv m o : m_wf m -> cache_ok m -> flag_ok m -> op_ok m o ->
  let m' := mstep m o in
  m_wf m' /\ cache_ok m' /\ flag_ok m' /\ m_size m' = m_size m /\ m_shape m' = m_shape m.
Proof.
  intros W C F O. cbv zeta.
  assert (KC : forall f, m_wf (fst (create_lshape_map f m)) /\ cache_ok (fst (create_lshape_map f m)) /\ flag_ok (fst (create_lshape_map f m))
     /\ m_size (fst (create_lshape_map f m)) = m_size m /\ m_shape (fst (create_lshape_map f m)) = m_shape m).
  { intros f. destruct (create_spec f W C) as [_ ->].
    split; [|split; [|split; [|split]]]; auto. now right. }
  (* redistribute with consistent target *)
  assert (KR : forall s c, m_split m = Some s -> 1 < m_size m -> length c = m_size m ->
     let m' := fst (m_redistribute m (Some (map (fun x => upd (m_shape m) s x) c))) in
     m_wf m' /\ cache_ok m' /\ flag_ok m' /\ m_size m' = m_size m /\ m_shape m' = m_shape m).
  { intros s c Es Hp Lc. cbv zeta. rewrite (m_redistribute_spec c W C Es Hp Lc).
    destruct W as (W1 & W2 & W3). rewrite Es in W3. destruct W3 as [W3 W4].
    destruct (Nat.eqb_spec (list_sum c) (nth s (m_shape m) 0)) as [E|E].
    - split; [|split; [|split; [|split]]].
      + unfold m_wf, m_size; cbn. rewrite repeat_length. unfold m_size in *. repeat split; auto; lia.
      + right; unfold actual_map; reflexivity.
      + intros r Hr _. cbn in Hr. apply nth_repeat_some in Hr. discriminate.
      + exact Lc.
      + reflexivity.
    - split; [|split; [|split; [|split]]]; auto.
      + unfold m_wf. cbn. rewrite Es. auto.
      + now right. }
  destruct o as [|t| |r|a|c]; cbn [mstep].
  - apply KC.
  - destruct (m_split m) as [s|] eqn:Es.
    2:{ unfold m_redistribute. rewrite Es. auto. }
    destruct (Nat.lt_ge_cases 1 (m_size m)) as [Hp|Hp].
    2:{ unfold m_redistribute. rewrite Es. unfold distributed. rewrite Es. destruct (Nat.ltb_spec 1 (m_size m)); [lia|]. cbn. auto. }
    destruct t as [t|].
    + cbn in O. rewrite Es in O. destruct O as (c & -> & Lc). apply KR; auto.
    + destruct (m_redistribute_none W C Es Hp) as (b & Hb & ->).
      destruct W as (W1 & W2 & W3). rewrite Es in W3. destruct W3 as [W3 W4]. cbv zeta.
      split; [|split; [|split; [|split]]].
      * unfold m_wf, m_size; cbn. rewrite repeat_length, counts_of_length, counts_of_sum by auto. repeat split; auto.
      * right; reflexivity.
      * intros r _ _. apply (@balanced_check_counts _ s); cbn; auto; unfold m_size; cbn; rewrite counts_of_length; auto.
      * unfold m_size at 1; cbn. apply counts_of_length.
      * reflexivity.
  - unfold m_balance. destruct (balanced_check m) eqn:B.
    + destruct (distributed m) eqn:D; cbn; auto.
      split; [|split; [|split; [|split]]]; auto.
      * destruct W as (W1 & W2 & W3). unfold m_wf; cbn. rewrite repeat_length. auto.
      * intros r _ _. exact B.
    + assert (exists s, m_split m = Some s /\ 1 < m_size m) as (s & Es & Hp).
      { unfold balanced_check in B. destruct (m_split m) as [s|]; [|discriminate]. destruct (Nat.leb_spec (m_size m) 1); [discriminate|]. eauto. }
      destruct (m_redistribute_none W C Es Hp) as (b & Hb & ->).
      destruct W as (W1 & W2 & W3). rewrite Es in W3. destruct W3 as [W3 W4]. cbv zeta.
      split; [|split; [|split; [|split]]].
      * unfold m_wf, m_size; cbn. rewrite repeat_length, counts_of_length, counts_of_sum by auto. repeat split; auto.
      * right; reflexivity.
      * intros r _ _. apply (@balanced_check_counts _ s); cbn; auto; unfold m_size; cbn; rewrite counts_of_length; auto.
      * unfold m_size at 1; cbn. apply counts_of_length.
      * reflexivity.
  - unfold m_collect. destruct (m_size m <=? r); [cbn; auto|].
    destruct (m_split m) as [s|] eqn:Es; [|cbn; auto].
    destruct (distributed m) eqn:D; cbn [negb]; [|cbn; auto].
    assert (Hp : 1 < m_size m) by (unfold distributed in D; rewrite Es in D; lia).
    destruct (create_lshape_map false m) as [m1 lmap] eqn:E.
    destruct (create_spec false W C) as [E1 E2]. rewrite E in E1, E2. cbn [fst snd] in E1, E2.
    set (c := upd (repeat 0 (m_size m)) r (nth s (m_shape m) 0)).
    assert (T : upd (map (fun row => upd row s 0) lmap) r (upd (nth r (map (fun row => upd row s 0) lmap) []) s (nth s (m_shape m1) 0))
                = map (fun x => upd (m_shape m) s x) c).
    { subst lmap m1. change (m_shape (set_cache m (Some (actual_map m)))) with (m_shape m). set (n := nth s (m_shape m) 0).
      assert (UU : forall l (a b : nat), upd (upd l s a) s b = upd l s b).
      { clear. intros l a b. revert s. induction l; intros [|s]; simpl; auto. now rewrite IHl. }
      assert (Z : map (fun row => upd row s 0) (actual_map m) = map (fun x => upd (m_shape m) s x) (repeat 0 (m_size m))).
      { unfold actual_map. rewrite Es, map_map. unfold m_size. clear - UU. induction (m_counts m); simpl; auto. now rewrite IHl, UU. }
      rewrite Z. unfold c. fold n. generalize (m_size m). intros P. clear - UU. revert r. induction P; intros [|r]; simpl; auto.
      - now rewrite UU.
      - now rewrite IHP. }
    rewrite T.
    assert (W' : m_wf m1) by (subst m1; destruct W as (?&?&?); split; auto).
    assert (C' : cache_ok m1) by (subst m1; right; reflexivity).
    assert (Es' : m_split m1 = Some s) by (subst m1; auto).
    assert (Hp' : 1 < m_size m1) by (subst m1; auto).
    assert (Lc : length c = m_size m1) by (unfold c; rewrite upd_length, repeat_length; subst m1; auto).
    assert (Hsh : m_shape m1 = m_shape m) by (subst m1; auto).
    assert (Hsz : m_size m1 = m_size m) by (subst m1; auto).
    rewrite <- Hsh. rewrite (m_redistribute_spec c W' C' Es' Hp' Lc). rewrite Hsh, Hsz.
    destruct W as (W1 & W2 & W3). rewrite Es in W3. destruct W3 as [W3 W4].
    destruct (Nat.eqb_spec (list_sum c) (nth s (m_shape m) 0)) as [E0|E0].
    + split; [|split; [|split; [|split]]].
      * unfold m_wf, m_size; cbn. rewrite repeat_length. rewrite Lc, Hsz. repeat split; auto; lia.
      * right; unfold actual_map; reflexivity.
      * intros q Hq _. cbn in Hq. apply nth_repeat_some in Hq. discriminate.
      * unfold m_size at 1. cbn. congruence.
      * reflexivity.
    + subst m1. split; [|split; [|split; [|split]]]; auto.
  - (* resplit *)
    unfold m_resplit. destruct W as (W1 & W2 & W3).
    destruct (Nat.eqb_spec (m_size m) 1) as [P1|P1].
    + cbn [m_split m_shape m_counts m_bal].
      assert (opt_nat_eqb a a = true) as -> by (destruct a; cbn; auto; apply Nat.eqb_refl).
      cbn [fst]. unfold m_size in *. split; [|split; [|split; [|split]]].
      * unfold m_wf, m_size; cbn. destruct a as [a|]; cbn; [|repeat split; auto; lia]. cbn in O. rewrite P1 in W2. autorewrite with lsum. repeat split; auto; lia.
      * destruct C as [C|C]; unfold cache_ok; cbn; [now left|right]. rewrite C. f_equal. unfold actual_map, m_size; cbn.
        rewrite P1. destruct (m_split m) as [s0|].
        -- destruct (m_counts m) as [|x [|]]; simpl in P1; try lia. autorewrite with lsum in W3. cbn.
           replace (upd (m_shape m) s0 x) with (m_shape m) by (replace x with (nth s0 (m_shape m) 0) by lia; now rewrite upd_id).
           destruct a as [a|]; cbn; auto. now rewrite upd_id.
        -- destruct (m_counts m) as [|x [|]]; simpl in P1; try lia. destruct a as [a|]; cbn; auto. now rewrite upd_id.
      * intros r Hr Hn. unfold balanced_check; cbn. destruct a as [a|]; auto. 
      * destruct a; cbn; auto.
      * reflexivity.
    + destruct (opt_nat_eqb a (m_split m)) eqn:E; cbn [fst].
      * repeat split; auto.
      * destruct a as [a|]; cbn [fst].
        -- cbn in O. split; [|split; [|split; [|split]]].
           ++ unfold m_wf, m_size; cbn. rewrite counts_of_length, counts_of_sum by auto. repeat split; auto.
           ++ now left.
           ++ intros r _ _. apply (@balanced_check_counts _ a); cbn; auto; unfold m_size; cbn; rewrite counts_of_length; auto. unfold m_size in *; lia.
           ++ unfold m_size at 1; cbn. apply counts_of_length.
           ++ reflexivity.
        -- split; [|split; [|split; [|split]]]; auto.
           ++ unfold m_wf; cbn; auto.
           ++ now left.
           ++ intros r _ H; cbn in H; congruence.
  - (* set larray, same extents *)
    cbn in O. subst c. unfold m_set_larray. destruct (m_split m) as [s|] eqn:Es; auto.
    assert (E : map (fun r => if Nat.eqb (nth r (m_counts m) 0) (nth r (m_counts m) 0) then nth r (m_bal m) None else None) (seq 0 (m_size m)) = m_bal m).
    { destruct W as (_ & W2 & _). rewrite <- W2. rewrite <- (map_nth_seq (m_bal m) None) at 2. apply map_ext. intros. now rewrite Nat.eqb_refl. }
    rewrite E. rewrite <- Es. destruct m; cbn in *. repeat split; try apply W; auto.
Qed.

Lemma run_inv ops : forall m, m_wf m -> cache_ok m -> flag_ok m -> ops_ok m ops ->
  m_wf (mrun m ops) /\ cache_ok (mrun m ops) /\ flag_ok (mrun m ops).
Proof.
  induction ops as [|o ops IH]; intros m W C F O; [auto|].
  cbn [ops_ok] in O. destruct O as [O1 O2]. destruct (step_inv o W C F O1) as (W' & C' & F' & _).
  unfold mrun. cbn [fold_left]. apply IH; auto.
Qed.

Lemma meta_lemma : forall m ops, m_wf m -> m_cache m = None -> (forall r, nth r (m_bal m) None <> Some true \/ balanced_check m = true) ->
  ops_ok m ops ->
  reported_map (mrun m ops) = actual_map (mrun m ops) /\
  (forall r, nth r (m_bal (mrun m ops)) None = Some true -> m_split (mrun m ops) <> None -> balanced_check (mrun m ops) = true).
Proof.
  intros m ops W C F O. destruct (@run_inv ops m W (or_introl C)) as (W' & C' & F'); auto.
  { intros r Hr _. destruct (F r); congruence. }
  split; [|exact F']. unfold reported_map. apply (create_spec false W' C').
Qed.
