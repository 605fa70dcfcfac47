(** Proofs for repeat: flattened arrays, counts, assembling the result. *)
From Verif Require Import Base BaseLemmas LayoutModel LayoutProofs NdSpec TensorSpec TensorLemmas NdLemmas OpsModel OpsProofs4 OpsProofs5 RedistModel ShapeModel ShapeProps ShapeProofs6 BinModel BinProofs BinProofs2 SlabLemmas RollModel RollProofs3 ReshapeModel ReshapeProofs FactoryModel FactoryProps ConcatProofs3 RepeatSpec RepeatModel RepeatProofs RepeatProofs2.
Open Scope Z_scope.

Lemma vector_represents {A} (dflt : A) (d : list (list A)) :
  represents (fun idx => nth (Z.to_nat (nth 0 idx 0)) (concat d) dflt) [Z.of_nat (length (concat d))] (Some 0%nat) (map Z.of_nat (lens d)) (map (vector dflt) d).
Proof.
  split; [unfold lens; now rewrite !map_length|]. split; [constructor; [lia|constructor]|]. split; [cbn; lia|]. split; [apply Forall_forall; intros z Hz; apply in_map_iff in Hz as (k & <- & _); lia|].
  split. { cbn [nth]. induction d as [|x d IH]; [reflexivity|]. cbn [lens map concat]. rewrite app_length. change (zsum (Z.of_nat (length x) :: map Z.of_nat (map (@length A) d))) with (Z.of_nat (length x) + zsum (map Z.of_nat (lens d))). rewrite IH. lia. }
  intros r t Ht. rewrite nth_error_map in Ht. destruct (nth_error d r) as [x|] eqn:E; [|discriminate]. injection Ht as <-.
  assert (En : nth r d [] = x) by now apply nth_error_nth.
  split. { cbn [vector ash upd]. f_equal. change 0 with (Z.of_nat 0). rewrite map_nth. f_equal. unfold lens. erewrite nth_error_nth; [|rewrite nth_error_map, E; reflexivity]. reflexivity. }
  intros idx Hi. cbn [upd] in Hi. inversion Hi as [|? k ? l0 H1 H2]; subst. inversion H2; subst. cbn [vector adat nth move_axis_idx upd].
  assert (HK : 0 <= k < Z.of_nat (length (nth r d []))). { replace (nth r (map Z.of_nat (lens d)) 0) with (Z.of_nat (length (nth r d []))) in H1; [lia|]. change 0 with (Z.of_nat 0). rewrite map_nth. f_equal. unfold lens. erewrite (nth_error_nth (map _ d)); [|rewrite nth_error_map, E; reflexivity]. reflexivity. }
  rewrite psum_zsum_nat. change (concat d) with (glob d). rewrite <- (@glob_nth _ d r (Z.to_nat k) dflt) by lia. f_equal. lia.
Qed.
Definition flat_fun {A} (dflt : A) (G : list Z -> A) (gsh : list Z) (idx : list Z) : A := nth (Z.to_nat (nth 0 idx 0)) (map G (row_major gsh)) dflt.

Lemma repeat_flat_none {A} (dflt : A) (G : list Z -> A) gsh cnts ls reps l cs :
  represents G gsh None cnts ls -> fits reps l (Z.to_nat (zprod gsh)) -> Forall (fun k => 0 <= k) l ->
  length cs = length ls -> (forall c, In c cs -> c = reps) ->
  exists ls', all_ok (map (fun p => torch_repeat dflt (fst p) (snd p) None) (combine ls cs)) = Ok ls' /\
    represents (rep_fun 0 l (flat_fun dflt G gsh)) [zsum l] None cnts ls' /\ length ls' = length ls.
Proof.
  intros (HL & Hn & HX) HF Fn HLc HC. pose proof (row_major_length gsh Hn) as RL.
  set (v := vector dflt (spread (map G (row_major gsh)) l)).
  assert (LE : length (map G (row_major gsh)) = length l) by (rewrite map_length, (fits_length _ _ _ HF); lia).
  exists (map (fun _ => v) ls). split; [|split; [|apply map_length]].
  - rewrite (all_ok_map_ok _ (fun p => v)).
    + f_equal. clear -HLc. revert cs HLc. induction ls as [|x ls IH]; intros [|c cs] H; cbn in *; try lia; auto. now rewrite IH by lia.
    + intros [t c] I. cbn [fst snd]. rewrite (HC c) by (now apply in_combine_r in I). apply in_combine_l in I. cbn [torch_repeat].
      rewrite (flat_all t gsh G) by auto. rewrite (torch_counts_fits reps l); auto. rewrite map_length. replace (length (row_major gsh)) with (Z.to_nat (zprod gsh)) by lia. auto.
  - split; [now rewrite map_length|]. split; [constructor; [now apply zs_nonneg|constructor]|]. intros t Ht. apply in_map_iff in Ht as (_ & <- & _).
    split; [unfold v; cbn [vector ash]; f_equal; now apply spread_length|]. intros idx Hi. inversion Hi as [|? k ? l0 H1 H2]; subst. inversion H2; subst.
    unfold v. cbn [vector adat nth]. unfold rep_fun, flat_fun. cbn [upd nth]. rewrite nth_spread by auto. now rewrite Nat2Z.id.
Qed.
Lemma flat_split0 {A} (G : list Z -> A) gsh cnts ls : represents G gsh (Some 0%nat) cnts ls -> concat (map flat ls) = map G (row_major gsh).
Proof.
  intros (HL & Hn & Hs & Hc & Hsum & HX). destruct gsh as [|g gsh]; [cbn in Hs; lia|]. rewrite (flat_blocks gsh ls cnts G HL Hc).
  - now rewrite Hsum.
  - intros r t Ht. exact (HX r t Ht).
Qed.
Lemma repeat_flat_split {A} (dflt : A) (G : list Z -> A) gsh cnts ls cs lr :
  represents G gsh (Some 0%nat) cnts ls -> length cs = length ls -> length lr = length ls ->
  (forall r, (r < length ls)%nat -> fits (nth r cs []) (nth r lr []) (length (flat (nth r ls (mk_arr [] (fun _ => dflt)))))) ->
  Forall (fun k => 0 <= k) (concat lr) ->
  exists ls', all_ok (map (fun p => torch_repeat dflt (fst p) (snd p) None) (combine ls cs)) = Ok ls' /\
    represents (rep_fun 0 (concat lr) (flat_fun dflt G gsh)) [zsum (concat lr)] (Some 0%nat) (map zsum lr) ls' /\ length ls' = length ls.
Proof.
  intros HR HLc HLr HF Fn. assert (FS := flat_split0 _ _ _ _ HR). set (d0 := mk_arr [] (fun _ => dflt)) in *.
  set (g := fun p : arr A * list Z => vector dflt (spread (flat (fst p)) (snd p))).
  exists (map g (combine ls lr)). split; [|split; [|rewrite map_length, combine_length; lia]].
  - apply (all_ok_two _ _ ls cs lr d0 [] []); auto. intros r Hr. cbn [fst snd torch_repeat].
    rewrite (torch_counts_fits _ (nth r lr [])); [reflexivity|auto|]. apply (Forall_concat_in _ lr); auto. apply nth_In. lia.
  - set (d := map flat ls) in *. set (d' := map (fun p => spread (fst p) (snd p)) (combine d lr)).
    assert (ED : map g (combine ls lr) = map (vector dflt) d') by (unfold d', d, g; now rewrite combine_map_l, !map_map).
    assert (F2 : Forall2 (fun x r => length x = length r) d lr).
    { apply (Forall2_nth_intro _ _ _ (flat d0) []); [unfold d; rewrite map_length; lia|]. intros i Hi. unfold d in *. rewrite map_length in Hi. rewrite map_nth. symmetry. apply (fits_length _ _ _ (HF i Hi)). }
    assert (LE : length (concat d) = length (concat lr)). { clear -F2. induction F2; cbn; auto. rewrite !app_length. lia. }
    rewrite ED. pose proof (vector_represents dflt d') as R.
    assert (EC : concat d' = spread (concat d) (concat lr)) by (unfold d'; now apply spread_glob). rewrite EC in R. rewrite spread_length in R by auto.
    assert (EL : map Z.of_nat (lens d') = map zsum lr).
    { unfold d', lens. rewrite !map_map. clear -F2 Fn. induction F2 as [|x r d lr H F2 IH]; [reflexivity|]. cbn [combine map fst snd concat] in *.
      apply Forall_app in Fn as [F1 F3]. rewrite IH by auto. f_equal. now apply spread_length. }
    rewrite EL in R. destruct R as (R1 & R2 & R3 & R4 & R5 & R6). split; [auto|]. split; [auto|]. split; [auto|]. split; [auto|]. split; [auto|].
    intros r t Ht. eapply agrees_ext; [apply (R6 r t Ht)|]. intros idx Hi. cbn beta. inversion Hi as [|? k ? l0 H1 H2]; subst.
    unfold rep_fun, flat_fun. cbn [move_axis_idx upd nth]. rewrite nth_spread by auto. rewrite FS. now rewrite Nat2Z.id.
Qed.

Lemma to_split_ok {A} (dflt : A) (x : dnd A) (G : list Z -> A) cnts b : rep x cnts G -> (0 < length cnts)%nat ->
  (forall k, b = Some k -> (k < length (d_gshape x))%nat) ->
  let y := to_split dflt x b in
  d_gshape y = d_gshape x /\ d_split y = b /\ length (d_locals y) = length cnts /\
  exists cnts', represents G (d_gshape x) b cnts' (d_locals y) /\ length cnts' = length cnts /\
    (b = d_split x -> cnts' = cnts /\ y = x) /\ forall k, b = Some k -> b <> d_split x -> cnts' = zcounts (nth k (d_gshape x) 0) (length cnts).
Proof.
  intros HR HP Hb. unfold rep in HR. pose proof (proj1 HR) as HL. unfold to_split. destruct (oeqb (d_split x) b) eqn:EO.
  - assert (E : d_split x = b) by (destruct (d_split x), b; cbn in EO; try discriminate; auto; apply Nat.eqb_eq in EO; now subst). rewrite E in *.
    cbn zeta. split; [auto|]. split; [auto|]. split; [auto|]. exists cnts. split; [auto|]. split; [auto|]. split; [auto|]. intros k H1 H2. congruence.
  - assert (NE : d_split x <> b) by (intros E; rewrite E in EO; destruct b; cbn in EO; [rewrite Nat.eqb_refl in EO|]; discriminate).
    unfold resplit. destruct (d_split x) as [s|] eqn:ES.
    + assert (X := resplit_any_ok dflt x G cnts s b HR ES HP Hb). cbn zeta in X. replace (match b with Some _ | _ => resplit_any dflt x b end) with (resplit_any dflt x b) by (destruct b; auto).
      destruct X as (X1 & X2 & X3 & c' & X4 & X5 & X6 & X7).
      cbn zeta. split; [auto|]. split; [auto|]. split; [auto|]. exists c'. split; [auto|]. split; [auto|]. split; [congruence|]. intros k Hk _. apply X7; auto. congruence.
    + destruct b as [k|]; [|congruence]. assert (Hk := Hb k eq_refl).
      assert (N0 : 0 <= nth k (d_gshape x) 0) by (destruct HR as (_ & Hn & _); rewrite Forall_forall in Hn; apply Hn, nth_In; auto).
      destruct (zcounts_ok (nth k (d_gshape x) 0) (length cnts) HP N0) as (Z1 & Z2 & Z3). rewrite HL.
      assert (C := cut_map_aligned x G cnts k _ HR Hk Z1 Z2 Z3).
      cbn zeta. split; [auto|]. split; [auto|]. split; [rewrite (proj1 C); auto|]. eexists. split; [exact C|]. split; [auto|]. split; [congruence|]. intros k' E _. injection E as <-. auto.
Qed.

Lemma assemble_ok {A} (dflt : A) (G : list Z -> A) gsh sp cnts ls : represents G gsh sp cnts ls -> (0 < length cnts)%nat ->
  exists y cnts', assemble dflt sp ls = Ok y /\ d_gshape y = gsh /\ d_split y = sp /\ rep y cnts' G /\ length cnts' = length cnts /\
    forall s, sp = Some s -> cnts' = zcounts (nth s gsh 0) (length cnts).
Proof.
  intros HR HP. pose proof (proj1 HR) as HL. destruct sp as [s|]; cbn [assemble].
  - destruct (C55_array_is_split A ls s G gsh cnts HR ltac:(lia)) as (y & bal & E & E1 & E2 & E3 & E4 & _). rewrite E. cbn [bind fst].
    unfold rep in E4. rewrite E2 in E4.
    destruct (balance_nd_ok dflt y G cnts s E4 HP) as (z & F1 & F2 & F3 & F4). exists z, (zcounts (nth s gsh 0) (length cnts)).
    rewrite E1 in *. split; [auto|]. split; [auto|]. split; [congruence|]. split; [unfold rep; rewrite F2, F3, E2; auto|].
    assert (N0 : 0 <= nth s gsh 0) by (destruct HR as (_ & Hn & Hs & _); rewrite Forall_forall in Hn; apply Hn, nth_In; auto).
    split; [apply (zcounts_ok _ _ HP N0)|]. intros s' Es. now injection Es as <-.
  - destruct ls as [|t ls]; [cbn in HL; lia|]. eexists _, cnts. split; [reflexivity|]. cbn [nth d_gshape d_split]. destruct HR as (_ & Hn & HX).
    destruct (HX t ltac:(now left)) as [Es _]. rewrite Es. split; [auto|]. split; [auto|]. split; [split; [auto|split; auto]|]. split; [auto|]. discriminate.
Qed.

(** the counts of a one-dimensional array *)
Lemma counts_none (C : list Z -> Z) m cc ls : represents C [m] None cc ls -> forall c, In c (map flat ls) -> c = map C (row_major [m]).
Proof. intros (_ & _ & HX) c I. apply in_map_iff in I as (t & <- & I). now apply flat_all, HX. Qed.
Lemma flat_len0 {A} (G : list Z -> A) gsh cnts ls r d0 : represents G gsh (Some 0%nat) cnts ls -> (r < length ls)%nat ->
  length (flat (nth r ls d0)) = Z.to_nat (nth r cnts 0 * zprod (tl gsh)).
Proof.
  intros (HL & Hn & Hs & Hc & Hsum & HX) Hr. destruct (nth_error ls r) as [t|] eqn:E; [|apply nth_error_None in E; lia].
  rewrite (nth_error_nth _ _ _ E). destruct (HX r t E) as [Es _]. unfold flat. rewrite map_length, Es.
  destruct gsh as [|g gsh]; [cbn in Hs; lia|]. cbn [upd tl].
  assert (C0 : 0 <= nth r cnts 0) by (rewrite Forall_forall in Hc; apply Hc, nth_In; lia).
  assert (X := row_major_length (nth r cnts 0 :: gsh) ltac:(constructor; [auto|now inversion Hn])). change (zprod (nth r cnts 0 :: gsh)) with (nth r cnts 0 * zprod gsh) in X. lia.
Qed.
