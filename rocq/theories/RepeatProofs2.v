(** Proofs for repeat: the distributed axis and the flattened array. *)
From Verif Require Import Base BaseLemmas LayoutModel LayoutProofs NdSpec TensorSpec TensorLemmas NdLemmas OpsModel OpsProofs4 OpsProofs5 RedistModel ShapeModel BinModel BinProofs SlabLemmas RollModel ReshapeModel FactoryModel RepeatSpec RepeatModel RepeatProofs.
Open Scope Z_scope.

Lemma spread_glob {A} (d : list (list A)) (lr : list (list Z)) : Forall2 (fun x r => length x = length r) d lr ->
  concat (map (fun p => spread (fst p) (snd p)) (combine d lr)) = spread (concat d) (concat lr).
Proof. induction 1 as [|x r d lr H HF IH]; [reflexivity|]. cbn [combine map concat fst snd]. rewrite IH. now rewrite spread_app. Qed.
Lemma Forall2_nth_intro {A B} (Q : A -> B -> Prop) l m da db : length l = length m -> (forall i, (i < length l)%nat -> Q (nth i l da) (nth i m db)) -> Forall2 Q l m.
Proof.
  revert m. induction l as [|x l IH]; intros [|y m] H HQ; cbn in H; try discriminate; constructor; [apply (HQ 0%nat); cbn; lia|].
  apply IH; [lia|]. intros i Hi. apply (HQ (S i)). cbn. lia.
Qed.
Lemma combine_map_l {A B C} (f : A -> B) (l : list A) (m : list C) : combine (map f l) m = map (fun p => (f (fst p), snd p)) (combine l m).
Proof. revert m. induction l as [|x l IH]; intros [|y m]; cbn; auto. now rewrite IH. Qed.
Lemma zsum_concat (lr : list (list Z)) : zsum (concat lr) = zsum (map zsum lr).
Proof.
  induction lr as [|l lr IH]; [reflexivity|]. cbn [concat map]. change (zsum (zsum l :: map zsum lr)) with (zsum l + zsum (map zsum lr)).
  rewrite <- IH. clear. induction l as [|x l IH]; cbn [app]; [change (zsum []) with 0; lia|]. change (zsum (x :: l ++ concat lr)) with (x + zsum (l ++ concat lr)). change (zsum (x :: l)) with (x + zsum l). lia.
Qed.
Lemma Forall_concat_in {A} (Q : A -> Prop) lr (l : list A) : Forall Q (concat lr) -> In l lr -> Forall Q l.
Proof. intros H I. apply Forall_forall. intros x Hx. rewrite Forall_forall in H. apply H. apply in_concat. eauto. Qed.

Lemma all_ok_two {A B C D} (f : A * C -> res B) (g : A * D -> B) l c1 c2 da dc dd : length c1 = length l -> length c2 = length l ->
  (forall r, (r < length l)%nat -> f (nth r l da, nth r c1 dc) = Ok (g (nth r l da, nth r c2 dd))) ->
  all_ok (map f (combine l c1)) = Ok (map g (combine l c2)).
Proof.
  revert c1 c2. induction l as [|x l IH]; intros [|a c1] [|b c2] H1 H2 H; cbn in H1, H2; try discriminate; [reflexivity|].
  cbn. pose proof (H 0%nat ltac:(cbn; lia)) as H0. cbn [nth] in H0. rewrite H0. cbn [bind]. rewrite (IH c1 c2); [reflexivity|lia|lia|]. intros r Hr. apply (H (S r)). cbn. lia.
Qed.
Lemma repeat_split {A} (dflt : A) (G : list Z -> A) gsh s cnts ls cs lr :
  represents G gsh (Some s) cnts ls -> length cs = length ls -> length lr = length ls ->
  (forall r, (r < length ls)%nat -> fits (nth r cs []) (nth r lr []) (Z.to_nat (nth r cnts 0))) ->
  Forall (fun k => 0 <= k) (concat lr) ->
  exists ls', all_ok (map (fun p => torch_repeat dflt (fst p) (snd p) (Some s)) (combine ls cs)) = Ok ls' /\
    represents (rep_fun s (concat lr) G) (upd gsh s (zsum (concat lr))) (Some s) (map zsum lr) ls' /\ length ls' = length ls.
Proof.
  intros HR HLc HLr HF Fn. pose proof HR as (HL & Hn & Hs & Hc & Hsum & HX). set (P := length ls) in *.
  destruct (slabs_view _ _ _ _ _ HR) as (LN & GL & V). set (d := map (slabs s) ls) in *.
  set (gsh' := upd gsh s (zsum (concat lr))).
  set (g := fun p : arr A * list Z => unslabs dflt s gsh' (spread (slabs s (fst p)) (snd p))).
  assert (LT : forall r, (r < P)%nat -> length (nth r lr []) = Z.to_nat (nth r cnts 0)) by (intros r Hr; apply (fits_length _ _ _ (HF r Hr))).
  assert (N0 : 0 <= nth s gsh 0) by (rewrite Forall_forall in Hn; apply Hn, nth_In; auto).
  exists (map g (combine ls lr)). split; [|split; [|rewrite map_length, combine_length; lia]].
  - apply (all_ok_two _ _ ls cs lr (mk_arr [] (fun _ => dflt)) [] []); auto. intros r Hr. cbn [fst snd].
    destruct (nth_error ls r) as [t|] eqn:Et; [|apply nth_error_None in Et; lia]. rewrite (nth_error_nth _ _ _ Et).
    specialize (HX r t Et). assert (C0 : 0 <= nth r cnts 0) by (rewrite Forall_forall in Hc; apply Hc, nth_In; lia).
    destruct (agrees_repeat dflt t _ _ s (nth r cs []) (nth r lr []) HX) as [X _]; rewrite ?upd_length; auto; rewrite ?upd_same by auto; auto.
    { apply (Forall_concat_in _ lr); auto. apply nth_In. lia. }
    rewrite X. unfold g. cbn [fst snd]. f_equal. unfold unslabs, gsh'. destruct HX as [-> _]. now rewrite !upd_upd.
  - assert (F' : Forall (fun n => 0 <= n) gsh').
    { apply Forall_forall. intros z Hz. apply (In_nth _ _ 0) in Hz as (k & Hk & <-). unfold gsh' in *. rewrite upd_length in Hk. destruct (Nat.eq_dec k s) as [->|N].
      - rewrite upd_same by auto. now apply zs_nonneg.
      - rewrite upd_other by auto. rewrite Forall_forall in Hn. apply Hn, nth_In; auto. }
    set (d' := map (fun p => spread (fst p) (snd p)) (combine d lr)).
    assert (ED : map g (combine ls lr) = map (unslabs dflt s gsh') d') by (unfold d', d, g; now rewrite combine_map_l, !map_map).
    assert (F2 : Forall2 (fun x r => length x = length r) d lr).
    { apply (Forall2_nth_intro _ _ _ [] []); [unfold d; rewrite map_length; lia|]. intros i Hi. unfold d in Hi. rewrite map_length in Hi. rewrite LT by auto.
      change (length (nth i d [])) with (length (nth i d [])). rewrite <- (map_nth (@length _)). change (length (@nil (list Z -> A))) with 0%nat. change (map (@length _) d) with (lens d). rewrite LN. change 0%nat with (Z.to_nat 0). now rewrite map_nth. }
    rewrite ED. apply unslabs_represents; auto.
    + unfold gsh'. now rewrite upd_length.
    + apply Forall_forall. intros z Hz. apply in_map_iff in Hz as (l0 & <- & I). apply zs_nonneg, (Forall_concat_in _ lr); auto.
    + unfold gsh'. rewrite upd_same by auto. symmetry. apply zsum_concat.
    + unfold d', lens. rewrite map_map. clear -F2 Fn. induction F2 as [|x r d lr H F2 IH]; [reflexivity|]. cbn [combine map fst snd concat] in *.
      apply Forall_app in Fn as [F1 F3]. rewrite IH by auto. f_equal. rewrite <- (spread_length x r) by auto. lia.
    + intros idx z Hb Hl. pose proof (proj1 (in_bounds_nth _ _) Hb) as [LI B]. unfold gsh' in *. rewrite !upd_length in *. assert (Bs := B s Hs). rewrite !upd_same in Bs by auto.
      unfold glob, d'. rewrite spread_glob by auto.
      assert (LE : length (concat d) = length (concat lr)). { clear -F2. induction F2; cbn; auto. rewrite !app_length. lia. }
      rewrite nth_spread by auto. assert (SB := src_bound _ _ Fn Bs).
      unfold rep_fun. rewrite upd_same by auto. rewrite upd_upd. unfold glob in V, GL. rewrite GL in LE.
      rewrite <- (Nat2Z.id (src (concat lr) z)). rewrite V; [rewrite !Nat2Z.id; auto|lia|auto|].
      intros k Hk N. specialize (B k Hk). now rewrite !upd_other in B by auto.
Qed.
