(** C67 (Dataset / DataLoader: the exchange between epochs).  [x], [y]: the samples and the targets each
    rank holds; an epoch's permutations are what torch.randperm draws on each rank. *)
From Coq Require Import Permutation.
From Verif Require Import Base BaseLemmas LayoutModel LayoutProofs OpsModel MatmulProofs2 SampSpec SampProofs2 SampProps DsetModel DsetProofs.
Open Scope nat_scope.

Section Run.
Context {A : Type} (dflt : A).
Variables (mn half P : nat).
Hypothesis HP : 0 < P.
Hypothesis HH : half <= mn.
Lemma blocking_run ps : forall s, good mn P (att s) ->
  (forall p r, In p ps -> r < P -> is_perm (length (nth r (ht (att s)) [])) (nth r p [])) ->
  exists s', epochs (iter_blocking dflt mn half false) ps s = Ok s' /\ good mn P (att s') /\ lens (ht (att s')) = lens (ht (att s)) /\ Permutation (glob (ht (att s'))) (glob (ht (att s))).
Proof.
  induction ps as [|p ps IH]; intros s HG HPm; [exists s; exact (conj eq_refl (conj HG (conj eq_refl (Permutation_refl _))))|]. cbn [epochs].
  assert (E0 : iter_blocking dflt mn half false p s = if first s then Ok (mk_loader (att s) false (rcv s)) else do a <- shuffle dflt mn half p (att s); Ok (mk_loader a false (rcv s))) by reflexivity. rewrite E0. clear E0. destruct (first s).
  - cbn [bind]. destruct (IH (mk_loader (att s) false (rcv s)) HG) as (s' & E & R); [intros; apply HPm; auto; right; auto|]. exists s'. split; [exact E|exact R].
  - destruct (shuffle_keeps dflt mn half P HP HH (att s) p HG) as (a' & E & HG' & L & Pm); [intros; apply HPm; auto; left; auto|]. rewrite E. cbn [bind].
    assert (LN : forall r, length (nth r (ht a') []) = length (nth r (ht (att s)) [])).
    { intros r. pose proof (f_equal (fun l => nth r l 0) L) as E2. cbv beta in E2. unfold lens in E2. pose proof (map_nth (@length A) (ht a') [] r) as M1. pose proof (map_nth (@length A) (ht (att s)) [] r) as M2. change (length (@nil A)) with 0 in M1, M2. congruence. }
    destruct (IH (mk_loader a' false (rcv s)) HG') as (s' & E' & HG2 & L2 & P2); [intros q r Hq Hr; cbn [att]; rewrite LN; apply HPm; auto; right; auto|].
    exists s'. split; [exact E'|]. split; [auto|]. cbn [att] in *. split; [congruence|]. eapply Permutation_trans; eauto.
Qed.
Lemma ishuffle_run ps : forall s, good mn P (att s) -> (forall p r, In p ps -> r < P -> is_perm mn (nth r p [])) ->
  exists s', epochs (iter_ishuffle dflt mn half false false) ps s = Ok s' /\ good mn P (att s') /\ Permutation (glob (data (att s'))) (glob (data (att s))).
Proof.
  induction ps as [|p ps IH]; intros s HG HPm; [exists s; exact (conj eq_refl (conj HG (Permutation_refl _)))|]. cbn [epochs].
  assert (E0 : iter_ishuffle dflt mn half false false p s = do news <- exchange half (att s); if first s then Ok (mk_loader (att s) false (Some news)) else do a <- on_ranks dflt mn half (att s) news p; Ok (mk_loader a false (Some news))) by (unfold iter_ishuffle; cbn [orb]; destruct (exchange half (att s)); reflexivity). rewrite E0. clear E0.
  destruct (ishuffle_keeps dflt mn half P HP HH (att s) p HG) as (news & a' & E & E2 & HG' & Pm); [intros; apply HPm; auto; left; auto|]. rewrite E. cbn [bind]. destruct (first s).
  - cbn [bind]. destruct (IH (mk_loader (att s) false (Some news)) HG) as (s' & E' & R); [intros; apply HPm; auto; right; auto|]. exists s'. split; [exact E'|exact R].
  - rewrite E2. cbn [bind]. destruct (IH (mk_loader a' false (Some news)) HG') as (s' & E' & HG2 & P2); [intros; apply HPm; auto; right; auto|]. exists s'. split; [exact E'|]. split; [auto|]. eapply Permutation_trans; eauto.
Qed.
End Run.

Definition zip {A B} (x : dist A) (y : dist B) : dist (A * B) := map (fun p => combine (fst p) (snd p)) (combine x y).
Lemma combine_fst {A B} : forall (l : list A) (m : list B), length m = length l -> map fst (combine l m) = l.
Proof. induction l as [|a l IH]; intros [|b m] H; cbn in *; try discriminate; [auto|]. f_equal. apply IH. lia. Qed.
Lemma combine_snd {A B} : forall (l : list A) (m : list B), length m = length l -> map snd (combine l m) = m.
Proof. induction l as [|a l IH]; intros [|b m] H; cbn in *; try discriminate; [auto|]. f_equal. apply IH. lia. Qed.
Lemma zip_parts {A B} : forall (x : dist A) (y : dist B), lens y = lens x -> dmap fst (zip x y) = x /\ dmap snd (zip x y) = y.
Proof.
  induction x as [|l x IH]; intros [|m y] H; cbn in *; try discriminate; [auto|]. injection H as H1 H2. destruct (IH y H2) as [E1 E2]. split; f_equal; auto; [apply combine_fst|apply combine_snd]; auto.
Qed.
Lemma zip_lens {A B} (x : dist A) (y : dist B) : lens y = lens x -> lens (zip x y) = lens x.
Proof. intros H. destruct (zip_parts x y H) as [E _]. rewrite <- E at 2. unfold lens, dmap. rewrite map_map. apply map_ext. intros. now rewrite map_length. Qed.
Lemma glob_dmap {A B} (f : A -> B) d : glob (dmap f d) = map f (glob d).
Proof. unfold glob, dmap. now rewrite concat_map. Qed.
Lemma pairs_parts {A B} (l : list (A * B)) : pairs (map fst l) (map snd l) = l.
Proof. induction l as [|[a b] l IH]; [auto|]. cbn. f_equal. exact IH. Qed.
Lemma dmap_lens {A B} (f : A -> B) d : lens (dmap f d) = lens d.
Proof. unfold lens, dmap. rewrite map_map. apply map_ext. intros. apply map_length. Qed.

Section Pairs.
Context {A B : Type} (da : A) (db : B) (x : dist A) (y : dist B).
Let N := list_sum (lens x).
Let P := length x.
Let d := zip x y.
Hypothesis HL : lens y = lens x.
Hypothesis HB : balanced x.
Hypothesis HP : 0 < P.
Lemma lx : length (zip x y) = P.
Proof. pose proof (zip_lens x y HL) as E. apply (f_equal (@length nat)) in E. unfold lens in E. now rewrite !map_length in E. Qed.
Lemma nth_lens {X} (z : dist X) r : nth r (lens z) 0 = length (nth r z []).
Proof. exact (map_nth (@length X) z [] r). Qed.
Lemma ms_zip : min_split (zip x y) = N / P.
Proof. unfold min_split. now rewrite lx, zip_lens. Qed.
Lemma enough r : r < P -> N / P <= length (nth r (zip x y) []).
Proof.
  intros Hr. rewrite <- nth_lens, zip_lens by auto. rewrite HB. fold N P. rewrite counts_of_nth by auto. rewrite clen_val. destruct (_ <? _); lia.
Qed.
Lemma good_new : good (N / P) P (new_dataset (zip x y)).
Proof.
  unfold new_dataset. rewrite ms_zip. split; [apply lx|]. split; [cbn [data]; rewrite map_length; apply lx|]. intros r Hr. cbn [ht data]. split; [|now apply enough].
  rewrite (nth_indep _ [] (firstn (N / P) [])) by (rewrite map_length, lx; auto). apply map_nth.
Qed.
End Pairs.
(** a loader over a new Dataset: no epoch so far *)
Definition new_loader {A} (x : dist A) : loader (A := A) := mk_loader (new_dataset x) true None.
(** rows per rank: what an epoch serves *)
Definition per_rank {A} (x : dist A) : nat := list_sum (lens x) / length x.

(** * C67 *)
(** blocking shuffles: after any number of epochs and whatever the permutations, nothing failed, every
    rank holds as many rows as before, all ranks together hold the same (sample, target) pairs, and
    each rank serves the first N/P of its own pairs *)
Theorem C67_shuffle : forall (A B : Type) (da : A) (db : B) (x : dist A) (y : dist B) (perms : list (list (list nat))),
  lens y = lens x -> balanced x -> 0 < length x ->
  (forall p r, In p perms -> r < length x -> is_perm (length (nth r x [])) (nth r p [])) ->
  exists sx sy,
    epochs (iter_blocking da (per_rank x) (per_rank x / 2) false) perms (new_loader x) = Ok sx /\
    epochs (iter_blocking db (per_rank y) (per_rank y / 2) false) perms (new_loader y) = Ok sy /\
    lens (ht (att sx)) = lens x /\ lens (ht (att sy)) = lens x /\
    Permutation (pairs (glob (ht (att sx))) (glob (ht (att sy)))) (pairs (glob x) (glob y)) /\
    forall r, r < length x -> nth r (data (att sx)) [] = firstn (per_rank x) (nth r (ht (att sx)) []) /\
                              nth r (data (att sy)) [] = firstn (per_rank x) (nth r (ht (att sy)) []) /\
                              length (nth r (data (att sx)) []) = per_rank x.
Proof.
  intros A B da db x y perms HL HB HP HPm. pose proof (good_new x y HL HB HP) as HG. fold (per_rank x) in HG.
  assert (PY : per_rank y = per_rank x). { unfold per_rank. rewrite HL. f_equal. apply (f_equal (@length nat)) in HL. unfold lens in HL. now rewrite !map_length in HL. }
  rewrite PY. set (mn := per_rank x) in *. assert (HH : mn / 2 <= mn) by (apply Nat.div_le_upper_bound; lia).
  destruct (blocking_run (da, db) mn (mn / 2) (length x) HP HH perms (new_loader (zip x y)) HG) as (s & E & G & L & Pm).
  { intros p r Hp Hr. cbn [new_loader att new_dataset ht]. rewrite <- nth_lens, zip_lens, nth_lens by auto. auto. }
  destruct (zip_parts x y HL) as [Ex Ey].
  exists (lmap fst s), (lmap snd s).
  split. { replace (new_loader x) with (lmap fst (new_loader (zip x y))) by (unfold lmap, new_loader; cbn [att first rcv option_map]; now rewrite <- new_dataset_nat, Ex).
           rewrite (epochs_nat fst (iter_blocking (da, db) mn (mn / 2) false)) by (intros; apply (blocking_nat fst (da, db))). now rewrite E. }
  split. { replace (new_loader y) with (lmap snd (new_loader (zip x y))) by (unfold lmap, new_loader; cbn [att first rcv option_map]; now rewrite <- new_dataset_nat, Ey).
           rewrite (epochs_nat snd (iter_blocking (da, db) mn (mn / 2) false)) by (intros; apply (blocking_nat snd (da, db))). now rewrite E. }
  cbn [new_loader att new_dataset ht] in L, Pm. cbn [lmap att amap ht data]. rewrite !dmap_lens, L, zip_lens by auto. split; [auto|]. split; [auto|]. split.
  - rewrite !glob_dmap, pairs_parts. replace (pairs (glob x) (glob y)) with (pairs (glob (dmap fst (zip x y))) (glob (dmap snd (zip x y)))) by (now rewrite Ex, Ey). rewrite !glob_dmap, pairs_parts. exact Pm.
  - intros r Hr. destruct G as (_ & _ & G). destruct (G r Hr) as [G1 G2]. rewrite !dmap_nth, G1, !firstn_map, map_length, firstn_length. repeat split; auto. lia.
Qed.
Print Assumptions C67_shuffle.

(** non-blocking shuffles (ishuffle): every epoch serves the pairs of the first epoch, redistributed *)
Theorem C67_ishuffle : forall (A B : Type) (da : A) (db : B) (x : dist A) (y : dist B) (perms : list (list (list nat))),
  lens y = lens x -> balanced x -> 0 < length x ->
  (forall p r, In p perms -> r < length x -> is_perm (per_rank x) (nth r p [])) ->
  exists sx sy,
    epochs (iter_ishuffle da (per_rank x) (per_rank x / 2) false false) perms (new_loader x) = Ok sx /\
    epochs (iter_ishuffle db (per_rank y) (per_rank y / 2) false false) perms (new_loader y) = Ok sy /\
    Permutation (pairs (glob (data (att sx))) (glob (data (att sy))))
                (pairs (glob (map (firstn (per_rank x)) x)) (glob (map (firstn (per_rank x)) y))) /\
    forall r, r < length x -> length (nth r (data (att sx)) []) = per_rank x /\ length (nth r (data (att sy)) []) = per_rank x.
Proof.
  intros A B da db x y perms HL HB HP HPm. pose proof (good_new x y HL HB HP) as HG. fold (per_rank x) in HG.
  assert (PY : per_rank y = per_rank x). { unfold per_rank. rewrite HL. f_equal. apply (f_equal (@length nat)) in HL. unfold lens in HL. now rewrite !map_length in HL. }
  rewrite PY. set (mn := per_rank x) in *. assert (HH : mn / 2 <= mn) by (apply Nat.div_le_upper_bound; lia).
  destruct (ishuffle_run (da, db) mn (mn / 2) (length x) HP HH perms (new_loader (zip x y)) HG HPm) as (s & E & G & Pm).
  destruct (zip_parts x y HL) as [Ex Ey].
  exists (lmap fst s), (lmap snd s).
  split. { replace (new_loader x) with (lmap fst (new_loader (zip x y))) by (unfold lmap, new_loader; cbn [att first rcv option_map]; now rewrite <- new_dataset_nat, Ex).
           rewrite (epochs_nat fst (iter_ishuffle (da, db) mn (mn / 2) false false)) by (intros; apply (ishuffle_nat fst (da, db))). now rewrite E. }
  split. { replace (new_loader y) with (lmap snd (new_loader (zip x y))) by (unfold lmap, new_loader; cbn [att first rcv option_map]; now rewrite <- new_dataset_nat, Ey).
           rewrite (epochs_nat snd (iter_ishuffle (da, db) mn (mn / 2) false false)) by (intros; apply (ishuffle_nat snd (da, db))). now rewrite E. }
  cbn [lmap att amap ht data]. split.
  - assert (Ed : forall C (f : A * B -> C) z, dmap f (zip x y) = z -> map (firstn mn) z = dmap f (map (firstn mn) (zip x y))) by (intros C f z <-; unfold dmap; rewrite !map_map; apply map_ext; intros; apply firstn_map).
    rewrite (Ed _ fst x Ex), (Ed _ snd y Ey), !glob_dmap, !pairs_parts. cbn [new_loader att new_dataset data] in Pm. rewrite ms_zip in Pm by auto. exact Pm.
  - intros r Hr. destruct G as (_ & _ & G). destruct (G r Hr) as [G1 G2]. rewrite !dmap_nth, G1, !map_length, firstn_length. split; lia.
Qed.
Print Assumptions C67_ishuffle.

(** a test set is served unchanged *)
Theorem C67_test_set : forall (A : Type) (da : A) (x : dist A) (mn half : nat) (perms : list (list (list nat))),
  exists s, epochs (iter_blocking da mn half true) perms (new_loader x) = Ok s /\ ht (att s) = x /\ data (att s) = map (firstn (per_rank x)) x.
Proof.
  intros A da x mn half perms. assert (G : forall s, exists s', epochs (iter_blocking da mn half true) perms s = Ok s' /\ att s' = att s).
  { induction perms as [|p ps IH]; intros s; [exists s; auto|]. cbn [epochs]. unfold iter_blocking. destruct (first s); cbn [bind].
    - destruct (IH (mk_loader (att s) false (rcv s))) as (s' & E & F). exists s'. split; auto.
    - apply IH. }
  destruct (G (new_loader x)) as (s & E & F). exists s. split; [auto|]. rewrite F. split; reflexivity.
Qed.
Print Assumptions C67_test_set.

Example C67_instance :
  let x := [[1; 2; 3]; [4; 5]] in let p := [[[0; 1; 2]; [0; 1]]; [[2; 0; 1]; [1; 0]]] in
  balanced x /\ 0 < length x /\ (forall q r, In q p -> r < length x -> is_perm (length (nth r x [])) (nth r q [])) /\
  epochs (iter_blocking 0 2 1 false) p (new_loader x) = Ok (mk_loader (mk_attr [[3; 4; 2]; [5; 1]] [[3; 4]; [5; 1]]) false None).
Proof.
  split; [reflexivity|]. split; [cbn; lia|]. split; [|vm_compute; reflexivity].
  intros q r [<-|[<-|[]]] Hr; cbn in Hr; destruct r as [|[|r]]; cbn; try lia; unfold is_perm; cbn; auto.
  - change [2; 0; 1] with ([2] ++ [0; 1]). apply (Permutation_app_comm [2] [0; 1]).
  - apply perm_swap.
Qed.

(** the last epoch of a non-blocking run ([last_epoch = True], set so that nothing is sent any more):
    the rows received in the epoch before are inserted a second time, and other rows are lost *)
Theorem C67_last_epoch_refuted :
  let x := [[1; 2]; [3; 4]] in let id := [[0; 1]; [0; 1]] in let sw := [[1; 0]; [1; 0]] in
  let it last p s := iter_ishuffle 0 2 1 false last p s in
  balanced x /\ is_perm 2 [0; 1] /\ is_perm 2 [1; 0] /\
  exists s, (do s1 <- it false id (new_loader x); do s2 <- it false sw s1; it true id s2) = Ok s /\ glob (data (att s)) = [3; 3; 1; 1].
Proof. repeat split; [apply Permutation_refl|apply perm_swap|]. eexists. split; vm_compute; reflexivity. Qed.
Print Assumptions C67_last_epoch_refuted.
(** a test set with ishuffle: the second epoch fails *)
Theorem C67_test_set_ishuffle_refuted :
  let x := [[1; 2]; [3; 4]] in let id := [[0; 1]; [0; 1]] in
  balanced x /\ is_perm 2 [0; 1] /\ epochs (iter_ishuffle 0 2 1 true false) [id; id] (new_loader x) = Err AttributeError.
Proof. repeat split; apply Permutation_refl. Qed.
Print Assumptions C67_test_set_ishuffle_refuted.
(** ishuffle with a remainder: a row outside the first N/P of a rank is never served and dropped from
    the array *)
Theorem C67_ishuffle_remainder_refuted :
  let x := [[1; 2; 3]; [4; 5]] in let id := [[0; 1]; [0; 1]] in
  balanced x /\ exists s, epochs (iter_ishuffle 0 2 1 false false) [id; id] (new_loader x) = Ok s /\ lens (ht (att s)) <> lens x /\ ~ In 3 (glob (ht (att s))).
Proof. split; [reflexivity|]. eexists. split; [vm_compute; reflexivity|]. cbn. split; [discriminate|]. intros H. repeat destruct H as [H|H]; try discriminate; auto. Qed.
Print Assumptions C67_ishuffle_remainder_refuted.
