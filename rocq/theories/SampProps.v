(** C65 (DistributedSampler), C66 (create_train_val_split).  [d]: the rows each rank holds; glob d: all
    rows in rank order; indices: the permutation rank 0 draws and broadcasts. *)
From Coq Require Import Permutation.
From Verif Require Import Base BaseLemmas LayoutModel LayoutProofs OpsModel RollProofs MatmulProofs2 SampSpec SampModel SampProofs SampProofs2.
Open Scope nat_scope.

(** the layout of a balanced array *)
Definition balanced {A} (d : dist A) : Prop := lens d = counts_of (list_sum (lens d)) (length d).
Definition rows_of {E} (bl : nat) (d : dist (list E)) : Prop := Forall (Forall (fun row => length row = bl)) d.

Lemma nth_seq_id {A} (dflt : A) (l : list A) : map (fun k => nth k l dflt) (seq 0 (length l)) = l.
Proof. induction l as [|x l IH]; [auto|]. cbn [length seq map nth]. f_equal. rewrite <- seq_shift, map_map. exact IH. Qed.
Lemma perm_facts n p : is_perm n p -> length p = n /\ (forall x, In x p -> x < n) /\ NoDup p.
Proof.
  intros H. unfold is_perm in H. split; [rewrite (Permutation_length H); apply seq_length|]. split.
  - intros x Hx. apply (Permutation_in _ H), in_seq in Hx. lia.
  - apply (Permutation_NoDup (Permutation_sym H)), seq_NoDup.
Qed.
Lemma slices_eq {A} (d : dist A) : balanced d -> rank_slices (list_sum (lens d)) (length d) = slices (lens d).
Proof. intros H. unfold rank_slices, slices. rewrite <- H. f_equal. f_equal. unfold lens. now rewrite map_length. Qed.
Lemma sl_nth {A} (d : dist A) q : q < length d -> nth q (slices (lens d)) (0, 0) = (psum (lens d) q, psum (lens d) q + nth q (lens d) 0).
Proof. intros. apply slices_nth. unfold lens. now rewrite map_length. Qed.
Lemma shuffle_ok {E} bl corr (d : dist (list E)) indices : balanced d -> rows_of bl d -> is_perm (list_sum (lens d)) indices ->
  alltoall_shuffle bl corr indices d = Ok (map (fun q => map (row d) (if corr then L (lens d) indices q else arrived d indices q)) (seq 0 (length d))).
Proof.
  intros HB HR HP. destruct (perm_facts _ _ HP) as (HN & HI & ND). unfold alltoall_shuffle. cbv zeta. rewrite slices_eq by auto. apply all_ok_fun. intros q Hq. apply in_seq in Hq.
  rewrite (receive_ok bl d indices) by (auto; lia). cbn [bind].
  assert (LQ : length (nth q d []) = length (L (lens d) indices q)). { rewrite (L_length d) by (auto; lia). unfold lens. symmetry. exact (map_nth (@length (list E)) d [] q). }
  assert (AL : length (arrived d indices q) = length (L (lens d) indices q)) by (apply Permutation_length, arrived_perm; auto).
  rewrite (concat_rows_length bl), map_length, AL, LQ.
  - rewrite Nat.ltb_irrefl. rewrite <- AL. rewrite rows_back; auto.
    + destruct corr; [|auto]. rewrite sl_nth by lia. cbn [fst snd]. replace (psum (lens d) q + nth q (lens d) 0 - psum (lens d) q) with (nth q (lens d) 0) by lia. fold (L (lens d) indices q). f_equal. apply correct_ok; auto. lia.
    + intros x Hx. apply (Permutation_in _ (arrived_perm d indices HI q)) in Hx. eapply L_in; eauto.
  - apply Forall_forall. intros x Hx. apply in_map_iff in Hx as (g & <- & Hg). apply (row_len bl); auto. apply (Permutation_in _ (arrived_perm d indices HI q)) in Hg. eapply L_in; eauto.
Qed.
Lemma cut_all {E} (d : dist (list E)) indices : length indices = list_sum (lens d) -> concat (map (fun q => L (lens d) indices q) (seq 0 (length d))) = indices.
Proof. intros H. unfold L. rewrite <- (map_length (@length (list E)) d). apply concat_blocks. auto. Qed.

(** * C65 *)
(** with correction: row k of the shuffled array is row indices[k] of the original, the layout stays *)
Theorem C65_shuffle_corrected : forall (E : Type) (bl : nat) (d : dist (list E)) (indices : list nat),
  balanced d -> rows_of bl d -> is_perm (list_sum (lens d)) indices ->
  exists d', alltoall_shuffle bl true indices d = Ok d' /\ lens d' = lens d /\ glob d' = reordered [] (glob d) indices.
Proof.
  intros E bl d indices HB HR HP. eexists. split; [now apply shuffle_ok|]. destruct (perm_facts _ _ HP) as (HN & HI & ND). split.
  - apply (@nth_ext _ _ _ 0 0); [unfold lens; rewrite !map_length, seq_length; auto|]. unfold lens at 1. rewrite !map_length, seq_length. intros q Hq. unfold lens at 1. rewrite map_map.
    rewrite (@nth_map_seq _ (fun q => length (map (row d) (L (lens d) indices q)))) by auto. rewrite map_length. now apply L_length.
  - unfold glob at 1. rewrite <- (map_map (fun q => L (lens d) indices q) (map (row d))). rewrite <- concat_map, cut_all by auto. reflexivity.
Qed.
Print Assumptions C65_shuffle_corrected.

(** without correction: every rank holds the same rows as with correction, in some order *)
Theorem C65_shuffle : forall (E : Type) (bl : nat) (d : dist (list E)) (indices : list nat),
  balanced d -> rows_of bl d -> is_perm (list_sum (lens d)) indices ->
  exists d', alltoall_shuffle bl false indices d = Ok d' /\ lens d' = lens d /\ Permutation (glob d') (glob d) /\
    forall q, q < length d -> Permutation (nth q d' []) (sub (reordered [] (glob d) indices) (psum (lens d) q) (nth q (lens d) 0)).
Proof.
  intros E bl d indices HB HR HP. eexists. split; [now apply shuffle_ok|]. destruct (perm_facts _ _ HP) as (HN & HI & ND).
  assert (PQ : forall q, Permutation (map (row d) (arrived d indices q)) (map (row d) (L (lens d) indices q))) by (intros; apply Permutation_map, arrived_perm; auto).
  split; [|split].
  - apply (@nth_ext _ _ _ 0 0); [unfold lens; rewrite !map_length, seq_length; auto|]. unfold lens at 1. rewrite !map_length, seq_length. intros q Hq. unfold lens at 1. rewrite map_map.
    rewrite (@nth_map_seq _ (fun q => length (map (row d) (arrived d indices q)))) by auto. rewrite (Permutation_length (PQ q)), map_length. now apply L_length.
  - transitivity (map (row d) indices).
    + replace (map (row d) indices) with (map (row d) (concat (map (fun q => L (lens d) indices q) (seq 0 (length d))))) by (now rewrite cut_all). rewrite concat_map, map_map. unfold glob. induction (seq 0 (length d)) as [|q qs IH]; [auto|]. cbn [map concat]. apply Permutation_app; auto.
    + transitivity (map (row d) (seq 0 (length (glob d)))); [apply Permutation_map; unfold is_perm in HP; now rewrite glob_length|]. unfold row. apply Permutation_refl'. apply nth_seq_id.
  - intros q Hq. rewrite (@nth_map_seq _ (fun q => map (row d) (arrived d indices q))) by auto. eapply Permutation_trans; [apply PQ|]. unfold L, reordered, row, sub. rewrite <- firstn_map, <- skipn_map. apply Permutation_refl.
Qed.
Print Assumptions C65_shuffle.

(** two arrays shuffled with the same permutation (same seed, or linked samplers) stay paired row
    by row, with or without correction *)
Theorem C65_pairs_kept : forall (E F : Type) (b1 b2 : nat) (corr : bool) (x : dist (list E)) (y : dist (list F)) (indices : list nat),
  balanced x -> rows_of b1 x -> rows_of b2 y -> lens y = lens x -> is_perm (list_sum (lens x)) indices ->
  exists x' y', alltoall_shuffle b1 corr indices x = Ok x' /\ alltoall_shuffle b2 corr indices y = Ok y' /\ lens x' = lens x /\ lens y' = lens x /\
    Permutation (pairs (glob x') (glob y')) (pairs (glob x) (glob y)).
Proof.
  intros E F b1 b2 corr x y indices HB R1 R2 HL HP. assert (LD : length y = length x) by (apply (f_equal (@length nat)) in HL; unfold lens in HL; now rewrite !map_length in HL).
  assert (HB2 : balanced y) by (unfold balanced; rewrite HL, LD; exact HB).
  destruct (perm_facts _ _ HP) as (HN & HI & ND). do 2 eexists. split; [now apply shuffle_ok|]. split; [apply shuffle_ok; auto; now rewrite HL|].
  set (src := fun q => if corr then L (lens x) indices q else arrived x indices q).
  assert (AE : forall q, arrived y indices q = arrived x indices q) by (intros q; unfold arrived; rewrite HL, LD; auto).
  assert (E2 : map (fun q => map (row y) (if corr then L (lens y) indices q else arrived y indices q)) (seq 0 (length y)) = map (fun q => map (row y) (src q)) (seq 0 (length x))).
  { rewrite LD. apply map_ext. intros q. rewrite HL, AE. reflexivity. }
  rewrite E2. fold src. change (map (fun q => map (row x) (if corr then L (lens x) indices q else arrived x indices q)) (seq 0 (length x))) with (map (fun q => map (row x) (src q)) (seq 0 (length x))).
  assert (SL : forall q, q < length x -> length (src q) = nth q (lens x) 0).
  { intros q Hq. rewrite <- (L_length x indices HN q Hq). unfold src. destruct corr; [auto|]. apply Permutation_length, arrived_perm; auto. }
  assert (LN : forall X (h : nat -> X), lens (map (fun q => map h (src q)) (seq 0 (length x))) = lens x).
  { intros X h. apply (@nth_ext _ _ _ 0 0); [unfold lens; rewrite !map_length, seq_length; auto|]. unfold lens at 1. rewrite !map_length, seq_length. intros q Hq. unfold lens at 1. rewrite map_map.
    rewrite (@nth_map_seq _ (fun q => length (map h (src q)))) by auto. rewrite map_length. auto. }
  split; [apply LN|]. split; [apply LN|].
  assert (GM : forall X (h : nat -> X), glob (map (fun q => map h (src q)) (seq 0 (length x))) = map h (concat (map src (seq 0 (length x))))).
  { intros X h. unfold glob. now rewrite concat_map, map_map. }
  rewrite !GM. set (order := concat (map src (seq 0 (length x)))).
  assert (PO : Permutation order indices).
  { pose proof (cut_all x indices HN) as CA. unfold order, src. destruct corr; [rewrite CA; apply Permutation_refl|]. eapply Permutation_trans; [|apply Permutation_refl'; exact CA]. generalize (seq 0 (length x)) as qs. induction qs as [|q qs IH]; [apply Permutation_refl|]. cbn [map concat]. apply Permutation_app; [apply arrived_perm; exact HI|exact IH]. }
  assert (PC : forall l, pairs (map (row x) l) (map (row y) l) = map (fun g => (row x g, row y g)) l) by (induction l as [|g l IH]; [auto|]; cbn; f_equal; exact IH).
  unfold pairs in *. rewrite PC. assert (G2 : length (glob y) = length (glob x)) by (rewrite !glob_length, HL; auto).
  assert (PB : combine (glob x) (glob y) = map (fun g => (row x g, row y g)) (seq 0 (list_sum (lens x)))).
  { apply (@nth_ext _ _ _ ([], []) ([], [])); [rewrite map_length, seq_length, combine_length, G2, glob_length; lia|]. rewrite combine_length, G2, glob_length, Nat.min_id. intros k Hk.
    rewrite combine_nth by auto. now rewrite (@nth_map_seq _ (fun g => (row x g, row y g))) by auto. }
  rewrite PB. apply Permutation_map. eapply Permutation_trans; [exact PO|exact HP].
Qed.
Print Assumptions C65_pairs_kept.

(** one pass of all ranks over their samplers yields every row of the array once, whatever the local
    permutations; a local shuffle keeps each rank's rows *)
Theorem C65_epoch : forall (A : Type) (dflt : A) (d : dist A) (perms : list (list nat)) (global : bool),
  length perms = length d -> (forall r, r < length d -> is_perm (length (nth r d [])) (nth r perms [])) ->
  Permutation (concat (map (fun r => map (fun k => nth k (nth r d []) dflt) (sampler_iter global (nth r perms []) (length (nth r d [])))) (seq 0 (length d)))) (glob d) /\
  lens (local_shuffle dflt perms d) = lens d /\ forall r, r < length d -> Permutation (nth r (local_shuffle dflt perms d) []) (nth r d []).
Proof.
  intros A dflt d perms global HL HP.
  assert (ID : forall l : list A, map (fun k => nth k l dflt) (seq 0 (length l)) = l).
  { induction l as [|x l IH]; [auto|]. cbn [length seq map nth]. f_equal. rewrite <- seq_shift, map_map. exact IH. }
  assert (PR : forall r, r < length d -> Permutation (map (fun k => nth k (nth r d []) dflt) (nth r perms [])) (nth r d [])).
  { intros r Hr. eapply Permutation_trans; [|apply Permutation_refl'; apply (ID (nth r d []))]. apply Permutation_map. apply HP. auto. }
  assert (NTH : forall r, r < length d -> nth r (local_shuffle dflt perms d) [] = map (fun k => nth k (nth r d []) dflt) (nth r perms [])).
  { intros r Hr. unfold local_shuffle. pose proof (map_nth (fun p : list nat * list A => map (fun k => nth k (snd p) dflt) (fst p)) (combine perms d) ([], []) r) as M. cbv beta in M. cbn [fst snd map] in M. rewrite M, combine_nth by auto. reflexivity. }
  assert (LL : length (local_shuffle dflt perms d) = length d) by (unfold local_shuffle; rewrite map_length, combine_length; lia).
  split; [|split].
  - transitivity (concat (map (fun r => nth r d []) (seq 0 (length d)))).
    + assert (G : forall rs, (forall r, In r rs -> r < length d) -> Permutation (concat (map (fun r => map (fun k => nth k (nth r d []) dflt) (sampler_iter global (nth r perms []) (length (nth r d [])))) rs)) (concat (map (fun r => nth r d []) rs))).
      { induction rs as [|r rs IH]; intros H; [auto|]. cbn [map concat]. apply Permutation_app; [|apply IH; intros; apply H; right; auto]. unfold sampler_iter. destruct global; [rewrite ID; auto|apply PR; apply H; left; auto]. }
      apply G. intros r Hr. apply in_seq in Hr. lia.
    + unfold glob. apply Permutation_refl'. f_equal. clear. induction d as [|x d IH]; [auto|]. cbn [length seq map nth]. f_equal. rewrite <- seq_shift, map_map. exact IH.
  - apply (@nth_ext _ _ _ 0 0); [unfold lens; now rewrite !map_length|]. unfold lens. rewrite map_length, LL. intros r Hr.
    pose proof (map_nth (@length A) (local_shuffle dflt perms d) [] r) as M1. pose proof (map_nth (@length A) d [] r) as M2. change (length (@nil A)) with 0 in M1, M2. rewrite M1, M2, NTH by auto. apply Permutation_length. auto.
  - intros r Hr. rewrite NTH by auto. auto.
Qed.
Print Assumptions C65_epoch.

Example C65_instance :
  let d := [[[10; 11]; [20; 21]]; [[30; 31]; [40; 41]]; [[50; 51]]] in
  balanced d /\ rows_of 2 d /\ is_perm 5 [4; 0; 3; 1; 2] /\
  alltoall_shuffle 2 true [4; 0; 3; 1; 2] d = Ok [[[50; 51]; [10; 11]]; [[40; 41]; [20; 21]]; [[30; 31]]] /\
  alltoall_shuffle 2 false [4; 0; 3; 1; 2] d = Ok [[[10; 11]; [50; 51]]; [[20; 21]; [40; 41]]; [[30; 31]]].
Proof.
  split; [reflexivity|]. split; [repeat constructor|]. split; [|split; vm_compute; reflexivity].
  unfold is_perm. change [4; 0; 3; 1; 2] with ([4] ++ [0; 3; 1; 2]). change (seq 0 5) with ([0; 1; 2; 3] ++ [4]). eapply Permutation_trans; [apply Permutation_app_comm|]. apply Permutation_app_tail. apply perm_skip. eapply Permutation_trans; [apply (Permutation_app_comm [3])|]. reflexivity.
Qed.

(** an unbalanced array: the ranks the code computes are not those that hold the rows; rank 1 is
    asked for memory in front of its data *)
Theorem C65_unbalanced_refuted :
  let d := [[[1]; [2]; [3]]; [[4]]] in
  rows_of 1 d /\ is_perm 4 [0; 1; 2; 3] /\ alltoall_shuffle 1 true [0; 1; 2; 3] d = Err RuntimeError.
Proof. split; [repeat constructor|]. split; [apply Permutation_refl|vm_compute; reflexivity]. Qed.
Print Assumptions C65_unbalanced_refuted.
