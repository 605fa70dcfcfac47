(** Property theorems C06, C07, C09, C10, C11.  The specification vocabulary is
    [glob] (global array = concatenation in rank order) and [lens] (local extents),
    both in Base.v, and [chunk] / [actual_map] (the local shapes that exist). *)
From Verif Require Import Base LayoutModel RedistModel RedistProofs MetaModel MetaProofs.

(** C06: from any layout to any target with the right total, the global array is
    unchanged and every rank ends up with exactly its target extent.  (The first
    argument bounds the number of passes by the number of ranks, see C07.) *)
Theorem C06_redistribute : forall (A : Type) (d : dist A) (t : list nat),
  length t = length d -> list_sum t = length (glob d) ->
  exists d', redistribute (length d) d (Some t) = Ok d' /\ glob d' = glob d /\ lens d' = t.
Proof. exact redistribute_ok_lemma. Qed.
Print Assumptions C06_redistribute.
Example C06_instance : redistribute 4 [[1;2;3]; []; [4;5;6]; [7]] (Some [0;3;2;2])
  = Ok [[]; [1;2;3]; [4;5]; [6;7]].
Proof. vm_compute; reflexivity. Qed.

Theorem C06_redistribute_default_target : forall (A : Type) (d : dist A), 0 < length d ->
  exists d', redistribute (length d) d None = Ok d' /\ glob d' = glob d /\
     lens d' = counts_of (length (glob d)) (length d).
Proof. exact redistribute_none_lemma. Qed.
Print Assumptions C06_redistribute_default_target.

Theorem C06_redistribute_rejects : forall (A : Type) fuel (d : dist A) (t : list nat),
  1 < length d -> (list_sum t <> length (glob d) \/ length t <> length d) ->
  redistribute fuel d (Some t) = Err ValueError.
Proof. exact redistribute_bad_lemma. Qed.
Print Assumptions C06_redistribute_rejects.
Example C06_rejects_instance : redistribute 2 [[1]; [2]] (Some [1; 2]) = Err ValueError.
Proof. vm_compute; reflexivity. Qed.

(** C07: the recursion ends after at most (number of ranks) passes, and giving it
    more room changes nothing. *)
Theorem C07_redistribute_terminates : forall lmap target,
  length lmap = length target -> list_sum lmap = list_sum target -> 0 < length target ->
  exists tr n, n <= length target /\
    forall fuel, length target <= fuel -> redist_loop fuel lmap target [] = Ok (target, tr, n).
Proof.
  intros lmap target H1 H2 H3. destruct (redist_passes_lemma _ _ H1 H2 H3) as (tr & n & E & N).
  exists tr, n. split; [exact N|]. intros fuel Hf. exact (redist_loop_fuel _ _ _ E Hf).
Qed.
Print Assumptions C07_redistribute_terminates.
(** a second pass really occurs, even for balance_ *)
Example C07_two_passes : exists tr, redist_loop 3 [3; 0; 3] [2; 2; 2] [] = Ok ([2; 2; 2], tr, 2).
Proof. eexists; vm_compute; reflexivity. Qed.

(** C09 *)
Theorem C09_balance : forall (A : Type) (d : dist A), 0 < length d ->
  exists d', balance (length d) d = Ok d' /\ glob d' = glob d /\
    lens d' = counts_of (length (glob d)) (length d) /\
    is_balanced_check d' = true /\ balance (length d') d' = Ok d'.
Proof. exact balance_lemma. Qed.
Print Assumptions C09_balance.
Theorem C09_is_balanced_iff : forall (A : Type) (d : dist A), 0 < length d ->
  (is_balanced_check d = true <-> lens d = counts_of (length (glob d)) (length d)).
Proof. exact is_balanced_iff. Qed.
Print Assumptions C09_is_balanced_iff.
Example C09_instance : balance 3 [[1]; []; [2;3;4;5;6]] = Ok [[1;2]; [3;4]; [5;6]].
Proof. vm_compute; reflexivity. Qed.

(** C10 *)
Theorem C10_collect : forall (A : Type) (d : dist A) r, r < length d ->
  exists d', collect (length d) d r = Ok d' /\ length d' = length d /\ glob d' = glob d /\
    nth r d' [] = glob d /\ (forall q, q <> r -> nth q d' [] = []).
Proof. exact collect_lemma. Qed.
Print Assumptions C10_collect.
Theorem C10_collect_out_of_range : forall (A : Type) fuel (d : dist A) r,
  length d <= r -> collect fuel d r = Err ValueError.
Proof. exact collect_oob. Qed.
Print Assumptions C10_collect_out_of_range.
Example C10_instance : collect 3 [[1;2]; [3]; [4]] 1 = Ok [[]; [1;2;3;4]; []].
Proof. vm_compute; reflexivity. Qed.

(** C11: the reported lshape_map is the actual one after every history of
    operations whose target maps list real local shapes and whose larray
    assignments keep local extents; the balanced flag is never wrongly True. *)
Theorem C11_metadata_partial : forall m ops,
  m_wf m -> m_cache m = None ->
  (forall r, nth r (m_bal m) None <> Some true \/ balanced_check m = true) ->
  ops_ok m ops ->
  reported_map (mrun m ops) = actual_map (mrun m ops) /\
  (forall r, nth r (m_bal (mrun m ops)) None = Some true ->
             m_split (mrun m ops) <> None -> balanced_check (mrun m ops) = true).
Proof. exact meta_lemma. Qed.
Print Assumptions C11_metadata_partial.
Example C11_instance :
  let m := Meta [6; 2] (Some 0) [3; 0; 3] None [None; None; None] in
  let ops := [OpMap; OpBalance; OpRedist (Some [[1; 2]; [5; 2]; [0; 2]]); OpCollect 2; OpResplit (Some 1); OpMap] in
  m_wf m /\ m_cache m = None /\ ops_ok m ops /\ reported_map (mrun m ops) = [[6; 1]; [6; 1]; [6; 0]].
Proof.
  cbv zeta. split; [unfold m_wf; cbn; repeat split; lia|]. split; [reflexivity|]. split; [|vm_compute; reflexivity].
  vm_compute. repeat split; try lia. exists [1; 5; 0]. split; reflexivity.
Qed.

(** C11 is false in general, three times over. *)
(** (a) assigning local arrays of other extents leaves the cached map untouched *)
Theorem C11_stale_after_larray_assignment_refuted : exists m ops,
  m_wf m /\ m_cache m = None /\ m_wf (mrun m ops) /\
  reported_map (mrun m ops) <> actual_map (mrun m ops).
Proof.
  exists (Meta [4] (Some 0) [2; 2] None [None; None]), [OpMap; OpSet [1; 3]].
  split; [|split; [|split]]; [unfold m_wf; cbn; repeat split; lia|reflexivity|vm_compute; repeat split; lia|].
  vm_compute. discriminate.
Qed.
Print Assumptions C11_stale_after_larray_assignment_refuted.
(** (b) redistribute_ stores the caller's target map, whose other columns are not
    checked (the docstring example passes zeros there) *)
Theorem C11_target_map_stored_unchecked_refuted : exists m ops,
  m_wf m /\ m_cache m = None /\ m_wf (mrun m ops) /\
  reported_map (mrun m ops) <> actual_map (mrun m ops).
Proof.
  exists (Meta [4; 5] (Some 0) [2; 2] None [None; None]), [OpRedist (Some [[1; 0]; [3; 0]])].
  split; [|split; [|split]]; [unfold m_wf; cbn; repeat split; lia|reflexivity|vm_compute; repeat split; lia|].
  vm_compute. discriminate.
Qed.
Print Assumptions C11_target_map_stored_unchecked_refuted.
(** (c) after an assignment that changes the extent on some ranks only, x.is_balanced()
    makes some ranks enter an Allreduce that the others never call *)
Theorem C11_is_balanced_collective_mismatch_refuted : exists m ops r1 r2,
  m_wf m /\ r1 < m_size m /\ r2 < m_size m /\ m_wf (mrun m ops) /\
  enters_allreduce (mrun m ops) r1 = true /\ enters_allreduce (mrun m ops) r2 = false.
Proof.
  exists (Meta [6] (Some 0) [2; 2; 2] None [Some true; Some true; Some true]), [OpSet [2; 1; 3]], 1, 0.
  split; [unfold m_wf; cbn; repeat split; lia|]. vm_compute; repeat split; lia.
Qed.
Print Assumptions C11_is_balanced_collective_mismatch_refuted.
(** (d) balance_ that needs a second pass reports balanced = False on a balanced array *)
Theorem C11_balance_flag_refuted : exists m,
  m_wf m /\ balanced_check (mrun m [OpBalance]) = true /\
  nth 0 (m_bal (mrun m [OpBalance])) None = Some false.
Proof.
  exists (Meta [6] (Some 0) [3; 0; 3] None [None; None; None]).
  split; [unfold m_wf; cbn; repeat split; lia|]. split; vm_compute; reflexivity.
Qed.
Print Assumptions C11_balance_flag_refuted.
