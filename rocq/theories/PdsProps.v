(** C69 (PartialH5Dataset: loader, converter and consumer threads).  [file]: per dataset name the rows of
    the file, all [total] long; a process that holds [initial] rows in memory iterates over batches of
    [bs] elements while [load_len] rows at a time are replaced. *)
From Verif Require Import Base BaseLemmas PdsModel PdsProofs PdsProofs2 PdsProofs3.
Open Scope nat_scope.

Section Setup.
Context {A : Type} (dflt : A).
Variables (file : list (list A)) (total size rank initial bs load_len : nat).
Definition needed := (total / size + load_len - 1) / load_len.
Notation go := (run dflt file total size bs load_len needed).
Notation effort := (work dflt file total size bs load_len needed).
Notation step1 := (pstep dflt file total size bs load_len needed).
(** a file with datasets of equal length, a process that holds part of its share *)
Definition setup : Prop :=
  0 < bs /\ rank < size /\ initial <= total / size /\ forall j, j < length file -> length (nth j file []) = total.
(** the states between epochs: new, or after an epoch that was iterated to the end under some schedule *)
Inductive history : pstate (A := A) -> Prop :=
| h_new : history (new_dataset_p file total size rank initial load_len)
| h_epoch s idx sched : history s -> Forall (fun i => i < initial) idx ->
    cpc (go (batches bs idx) sched (start_epoch idx s)) = CDone -> history (go (batches bs idx) sched (start_epoch idx s)).

Hypothesis HS : setup.
Lemma share : rank * (total / size) + initial <= total.
Proof.
  destruct HS as (HB & HR & HI & HF). assert (size * (total / size) <= total) by (apply Nat.mul_div_le; lia). nia.
Qed.
Lemma new_values : values_ok dflt file initial (new_dataset_p file total size rank initial load_len).
Proof.
  destruct HS as (HB & HR & HI & HF). unfold values_ok, new_dataset_p. cbn [mem lpc cpc ready taken held got_of conv_items conv_idx length]. split; [split|].
  - now rewrite map_length.
  - intros j Hj. pose proof share. rewrite (nth_indep _ [] (sub [] (rank * (total / size)) initial)) by (now rewrite map_length). rewrite (map_nth (fun col => sub col (rank * (total / size)) initial)). unfold sub. rewrite firstn_length, skipn_length, HF by auto. lia.
  - split; [apply cols_hold|]. split; [intros j x Hx; destruct j; destruct Hx|]. split; [split; [lia|intros j Hj; cbn in Hj; lia]|]. repeat (split; [constructor|]). constructor.
Qed.
Definition epoch_ok idx s := values_ok dflt file initial s /\ lock_ok s /\ chunks_ok bs idx s.
Lemma epoch_step idx len t s s' : epoch_ok idx s -> step1 len t s = Some s' -> epoch_ok idx s'.
Proof. intros (H1 & H2 & H3) E. destruct HS as (HB & _). split; [eapply values_step; eauto|]. split; [eapply lock_step; eauto|eapply chunks_step; eauto]. Qed.
Lemma start_ok idx s : values_ok dflt file initial s -> lock_ok s -> cpc s = CDone -> Forall (fun i => i < initial) idx -> epoch_ok idx (start_epoch idx s).
Proof.
  intros (V1 & V3 & V4 & V5 & V7 & V8 & V9 & V10) HL HC HI. destruct HS as (HB & _). split; [|split].
  - unfold values_ok, start_epoch. cbn [mem lpc cpc ready taken held got_of conv_items conv_idx length]. repeat (split; auto); cbn; try lia. intros j Hj. cbn in Hj. lia.
  - unfold lock_ok, start_epoch in *. cbn [lock lpc cpc conv_locked]. rewrite HC in HL. destruct (lock s); cbn in HL; tauto.
  - split; [constructor|]. exists idx. split; [reflexivity|]. cbn. split; [reflexivity|lia].
Qed.
Lemma history_ok s : history s -> values_ok dflt file initial s /\ lock_ok s /\ cpc s = CDone.
Proof.
  induction 1 as [|s idx sched H IH HI HD]; [split; [apply new_values|split; [cbn; auto|reflexivity]]|]. destruct IH as (I1 & I2 & I3).
  pose proof (start_ok idx s I1 I2 I3 HI) as SO. apply (run_inv dflt file total size bs load_len needed (epoch_ok idx) (batches bs idx) (epoch_step idx (batches bs idx)) sched) in SO. destruct SO as (S1 & S2 & S3). auto.
Qed.
Lemma chunk_list : forall (cs : list (list nat)) l, Forall (fun b => length b = bs) cs -> length l < bs ->
  length cs = length (concat cs ++ l) / bs /\ forall k, k < length cs -> nth k cs [] = sub (concat cs ++ l) (k * bs) bs.
Proof.
  destruct HS as (HB & _). intros cs l F HL. assert (CL : length (concat cs) = length cs * bs). { clear HL. induction F as [|b cs HLb F IH]; [auto|]. cbn. rewrite app_length, HLb, IH. lia. }
  split; [rewrite app_length, CL, Nat.div_add_l, (Nat.div_small (length l)) by lia; lia|]. clear CL. induction F as [|b cs HLb F IH]; intros k Hk; [cbn in Hk; lia|]. destruct k as [|k].
  - cbn. unfold sub. cbn [skipn]. rewrite <- app_assoc, firstn_app. replace (bs - length b) with 0 by lia. cbn [firstn]. rewrite app_nil_r, firstn_all2 by lia. auto.
  - cbn [nth concat]. rewrite IH by (cbn in Hk; lia). unfold sub. f_equal. rewrite <- app_assoc. rewrite (skipn_app (S k * bs) b), HLb. replace (S k * bs - bs) with (k * bs) by lia. rewrite (skipn_all2 b) by (rewrite HLb; nia). auto.
Qed.
End Setup.

(** * C69 *)
(** For every history, every index list and every schedule: an epoch does a bounded number of steps;
    when no thread can go on, the consumer has got all batches, batch k from the indices
    k*bs .. (k+1)*bs-1; every element it got holds rows of the file. *)
Theorem C69_epoch : forall (A : Type) (dflt : A) (file : list (list A)) (total size rank initial bs load_len : nat) (s : pstate (A := A)) (idx : list nat),
  setup file total size rank initial bs -> history dflt file total size rank initial bs load_len s -> Forall (fun i => i < initial) idx ->
  let len := batches bs idx in
  let go := run dflt file total size bs load_len (needed total size load_len) len in
  (exists bound, forall sched, work dflt file total size bs load_len (needed total size load_len) len sched (start_epoch idx s) <= bound) /\
  forall sched, let s' := go sched (start_epoch idx s) in
    ((forall t, pstep dflt file total size bs load_len (needed total size load_len) len t s' = None) ->
       length (taken s') = length idx / bs /\ forall k, k < length idx / bs -> map fst (nth k (taken s') []) = sub idx (k * bs) bs) /\
    Forall (Forall (fun it => length (snd it) = length file /\ forall j, j < length file -> In (nth j (snd it) dflt) (nth j file []))) (taken s').
Proof.
  intros A dflt file total size rank initial bs load_len s idx HS HH HI len go. destruct (history_ok dflt file total size rank initial bs load_len HS s HH) as (I1 & I2 & I3).
  pose proof (start_ok dflt file total size rank initial bs HS idx s I1 I2 I3 HI) as SO. split; [exists (cost file (needed total size load_len) (start_epoch idx s)); intros sc; apply work_bound; apply HS|]. intros sched s'.
  apply (run_inv dflt file total size bs load_len (needed total size load_len) (epoch_ok dflt file initial bs idx) len (epoch_step dflt file total size rank initial bs load_len HS idx len) sched) in SO. change (epoch_ok dflt file initial bs idx s') in SO. destruct SO as (S1 & S2 & (C1 & l & C2 & C3)). split.
  - intros ST. destruct (stuck_done dflt file total size bs load_len (needed total size load_len) len s' S2 ST) as [SD SR]. rewrite SD in C3. cbn in C3.
    destruct (chunk_list file total size rank initial bs load_len HS (chunks s') l C1 C3) as [N1 N2]. rewrite <- C2 in N1, N2.
    assert (LT : length (taken s') = length idx / bs). { unfold chunks in N1. rewrite map_length, app_length in N1. destruct SR as [SR|SR]; [rewrite SR; reflexivity|]. rewrite SR in N1. cbn in N1. lia. }
    split; [exact LT|]. intros k Hk. rewrite <- N1 in Hk. rewrite <- N2 by auto. unfold chunks. rewrite map_app, app_nth1 by (rewrite map_length; lia). symmetry. exact (map_nth (map fst) (taken s') [] k).
  - destruct S1 as (_ & _ & _ & _ & _ & _ & S1 & _). eapply Forall_impl; [|exact S1]. intros b Hb. eapply Forall_impl; [|exact Hb]. intros it [L V]. split; [auto|]. intros j Hj. apply V. lia.
Qed.
Print Assumptions C69_epoch.

(** ... and under every fair schedule all batches arrive: there is a number of rounds after which the
    epoch is complete, where in each round every thread gets the processor at least once, in any order
    and as often as the scheduler likes *)
Theorem C69_fair : forall (A : Type) (dflt : A) (file : list (list A)) (total size rank initial bs load_len : nat) (s : pstate (A := A)) (idx : list nat),
  setup file total size rank initial bs -> history dflt file total size rank initial bs load_len s -> Forall (fun i => i < initial) idx ->
  exists bound, forall rounds, bound <= length rounds -> Forall (fun r => forall t, In t r) rounds ->
    let s' := run dflt file total size bs load_len (needed total size load_len) (batches bs idx) (concat rounds) (start_epoch idx s) in
    length (taken s') = length idx / bs /\ forall k, k < length idx / bs -> map fst (nth k (taken s') []) = sub idx (k * bs) bs.
Proof.
  intros A dflt file total size rank initial bs load_len s idx HS HH HI. destruct (C69_epoch A dflt file total size rank initial bs load_len s idx HS HH HI) as [_ HE]. cbv zeta in HE.
  exists (S (cost file (needed total size load_len) (start_epoch idx s))). intros rounds HL HR s'. apply HE. subst s'.
  set (nd := needed total size load_len) in *. set (len := batches bs idx) in *. assert (HB : 0 < bs) by apply HS. clear HE HI HH HS.
  assert (RA : forall a b x, run dflt file total size bs load_len nd len (a ++ b) x = run dflt file total size bs load_len nd len b (run dflt file total size bs load_len nd len a x)) by (induction a as [|t a IH]; intros b x; [auto|]; cbn [app run]; apply IH).
  assert (SK : forall x, (forall t, pstep dflt file total size bs load_len nd len t x = None) -> forall sched, run dflt file total size bs load_len nd len sched x = x).
  { intros x Hx. induction sched as [|t ts IH]; [auto|]. cbn [run]. rewrite Hx. exact IH. }
  assert (CW : forall sched x, cost file nd (run dflt file total size bs load_len nd len sched x) + work dflt file total size bs load_len nd len sched x <= cost file nd x).
  { induction sched as [|t ts IH]; intros x; [cbn; lia|]. cbn [run work]. destruct (pstep dflt file total size bs load_len nd len t x) as [x'|] eqn:E; [|apply IH]. assert (cost file nd x' < cost file nd x) by (eapply cost_step; eauto). specialize (IH x'). lia. }
  assert (W0 : forall sched x, work dflt file total size bs load_len nd len sched x = 0 -> forall t, In t sched -> pstep dflt file total size bs load_len nd len t x = None).
  { induction sched as [|t ts IH]; intros x W u Hu; [destruct Hu|]; destruct Hu as [<-|Hu]; cbn [work] in W; destruct (pstep dflt file total size bs load_len nd len t x) as [x'|] eqn:E; try discriminate; auto. }
  revert HL. generalize (start_epoch idx s) as x. induction HR as [|r rounds Hr HR IH]; intros x HL; [cbn in HL; lia|]. cbn [concat]. rewrite RA.
  destruct (work dflt file total size bs load_len nd len r x) as [|w] eqn:W.
  - assert (ST : forall t, pstep dflt file total size bs load_len nd len t x = None) by (intros t; apply (W0 r x W t); apply Hr). rewrite !(SK x ST). exact ST.
  - apply IH. specialize (CW r x). cbn in HL. lia.
Qed.
Print Assumptions C69_fair.

(** the first epoch of a new dataset, every index used at most once: every element holds one row of the
    file, the same for all datasets (sample and label belong together), under every schedule *)
Theorem C69_pairs_once : forall (A : Type) (dflt : A) (file : list (list A)) (total size rank initial bs load_len : nat) (idx : list nat) (sched : list thread),
  setup file total size rank initial bs -> Forall (fun i => i < initial) idx -> NoDup idx ->
  Forall (Forall (fun it => exists r, r < total /\ length (snd it) = length file /\ forall j, j < length file -> nth j (snd it) dflt = nth r (nth j file []) dflt))
    (taken (run dflt file total size bs load_len (needed total size load_len) (batches bs idx) sched (start_epoch idx (new_dataset_p file total size rank initial load_len)))).
Proof.
  intros A dflt file total size rank initial bs load_len idx sched HS HI HN. pose proof HS as (HB & HR & HI0 & HF).
  pose proof (new_values dflt file total size rank initial bs load_len HS) as NV. pose proof (start_ok dflt file total size rank initial bs HS idx _ NV ltac:(cbn; auto) eq_refl HI) as (SV & _ & _).
  assert (O : once_ok dflt file total load_len initial (start_epoch idx (new_dataset_p file total size rank initial load_len))).
  { unfold once_ok, start_epoch, new_dataset_p. cbn [used cpc pend app load_end load_start lpc ready taken conv_items]. split; [exact HN|]. split; [reflexivity|]. split; [split; cbn; tauto|].
    split; [|split; [exact I|repeat split; constructor]]. unfold load_ok. cbn [lpc]. exists (fun i => rank * (total / size) + i). pose proof (share file total size rank initial bs load_len HS). split; [intros; lia|].
    intros i j Hi Hj. unfold cell. cbn [mem]. rewrite (nth_indep _ [] (sub [] (rank * (total / size)) initial)) by (now rewrite map_length). rewrite (map_nth (fun col => sub col (rank * (total / size)) initial)). apply sub_nth. auto. }
  pose proof (run_inv dflt file total size bs load_len (needed total size load_len) (fun s => values_ok dflt file initial s /\ once_ok dflt file total load_len initial s) (batches bs idx)) as RI.
  specialize (RI (once_step dflt file total size bs load_len (needed total size load_len) initial HB HF (batches bs idx)) sched _ (conj SV O)). destruct RI as [_ (_ & _ & _ & _ & _ & _ & _ & RT)].
  eapply Forall_impl; [|exact RT]. intros b Hb. eapply Forall_impl; [|exact Hb]. intros it (r & Hr & HL & HV). exists r. auto.
Qed.
Print Assumptions C69_pairs_once.

Definition C (n : nat) := repeat Converter n.
Definition L (n : nat) := repeat Loader n.
Definition N (n : nat) := repeat Consumer n.
(** one process, 4 rows, 2 in memory, batches of 2: with this schedule rows 0..3 are served once each *)
Example C69_instance :
  let file := [[10; 11; 12; 13]; [20; 21; 22; 23]] in
  setup file 4 1 0 2 2 /\ history 0 file 4 1 0 2 2 2 (new_dataset_p file 4 1 0 2 2) /\
  taken (run 0 file 4 1 2 2 (needed 4 1 2) 2 (L 4 ++ C 13 ++ L 6 ++ C 20 ++ N 2) (start_epoch [0; 1; 0; 1] (new_dataset_p file 4 1 0 2 2))) =
  [[(0, [10; 20]); (1, [11; 21])]; [(0, [12; 22]); (1, [13; 23])]].
Proof. split; [repeat split; cbn; try lia; intros [|[|j]] Hj; cbn in *; try lia; reflexivity|]. split; [constructor|vm_compute; reflexivity]. Qed.

(** "sample and label belong together" for an index list with repetitions (the normal case, L262-266): the
    loader replaces both datasets between the converter's two reads; the element is the sample of row 0
    with the label of row 2 *)
Theorem C69_pairs_refuted :
  let file := [[10; 11; 12; 13]; [20; 21; 22; 23]] in
  setup file 4 1 0 2 2 /\
  taken (run 0 file 4 1 2 2 (needed 4 1 2) 2 (L 4 ++ C 13 ++ C 3 ++ L 6 ++ C 20 ++ N 2) (start_epoch [0; 1; 0; 1] (new_dataset_p file 4 1 0 2 2))) =
  [[(0, [10; 20]); (1, [11; 21])]; [(0, [10; 22]); (1, [13; 23])]].
Proof. split; [repeat split; cbn; try lia; intros [|[|j]] Hj; cbn in *; try lia; reflexivity|vm_compute; reflexivity]. Qed.
Print Assumptions C69_pairs_refuted.
(** "an epoch serves every row of the process's share": the notification comes before the loader waits and
    is lost; rows 0 and 1 are served twice, rows 2 and 3 never, and the loader waits for ever *)
Theorem C69_all_rows_refuted :
  let file := [[10; 11; 12; 13]] in
  let s := run 0 file 4 1 2 2 (needed 4 1 2) 2 (C 40 ++ L 20 ++ N 2 ++ C 1 ++ L 1) (start_epoch [0; 1; 0; 1] (new_dataset_p file 4 1 0 2 2)) in
  setup file 4 1 0 2 2 /\ (forall t, pstep 0 file 4 1 2 2 (needed 4 1 2) 2 t s = None) /\
  taken s = [[(0, [10]); (1, [11])]; [(0, [10]); (1, [11])]] /\ exists h, lpc s = LWait 1 h.
Proof.
  split; [repeat split; cbn; try lia; intros [|j] Hj; cbn in *; try lia; reflexivity|]. split; [intros []; vm_compute; reflexivity|]. split; [vm_compute; reflexivity|]. eexists. vm_compute. reflexivity.
Qed.
Print Assumptions C69_all_rows_refuted.
(** after one element more was used than the loader expected when it cleared the list, the count never
    hits load_len at the end of a batch again: no further load happens however the rest is scheduled *)
Theorem C69_misaligned_refuted :
  let file := [[10; 11; 12; 13; 14; 15; 16; 17]] in
  let s := run 0 file 8 1 2 2 (needed 8 1 2) 4 (L 4 ++ C 12 ++ C 4 ++ L 9 ++ C 60 ++ N 4 ++ L 9) (start_epoch [0; 1; 0; 1; 0; 1; 0; 1] (new_dataset_p file 8 1 0 2 2)) in
  setup file 8 1 0 2 2 /\ (forall t, pstep 0 file 8 1 2 2 (needed 8 1 2) 4 t s = None) /\
  taken s = [[(0, [10]); (1, [11])]; [(0, [10]); (1, [13])]; [(0, [12]); (1, [13])]; [(0, [12]); (1, [13])]] /\ loads_left s = 3.
Proof.
  split; [repeat split; cbn; try lia; intros [|j] Hj; cbn in *; try lia; reflexivity|]. split; [intros []; vm_compute; reflexivity|]. split; vm_compute; reflexivity.
Qed.
Print Assumptions C69_misaligned_refuted.
(** "a process serves its own share" (rank 1 of 2: rows 4..7): after the wrap-around it serves row 0, which
    is rank 0's, and never row 7 *)
Theorem C69_own_share_refuted :
  let file := [[0; 1; 2; 3; 4; 5; 6; 7]] in
  let s := run 9 file 8 2 1 1 (needed 8 2 1) 4 (L 4 ++ C 9 ++ L 9 ++ C 9 ++ L 9 ++ C 9 ++ L 9 ++ C 9 ++ L 9 ++ C 20 ++ N 4) (start_epoch [0; 1; 0; 1] (new_dataset_p file 8 2 1 2 1)) in
  setup file 8 2 1 2 1 /\ map (map snd) (taken s) = [[[4]]; [[5]]; [[6]]; [[0]]].
Proof. split; [repeat split; cbn; try lia; intros [|j] Hj; cbn in *; try lia; reflexivity|vm_compute; reflexivity]. Qed.
Print Assumptions C69_own_share_refuted.
