(** C70: DASO - transfers, consensus, bounds and skips over any training run. *)
From Coq Require Import List QArith ZArith Bool Lia Arith Lqa.
From Verif Require Import Base BaseLemmas PlatSpec PlatModel DasoSpec DasoModel DasoProofs DasoProofs2.
Import ListNotations.
Open Scope nat_scope.

(** last_batch is the index of the last batch: every epoch has last_batch + 1 batches *)
Definition full_epochs (c : conf) (run : list (list (params -> params) * metric)) : Prop := Forall (fun e => length (fst e) = last_batch c + 1) run.

(** no run raises; between epochs nothing is in flight and every transfer was received exactly once, in the order of sending *)
Theorem C70_protocol_partial : forall c level p run, 2 <= loc c -> full_epochs c run ->
  exists s, train c run (new_daso c level p) = Ok s /\ epoch s = length run /\ current_batch s = 0 /\ (forall g, nth g (prev s) [] = []) /\ recvs s = sends s.
Proof.
  intros c level p run L2 F. destruct (train_ok c run (new_daso c level p) L2 (new_rest c level p) F) as (s & E & (R1 & R2 & R3 & R4 & R5 & R6 & R7) & Ep & _).
  exists s. repeat split; auto.
Qed.
Lemma reach c level p run s : 2 <= loc c -> full_epochs c run -> train c run (new_daso c level p) = Ok s -> rest c s.
Proof. intros L2 F E. destruct (train_ok c run (new_daso c level p) L2 (new_rest c level p) F) as (s' & E' & R & _). rewrite E in E'. injection E' as <-. exact R. Qed.
(** inside an epoch: at most one transfer is in flight, the oldest are received first *)
Theorem C70_in_flight : forall c level p run s opts s', 2 <= loc c -> full_epochs c run -> train c run (new_daso c level p) = Ok s ->
  length opts <= last_batch c -> steps c opts s = Ok s' ->
  current_batch s' = length opts /\ exists fl, sends s' = recvs s' ++ fl /\ length fl <= 1.
Proof.
  intros c level p run s opts s' L2 F E H E'. pose proof (reach c level p run s L2 F E) as R.
  destruct (steps_inv c _ _ _ _ _ opts s L2 (rest_inv c s ltac:(lia) R)) as (s2 & A1 & A2 & A3 & _); [destruct R as (_ & _ & _ & _ & -> & _); lia|].
  rewrite E' in A1. injection A1 as <-. split; [rewrite A3; destruct R as (_ & _ & _ & _ & -> & _); auto|].
  destruct A2 as ((_ & _ & O) & P & _). exists (pending s'). split; auto. unfold pending. destruct (send_mod_m1 s') as [k|]; [|cbn; lia]. rewrite map_length. apply O.
Qed.
(** the exchanges of an epoch: on the exchange batches of its skip, the GPU groups in turn *)
Theorem C70_exchanges : forall c level p run s opts s', 2 <= loc c -> full_epochs c run -> train c run (new_daso c level p) = Ok s ->
  length opts = last_batch c + 1 -> steps c opts s = Ok s' ->
  sends s' = sends s ++ turns (loc c) (exchange_batches (global_skip s) (last_batch c)).
Proof.
  intros c level p run s opts s' L2 F E H E'. destruct (epoch_ok c opts s L2 (reach c level p run s L2 F E) H) as (s2 & A1 & _ & A3 & _). congruence.
Qed.
(** local (in-node) gradient synchronisation is on in every exchange batch *)
Theorem C70_local_sync_on : forall c level p run s opts s', 2 <= loc c -> full_epochs c run -> train c run (new_daso c level p) = Ok s ->
  length opts <= last_batch c -> steps c opts s = Ok s' -> exchange_batch (global_skip s) (last_batch c) (length opts) = true -> local_sync s' = true.
Proof.
  intros c level p run s opts s' L2 F E H E' X. pose proof (reach c level p run s L2 F E) as R.
  destruct (steps_inv c _ _ _ _ _ opts s L2 (rest_inv c s ltac:(lia) R)) as (s2 & A1 & A2 & A3 & _); [destruct R as (_ & _ & _ & _ & -> & _); lia|].
  rewrite E' in A1. injection A1 as <-. destruct A2 as (_ & _ & _ & _ & _ & _ & _ & _ & A). apply A. rewrite A3. destruct R as (_ & _ & _ & _ & -> & _). exact X.
Qed.
(** after the last batch of an epoch, and after every exchange batch of an epoch without waiting, all ranks hold the same
    parameters: the mean over the nodes of the optimizer's result on the GPU group whose turn it is *)
Theorem C70_consensus : forall c level p run s opts s1 o, 2 <= loc c -> full_epochs c run -> train c run (new_daso c level p) = Ok s ->
  length opts <= last_batch c -> steps c opts s = Ok s1 ->
  length opts = last_batch c \/ (batches_to_wait s = 0%Z /\ exchange_batch (global_skip s) (last_batch c) (length opts) = true) ->
  exists s2, step c o s1 = Ok s2 /\
    let turn := length (filter (exchange_batch (global_skip s) (last_batch c)) (seq 0 (length opts))) mod loc c in
    forall n g, par s2 n g = mean (nodes c) (fun node => o (par s1) node turn).
Proof.
  intros c level p run s opts s1 o L2 F E H E' D. pose proof (reach c level p run s L2 F E) as R. assert (Z0 : current_batch s = 0) by apply R.
  destruct (steps_inv c _ _ _ _ _ opts s L2 (rest_inv c s ltac:(lia) R)) as (t & A1 & A2 & A3 & _); [lia|].
  rewrite E' in A1. injection A1 as <-. destruct (step_inv c _ _ _ _ _ o s1 L2 A2) as (s2 & B1 & _ & _ & B4). exists s2. split; auto. cbv zeta. intros n g.
  rewrite B4.
  - destruct A2 as (_ & _ & _ & _ & _ & _ & _ & (_ & A9) & _). rewrite A9, A3, Z0. reflexivity.
  - rewrite A3, Z0. cbn [plus]. destruct D as [->|[-> ->]]; [rewrite Nat.eqb_refl; auto|]. cbn. apply orb_true_r.
Qed.
Theorem C70_epoch_consensus : forall c level p run s, 2 <= loc c -> full_epochs c run -> train c run (new_daso c level p) = Ok s -> run <> [] ->
  forall n g n' g', par s n g = par s n' g'.
Proof.
  intros c level p run s L2 F E NE. destruct (train_ok c run (new_daso c level p) L2 (new_rest c level p) F) as (s' & E' & _ & _ & H). rewrite E in E'. injection E' as <-.
  destruct (H NE) as [v Hv]. intros. rewrite !Hv. auto.
Qed.
(** the synchronisation only averages: bounds kept by the local optimizers are kept by the run *)
Theorem C70_bounds : forall c level p run s lo hi, 2 <= loc c -> 1 <= nodes c -> full_epochs c run ->
  Forall (fun e => Forall (fun o => forall q, within lo hi (nodes c) (loc c) q -> within lo hi (nodes c) (loc c) (o q)) (fst e)) run ->
  within lo hi (nodes c) (loc c) p -> train c run (new_daso c level p) = Ok s -> within lo hi (nodes c) (loc c) (par s).
Proof. intros c level p run s lo hi L2 Hn F G W E. exact (train_bounded c lo hi run _ s L2 Hn (new_rest c level p) F G W E). Qed.
(** warm-up and cool-down synchronise every batch at once; in between, between one and max(4, max_global_skips) batches are skipped *)
Theorem C70_skips_partial : forall c level p run s, 2 <= loc c -> full_epochs c run -> train c run (new_daso c level p) = Ok s -> run <> [] ->
  let e := length run in
  (e < warmup c \/ total_epochs c <= e + cooldown_epochs c -> global_skip s = 0 /\ local_skip s = 0 /\ batches_to_wait s = 0%Z) /\
  (1 <= warmup c -> 1 <= max_gs c -> 1 <= reduction c <= 2 -> warmup c <= e < total_epochs c - cooldown_epochs c -> 1 <= global_skip s <= Nat.max 4 (max_gs c)).
Proof.
  intros c level p run s L2 F E NE. cbv zeta. destruct (train_ok c run (new_daso c level p) L2 (new_rest c level p) F) as (s' & E' & _ & Ep & _). rewrite E in E'. injection E' as <-.
  cbn in Ep. destruct (train_skips c run (new_daso c level p) s L2 (new_rest c level p) F E NE) as [A B]. rewrite Ep in *. split; [exact A|].
  intros W M Rd He. apply B; auto. lia.
Qed.

(** every hypothesis is met: two nodes of two GPUs, 6 batches per epoch, a loss that stalls; the optimizers move the parameters apart *)
Definition ex_conf (last w red : nat) : conf := mk_conf 2 2 last w 1 9 4 red 2.
Definition ex_opt : params -> params := fun _ n g => (qn (n + 2 * g) * (1 # 8))%Q.
Definition ex_run (epochs batches : nat) : list (list (params -> params) * metric) := repeat (repeat ex_opt batches, Fin 1) epochs.
Definition ex_new (c : conf) : daso := new_daso c (1 # 20) (fun _ _ => 0%Q).
Definition skips_of (r : res daso) : option (nat * nat * Z) := match r with Ok s => Some (global_skip s, local_skip s, batches_to_wait s) | Err _ => None end.
Theorem C70_example : full_epochs (ex_conf 5 1 2) (ex_run 8 6) /\
  map (fun k => skips_of (train (ex_conf 5 1 2) (ex_run k 6) (ex_new (ex_conf 5 1 2)))) [1; 2; 4; 5; 8] = [Some (4, 1, 1%Z); Some (4, 1, 1%Z); Some (2, 1, 1%Z); Some (2, 1, 1%Z); Some (0, 0, 0%Z)] /\
  within 0 1 2 2 (fun _ _ => 0%Q) /\ (forall q, within 0 1 2 2 q -> within 0 1 2 2 (ex_opt q)).
Proof.
  split; [|split; [vm_compute; reflexivity|split]].
  - unfold full_epochs, ex_run. apply Forall_forall. intros e He. apply repeat_spec in He. subst e. reflexivity.
  - intros n g _ _. split; lra.
  - intros q H n g Hn Hg. specialize (H n g Hn Hg). unfold ex_opt. assert (K : (0 <= qn (n + 2 * g) <= 3)%Q).
    { unfold qn. change 3%Q with (inject_Z 3). change 0%Q with (inject_Z 0). rewrite <- !Zle_Qle. lia. } split; lra.
Qed.
(** step's error message asks for last_batch = len(dataloader); the runs of the examples set len - 1.  With the former, an epoch has
    last_batch batches, the exchange of its last batch never happens and the run stops with ValueError *)
Theorem C70_last_batch_as_documented_refuted : exists c run e, 2 <= loc c /\ Forall (fun x => length (fst x) = last_batch c) run /\ length run = total_epochs c /\ train c run (ex_new c) = Err e.
Proof.
  exists (mk_conf 2 2 5 1 4 8 4 2 2), (ex_run 8 5), ValueError. split; [cbn; lia|]. split; [|split; [reflexivity|vm_compute; reflexivity]].
  apply Forall_forall. intros e He. apply repeat_spec in He. subst e. reflexivity.
Qed.
(** warmup_epochs = 0: the skips never start, whatever the losses *)
Lemma ell_zero c l s : 1 <= epoch s -> warmup c = 0 -> global_skip s = 0 -> global_skip (epoch_loss_logic c l s) = 0.
Proof.
  intros He Hw Hg. unfold epoch_loss_logic. rewrite Hw. change (epoch s <? 0) with false. destruct (Nat.eqb_spec 0 (epoch s)); [lia|]. cbv zeta.
  destruct (total_epochs c <=? epoch s + cooldown_epochs c); [auto|]. destruct (test_if_improving l (stability s)) as [st b]. rewrite Hg. destruct b; cbn [andb Nat.ltb Nat.leb Nat.eqb]; cbn; auto.
Qed.
Theorem C70_no_warmup_no_skips_refuted : forall c level p run s, 2 <= loc c -> full_epochs c run -> warmup c = 0 -> train c run (new_daso c level p) = Ok s -> global_skip s = 0.
Proof.
  intros c level p run s L2 F W. assert (G : forall run t, rest c t -> full_epochs c run -> global_skip t = 0 -> train c run t = Ok s -> global_skip s = 0).
  { clear run F. induction run as [|[o l] run IH]; intros t R F Hg; cbn [train]; [intros E; injection E as <-; auto|]. inversion F as [|? ? F1 F2]; subst. cbn in F1.
    destruct (epoch_ok c o t L2 R F1) as (t1 & A1 & A2 & _ & A4 & A5 & _). rewrite A1. cbn [bind]. apply IH; auto; [apply ell_rest; auto|]. apply ell_zero; auto; lia. }
  apply G; auto. apply new_rest.
Qed.
(** skip_reduction_factor = 3: the skips fall to 0 in the middle of the run *)
Theorem C70_skips_vanish_refuted : exists c run, 2 <= loc c /\ full_epochs c run /\ 1 <= warmup c <= length run /\ length run < total_epochs c - cooldown_epochs c /\ 1 <= max_gs c /\
  option_map (fun x => fst (fst x)) (skips_of (train c run (ex_new c))) = Some 0.
Proof.
  exists (ex_conf 5 1 5), (ex_run 5 6). cbn [loc ex_conf warmup total_epochs cooldown_epochs max_gs]. split; [lia|]. split; [|split; [cbn; lia|]; split; [cbn; lia|]; split; [lia|vm_compute; reflexivity]].
  apply Forall_forall. intros e He. apply repeat_spec in He. subst e. reflexivity.
Qed.
(** local_skip_factor > max_global_skips: batches_to_wait becomes negative *)
Theorem C70_negative_wait_refuted : exists c run, 2 <= loc c /\ full_epochs c run /\ option_map snd (skips_of (train c run (ex_new c))) = Some (-1)%Z.
Proof.
  exists (mk_conf 2 2 5 1 1 30 4 2 5), (ex_run 13 6). split; [cbn; lia|]. split; [|vm_compute; reflexivity].
  apply Forall_forall. intros e He. apply repeat_spec in He. subst e. reflexivity.
Qed.
