(** C08: programs that exchange messages along a common plan cannot deadlock and
    compute one result, whatever the buffering and the interleaving. *)
From Verif Require Import Base BaseLemmas SchedModel SchedProofs RedistModel RedistProofs.
Set Implicit Arguments.

(** Every reachable configuration is final or can move without relying on
    buffering (a receive of a sent message or a rendezvous). *)
Theorem C08_plan_deadlock_free : forall (S M : Type) (P : nat) (G : list (@event S M)) s0 n c,
  plan_ok P G -> length s0 = P -> steps n (initial P G s0) c ->
  final c \/ exists c', step_recv c c' \/ step_sync c c'.
Proof. exact sched_no_deadlock. Qed.
Print Assumptions C08_plan_deadlock_free.

(** Every execution that ends has the plan's sequential result and leaves no message behind. *)
Theorem C08_plan_deterministic : forall (S M : Type) (P : nat) (G : list (@event S M)) s0 n c,
  plan_ok P G -> length s0 = P -> steps n (initial P G s0) c -> final c ->
  st c = exec s0 G /\ net c = [].
Proof. exact sched_deterministic. Qed.
Print Assumptions C08_plan_deterministic.

(** No execution is longer than two steps per exchange. *)
Theorem C08_plan_terminates : forall (S M : Type) (P : nat) (G : list (@event S M)) s0 n c,
  plan_ok P G -> length s0 = P -> steps n (initial P G s0) c -> n <= 2 * length G.
Proof. exact sched_terminates. Qed.
Print Assumptions C08_plan_terminates.

(** The exchange made by one __redistribute_shuffle call, dndarray.py L1499-1522
    (tag 685): state and message are lists of slabs along the split axis. *)
Definition xfer_event {A} (x : xfer) : @event (list A) (list A) :=
  Event (x_snd x) (x_rcv x) 685
    (fun s => if x_snd x <? x_rcv x
              then (skipn (length s - x_amt x) s, firstn (length s - x_amt x) s)
              else (firstn (x_amt x) s, skipn (x_amt x) s))
    (fun r m => if x_snd x <? x_rcv x then m ++ r else r ++ m).

Lemma xfer_event_exec {A} (d : dist A) x : x_snd x < length d -> x_rcv x < length d -> x_snd x <> x_rcv x ->
  exec1 d (xfer_event x) = shuffle d x.
Proof.
  intros H1 H2 H3. unfold exec1, shuffle, xfer_event. cbn [e_src e_dst e_send e_recv].
  rewrite (nth_error_nth' d [] H1), (nth_error_nth' d [] H2).
  destruct (Nat.ltb_spec (x_snd x) (x_rcv x)); cbn [fst snd]; auto.
  destruct (Nat.ltb_spec (x_rcv x) (x_snd x)); auto; lia.
Qed.

Lemma shuffle_length {A} (d : dist A) x : length (shuffle d x) = length d.
Proof. unfold shuffle. destruct (_ <? _); [|destruct (_ <? _)]; rewrite ?upd_length; auto. Qed.

Definition xfers_in_range (P : nat) (tr : list xfer) : Prop :=
  forall x, In x tr -> x_snd x < P /\ x_rcv x < P /\ x_snd x <> x_rcv x.

Lemma xfer_exec_all {A} (tr : list xfer) : forall (d : dist A), xfers_in_range (length d) tr ->
  exec d (map xfer_event tr) = run_trace d tr.
Proof.
  unfold exec, run_trace. induction tr as [|x tr IH]; intros d H; auto. cbn [map fold_left].
  destruct (H x (or_introl eq_refl)) as (H1 & H2 & H3). rewrite xfer_event_exec by auto.
  apply IH. rewrite shuffle_length. intros y Hy. apply H; simpl; auto.
Qed.

Lemma trace_ok_range l tr l' : trace_ok l tr l' -> xfers_in_range (length l) tr.
Proof.
  induction 1 as [l|l tr l' x T IH X]; intros y Hy; [destruct Hy|].
  apply in_app_or in Hy. destruct Hy as [Hy|[<-|[]]]; auto.
  destruct X as (X1 & X2 & X3 & _). rewrite (trace_ok_length T) in *. repeat split; auto; lia.
Qed.

Lemma xfers_plan {A} P tr : xfers_in_range P tr -> plan_ok P (map (@xfer_event A) tr).
Proof. intros H e He. apply in_map_iff in He. destruct He as (x & <- & Hx). cbn. auto. Qed.

(** redistribute_ as a message passing program: all ranks derive the same list of
    transfers from the shape maps, each plays its own part with blocking Send and
    Recv.  Under every buffering and interleaving the program does not deadlock,
    stops, and ends with the concatenation unchanged and the requested extents. *)
Theorem C08_redistribute_all_schedules : forall (A : Type) (d : dist A) (t : list nat),
  1 < length d -> length t = length d -> list_sum t = length (glob d) ->
  exists tr k, redist_loop (length d) (lens d) t [] = Ok (t, tr, k) /\
  forall n c, steps n (initial (length d) (map xfer_event tr) d) c ->
    (final c \/ exists c', step_recv c c' \/ step_sync c c') /\
    n <= 2 * length tr /\
    (final c -> glob (st c) = glob d /\ lens (st c) = t /\ net c = []).
Proof.
  intros A d t H1 Hl Hs. rewrite glob_length in Hs.
  destruct (@redist_loop_spec t (length d) (lens d) 0 []) as (tr & k & E & T & _);
    [rewrite lens_length; lia|lia|lia|lia|intros; lia|lia|].
  exists tr, k. split; [exact E|]. intros n c St.
  pose proof (trace_ok_range T) as R. rewrite lens_length in R.
  pose proof (@xfers_plan A _ _ R) as PK.
  split; [eapply sched_no_deadlock; eauto|]. split.
  - rewrite <- (map_length (@xfer_event A) tr). eapply sched_terminates; eauto.
  - intros Fi. destruct (@sched_deterministic _ _ (length d) _ d n c PK eq_refl St Fi) as [E1 E2].
    rewrite E1, xfer_exec_all by auto. destruct (trace_ok_run d T eq_refl) as [L G]. auto.
Qed.
Print Assumptions C08_redistribute_all_schedules.

(** a plan with transfers in both directions meets the hypotheses, and it moves *)
Example C08_instance :
  plan_ok 3 (map (@xfer_event nat) [Xfer 0 1 2; Xfer 2 1 1]) /\
  exec [[1;2;3];[];[4;5]] (map xfer_event [Xfer 0 1 2; Xfer 2 1 1]) = [[1]; [2;3;4]; [5]].
Proof.
  split; [|vm_compute; reflexivity].
  intros e [<-|[<-|[]]]; cbn; lia.
Qed.
(** the plan hypothesis matters: two processes that both receive first are stuck *)
Example C08_not_vacuous :
  let c := @Config nat nat [[ARecv 1 0 (fun s m => m); ASend 1 0 (fun s => (s, s))];
                   [ARecv 0 0 (fun s m => m); ASend 0 0 (fun s => (s, s))]] [5; 6] [] in
  ~ final c /\ forall c', ~ step c c'.
Proof.
  cbv zeta. split.
  - intros F. specialize (F 0). discriminate F.
  - intros c' [H|[H|H]]; inversion H; subst; cbn in *.
    + destruct i as [|[|[|]]]; discriminate.
    + discriminate.
    + destruct i as [|[|[|]]]; discriminate.
Qed.
