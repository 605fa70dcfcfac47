From Coq Require Import List QArith ZArith Bool Lia Arith Lqa.
From Verif Require Import Base BaseLemmas PlatSpec PlatModel DasoSpec DasoModel.
Import ListNotations.
Open Scope nat_scope.

Definition pending (s : daso) : list (nat * nat) :=
  match send_mod_m1 s with None => [] | Some k => map (fun t => (k, sent_at t)) (nth k (prev s) []) end.
Definition outst (c : conf) (s : daso) : Prop :=
  length (prev s) = loc c /\ send_mod s < loc c /\
  match send_mod_m1 s with
  | None => forall g, nth g (prev s) [] = []
  | Some k => k < loc c /\ send_mod s <> k /\ length (nth k (prev s) []) <= 1 /\ batches_to_wait s <> 0%Z /\ forall g, g <> k -> nth g (prev s) [] = []
  end.

Lemma next_mod_mod c m : 2 <= loc c -> m < loc c -> next_mod c m = (m + 1) mod loc c.
Proof.
  intros H1 H2. unfold next_mod. destruct (Nat.leb_spec (m + 2) (loc c)).
  - rewrite Nat.mod_small; lia.
  - replace (m + 1) with (loc c) by lia. rewrite Nat.mod_same; lia.
Qed.
Lemma next_mod_lt c m : 2 <= loc c -> m < loc c -> next_mod c m < loc c.
Proof. intros. rewrite next_mod_mod by auto. apply Nat.mod_upper_bound. lia. Qed.
Lemma next_mod_neq c m : 2 <= loc c -> m < loc c -> next_mod c m <> m.
Proof. intros H1 H2. unfold next_mod. destruct (Nat.leb_spec (m + 2) (loc c)); lia. Qed.

Lemma nth_upd {A} (l : list A) k v j d : k < length l -> nth j (upd l k v) d = if j =? k then v else nth j l d.
Proof. intros H. destruct (Nat.eqb_spec j k) as [->|N]; [apply upd_same; auto|apply upd_other; auto]. Qed.

Lemma rcv_fields c s : let s' := rcv_update c s in
  epoch s' = epoch s /\ current_batch s' = current_batch s /\ send_mod s' = send_mod s /\ send_mod_m1 s' = send_mod_m1 s /\ global_skip s' = global_skip s /\
  local_skip s' = local_skip s /\ batches_to_wait s' = batches_to_wait s /\ local_sync s' = local_sync s /\ sends s' = sends s /\ length (prev s') = length (prev s) /\
  stability s' = stability s /\ gs8_waited s' = gs8_waited s.
Proof.
  unfold rcv_update. destruct (send_mod_m1 s) as [k|] eqn:E; cbn; [|rewrite ?E; intuition auto].
  destruct (nth k (prev s) []); cbn; rewrite ?E, ?upd_length; intuition auto.
Qed.
Lemma rcv_outst c s : outst c s -> recvs s ++ pending s = sends s ->
  outst c (rcv_update c s) /\ recvs (rcv_update c s) ++ pending (rcv_update c s) = sends s.
Proof.
  intros (L & M & O) P. pose proof P as P0. unfold rcv_update. destruct (send_mod_m1 s) as [k|] eqn:E.
  - destruct O as (O1 & O2 & O3 & O4 & O5). destruct (nth k (prev s) []) as [|t r] eqn:N.
    + unfold outst, pending. cbn. rewrite E, N. split; [|unfold pending in P; rewrite E, N in P; exact P]. repeat split; auto.
    + cbn in O3. assert (r = []) by (destruct r; auto; cbn in O3; lia). subst r.
      unfold outst, pending. cbn. rewrite E. rewrite upd_same by lia. split.
      * rewrite upd_length. repeat split; auto. intros g Hg. rewrite upd_other by auto. auto.
      * unfold pending in P. rewrite E, N in P. cbn in P. cbn. rewrite app_nil_r. exact P.
  - unfold outst, pending. rewrite E. repeat split; auto. unfold pending in P. rewrite E in P. exact P.
Qed.

Lemma off_ranks_ok n m (pv : list (list transfer)) : (forall g, g <> m -> nth g pv [] = []) ->
  forallb (fun g => (g =? m) || (length (nth g pv []) =? 0)) (seq 0 n) = true.
Proof. intros H. apply forallb_forall. intros g _. destruct (Nat.eqb_spec g m); auto. rewrite H by auto. auto. Qed.

(** the global synchronisation in a state of the protocol *)
Lemma global_sync_ok c btw s : 2 <= loc c -> outst c s -> recvs s ++ pending s = sends s -> current_batch s <= last_batch c ->
  let done := (current_batch s =? last_batch c) || (batches_to_wait s =? 0)%Z in
  exists s', global_sync c btw s = Ok s' /\ outst c s' /\ recvs s' ++ pending s' = sends s' /\ sends s' = sends s ++ [(send_mod s, current_batch s)] /\
    global_skip s' = global_skip s /\ local_skip s' = local_skip s /\ batches_to_wait s' = batches_to_wait s /\ local_sync s' = local_sync s /\ stability s' = stability s /\
    (if current_batch s =? last_batch c then epoch s' = epoch s + 1 /\ current_batch s' = 0 /\ send_mod s' = 0
     else epoch s' = epoch s /\ current_batch s' = current_batch s + 1 /\ send_mod s' = next_mod c (send_mod s)) /\
    send_mod_m1 s' = (if done then None else Some (send_mod s)) /\
    (done = true -> forall n g, par s' n g = (group_sum c (par s) (send_mod s) / qn (nodes c))%Q).
Proof.
  intros L2 (L & M & O) P Hb. cbv zeta. unfold global_sync.
  set (m := send_mod s) in *. set (tr := mk_tr (current_batch s) (group_sum c (par s) m) btw).
  set (s1 := send_params c btw s).
  set (s2 := if (batches_to_wait s =? 0)%Z then s1 else rcv_update c s1).
  (* what s2 is *)
  assert (Q2 : length (prev s2) = loc c /\ nth m (prev s2) [] = [tr] /\ (forall g, g <> m -> nth g (prev s2) [] = []) /\
               recvs s2 = sends s /\ sends s2 = sends s ++ [(m, current_batch s)]).
  { assert (E1 : prev s1 = upd (prev s) m (nth m (prev s) [] ++ [tr])) by reflexivity.
    destruct (send_mod_m1 s) as [k|] eqn:Em.
    - destruct O as (O1 & O2 & O3 & O4 & O5). fold m in O2. unfold s2. destruct (Z.eqb_spec (batches_to_wait s) 0); [contradiction|].
      assert (Em1 : send_mod_m1 s1 = Some k) by exact Em.
      unfold rcv_update. rewrite Em1. rewrite E1. rewrite upd_other by auto. unfold pending in P. rewrite Em in P.
      destruct (nth k (prev s) []) as [|t r] eqn:N.
      + cbn in P. rewrite app_nil_r in P. unfold set_comm. cbn [prev recvs sends]. rewrite upd_length, upd_same by lia. rewrite (O5 m) by auto.
        repeat split; auto. intros g Hg. rewrite upd_other by auto. destruct (Nat.eq_dec g k) as [->|]; auto.
      + assert (r = []) by (destruct r; auto; cbn in O3; lia). subst r. cbn in P. unfold set_comm. cbn [prev recvs sends].
        rewrite !upd_length. rewrite (@upd_other _ _ k m) by auto. rewrite upd_same by lia. rewrite (O5 m) by auto.
        repeat split; auto. intros g Hg. destruct (Nat.eq_dec g k) as [->|Hk]; [rewrite upd_same; auto; rewrite upd_length; lia|]. rewrite !upd_other by auto. auto.
    - unfold pending in P. rewrite Em, app_nil_r in P.
      assert (E2 : s2 = s1). { unfold s2. destruct (batches_to_wait s =? 0)%Z; auto. unfold rcv_update. assert (Em1 : send_mod_m1 s1 = None) by exact Em. rewrite Em1. auto. }
      rewrite E2. rewrite E1, upd_length, upd_same by lia. rewrite (O m). repeat split; auto. intros g Hg. rewrite upd_other by auto. auto. }
  destruct Q2 as (A1 & A2 & A3 & A4 & A5).
  destruct ((current_batch s =? last_batch c) || (batches_to_wait s =? 0)%Z) eqn:D.
  - rewrite A2. rewrite off_ranks_ok by auto. eexists. split; [reflexivity|]. unfold outst, pending. cbn.
    assert (HN : forall g, nth g (upd (prev s2) m []) [] = []). { intros g. rewrite nth_upd by lia. destruct (Nat.eqb_spec g m); auto. }
    rewrite A4, A5, upd_length.
    repeat split; auto; try (rewrite app_nil_r; auto; fail).
    + destruct (current_batch s =? last_batch c); [lia|apply next_mod_lt; auto].
    + destruct (current_batch s =? last_batch c); auto.
    + intros _ n g. unfold on_group. rewrite Nat.eqb_refl. reflexivity.
  - apply orb_false_iff in D. destruct D as [D1 D2]. rewrite D1. eexists. split; [reflexivity|]. unfold outst, pending. cbn. rewrite A2, A4, A5. cbn.
    repeat split; auto; try discriminate.
    + apply next_mod_lt; auto.
    + apply next_mod_neq; auto.
    + intros E. apply Z.eqb_neq in D2. auto.
Qed.

(** the protocol's invariant inside an epoch that began with [s0] sends *)
Definition inv (c : conf) (s0 : list (nat * nat)) (gs ls : nat) (bw : Z) (e0 : nat) (s : daso) : Prop :=
  outst c s /\ recvs s ++ pending s = sends s /\ current_batch s <= last_batch c /\ global_skip s = gs /\ local_skip s = ls /\ batches_to_wait s = bw /\ epoch s = e0 /\
  (let bs := filter (exchange_batch gs (last_batch c)) (seq 0 (current_batch s)) in sends s = s0 ++ turns (loc c) bs /\ send_mod s = length bs mod loc c) /\
  (exchange_batch gs (last_batch c) (current_batch s) = true -> local_sync s = true).

Lemma turns_snoc n bs b : turns n (bs ++ [b]) = turns n bs ++ [(length bs mod n, b)].
Proof.
  unfold turns. rewrite app_length, seq_app, map_app. cbn [length seq map].
  assert (G : forall (l1 l1' : list nat) (l2 l2' : list nat), length l1 = length l2 -> combine (l1 ++ l1') (l2 ++ l2') = combine l1 l2 ++ combine l1' l2').
  { induction l1 as [|x l1 IH]; intros l1' [|y l2] l2' H; cbn in *; auto; try lia. rewrite IH by lia. auto. }
  rewrite G by (rewrite map_length, seq_length; auto). reflexivity.
Qed.
Lemma filter_seq_snoc f b : filter f (seq 0 (b + 1)) = filter f (seq 0 b) ++ (if f b then [b] else []).
Proof. rewrite seq_app, filter_app. cbn. destruct (f b); auto. Qed.

Lemma exchange_gmod gs last b : ((b =? last) || ((if 0 <? gs then b mod gs else 0) =? 0)) = exchange_batch gs last b.
Proof. unfold exchange_batch. destruct (Nat.ltb_spec 0 gs); [destruct (Nat.eqb_spec gs 0); [lia|]; rewrite orb_false_r; auto|]. assert (gs = 0) by lia. subst. cbn. rewrite !orb_true_r. auto. Qed.

Lemma exchange_next gs last b : exchange_batch gs last b = false -> exchange_batch gs last (b + 1) = (b + 1 =? last) || ((b + 1) mod gs =? 0).
Proof. unfold exchange_batch. intros H. apply orb_false_iff in H. destruct H as [H _]. apply orb_false_iff in H. destruct H as [_ H]. rewrite H, orb_false_r. auto. Qed.

(** a batch without an exchange *)
Lemma quiet_step c s0 gs ls bw e0 s s1 sync : inv c s0 gs ls bw e0 s -> exchange_batch gs (last_batch c) (current_batch s) = false ->
  (s1 = s \/ s1 = rcv_update c s) -> (exchange_batch gs (last_batch c) (current_batch s + 1) = true -> sync = true) ->
  inv c s0 gs ls bw e0 (advance s1 sync) /\ current_batch (advance s1 sync) = current_batch s + 1.
Proof.
  intros (I1 & I2 & I3 & I4 & I5 & I6 & I7 & (I8 & I9) & I10) HX Hs Hf.
  assert (B : current_batch s1 = current_batch s /\ global_skip s1 = global_skip s /\ local_skip s1 = local_skip s /\ batches_to_wait s1 = batches_to_wait s /\ epoch s1 = epoch s /\ sends s1 = sends s /\ send_mod s1 = send_mod s).
  { destruct Hs as [->| ->]; [intuition auto|]. pose proof (rcv_fields c s). cbv zeta in H. intuition auto. }
  destruct B as (B1 & B2 & B3 & B4 & B5 & B6 & B7).
  assert (C : outst c s1 /\ recvs s1 ++ pending s1 = sends s1). { destruct Hs as [->| ->]; auto. destruct (rcv_outst c s I1 I2). rewrite B6. auto. }
  destruct C as [C1 C2].
  assert (N : current_batch s <> last_batch c). { intros E. unfold exchange_batch in HX. rewrite E, Nat.eqb_refl in HX. discriminate. }
  split; [|cbn; rewrite B1; auto]. unfold inv. cbn. rewrite B1, B2, B3, B4, B5, B6, B7. split; [exact C1|]. split; [unfold pending in *; cbn; rewrite <- B6; exact C2|].
  split; [lia|]. repeat split; auto; rewrite filter_seq_snoc, HX, app_nil_r; auto.
Qed.

Lemma set_par_inv c s0 gs ls bw e0 s p : inv c s0 gs ls bw e0 s -> inv c s0 gs ls bw e0 (set_comm s (prev s) p (recvs s)).
Proof. intros H. exact H. Qed.

(** the state between two epochs *)
Definition rest (c : conf) (s : daso) : Prop :=
  length (prev s) = loc c /\ (forall g, nth g (prev s) [] = []) /\ send_mod s = 0 /\ send_mod_m1 s = None /\ current_batch s = 0 /\ local_sync s = true /\ recvs s = sends s.

Lemma step_inv c s0 gs ls bw e0 o s : 2 <= loc c -> inv c s0 gs ls bw e0 s ->
  exists s', step c o s = Ok s' /\
    (if current_batch s =? last_batch c
     then rest c s' /\ sends s' = s0 ++ turns (loc c) (exchange_batches gs (last_batch c)) /\ epoch s' = e0 + 1 /\ global_skip s' = gs /\ local_skip s' = ls /\ batches_to_wait s' = bw
     else inv c s0 gs ls bw e0 s' /\ current_batch s' = current_batch s + 1) /\
    stability s' = stability s /\
    ((current_batch s =? last_batch c) || ((bw =? 0)%Z && exchange_batch gs (last_batch c) (current_batch s)) = true ->
       forall n g, par s' n g = (group_sum c (o (par s)) (send_mod s) / qn (nodes c))%Q).
Proof.
  intros L2 I. unfold step. set (t := set_comm s (prev s) (o (par s)) (recvs s)). assert (It : inv c s0 gs ls bw e0 t) by exact I.
  assert (Et : current_batch t = current_batch s /\ stability t = stability s) by (split; reflexivity). destruct Et as [Et Es].
  assert (Ep : par t = o (par s)) by reflexivity. assert (Em : send_mod t = send_mod s) by reflexivity. rewrite <- Et, <- Es, <- Ep, <- Em. clearbody t. clear I Et Es Ep Em s o.
  rename t into s, It into I. pose proof I as (I1 & I2 & I3 & I4 & I5 & I6 & I7 & (I8 & I9) & I10).
  unfold sync_step. rewrite I4, I5, exchange_gmod.
  set (btw := if (batches_to_wait s + Z.of_nat (current_batch s) <=? Z.of_nat (last_batch c))%Z then _ else _). clearbody btw.
  destruct (exchange_batch gs (last_batch c) (current_batch s)) eqn:X.
  - destruct (global_sync_ok c btw s L2 I1 I2 I3) as (s' & E & O & P & Sd & F1 & F2 & F3 & F4 & F5 & F6 & F7 & F8).
    exists s'. split; [exact E|]. destruct (Nat.eqb_spec (current_batch s) (last_batch c)) as [HL|HL].
    + destruct F6 as (G1 & G2 & G3). destruct O as (O1 & O2 & O3). cbn in F7. rewrite F7 in O3.
      split; [|split; [auto|intros _; apply F8; auto]].
      split; [|split; [|repeat split; congruence]].
      * unfold rest. repeat split; auto; [rewrite F4; auto|]. unfold pending in P. rewrite F7, app_nil_r in P. auto.
      * rewrite Sd, I8, <- app_assoc. f_equal. unfold exchange_batches. rewrite filter_seq_snoc. rewrite HL in X, I9 |- *. rewrite X, turns_snoc, I9. reflexivity.
    + destruct F6 as (G1 & G2 & G3). split; [|split; [auto|]].
      * split; [|auto]. unfold inv. rewrite F1, F2, F3, F4, G1, G2, G3, Sd. split; [exact O|]. split; [rewrite <- Sd; exact P|]. split; [lia|].
        repeat split; auto.
        -- rewrite filter_seq_snoc, X, turns_snoc, I8, I9, <- app_assoc. auto.
        -- rewrite filter_seq_snoc, X, app_length. cbn [length]. rewrite I9, next_mod_mod; [|auto|apply Nat.mod_upper_bound; lia]. apply Nat.add_mod_idemp_l. lia.
      * cbn. rewrite andb_true_r. intros Hb. apply F8. cbn. rewrite I6. exact Hb.
  - assert (N : current_batch s <> last_batch c) by (intros E; unfold exchange_batch in X; rewrite E, Nat.eqb_refl in X; discriminate).
    assert (G0 : gs <> 0) by (intros E; unfold exchange_batch in X; rewrite E in X; cbn in X; rewrite orb_true_r in X; discriminate).
    destruct (Nat.eqb_spec (current_batch s) (last_batch c)); [contradiction|].
    destruct (Nat.eqb_spec gs 0); [contradiction|]. cbn [orb]. rewrite andb_false_r.
    assert (FIN : forall s1 sync, (s1 = s \/ s1 = rcv_update c s) -> ((current_batch s + 1 =? last_batch c) || ((current_batch s + 1) mod gs =? 0) = true -> sync = true) ->
       exists s', Ok (advance s1 sync) = Ok s' /\ (inv c s0 gs ls bw e0 s' /\ current_batch s' = current_batch s + 1) /\ stability s' = stability s /\
        (false = true -> forall n1 g, par s' n1 g = (group_sum c (par s) (send_mod s) / qn (nodes c))%Q)).
    { intros s1 sync H1 H2. eexists. split; [reflexivity|]. split; [|split; [|discriminate]].
      - eapply quiet_step; eauto. intros H3. apply H2. rewrite <- exchange_next with (last := last_batch c) by auto. exact H3.
      - cbn. destruct H1 as [->| ->]; auto. pose proof (rcv_fields c s) as R. cbv zeta in R. intuition. }
    destruct ((current_batch s + 1) mod gs =? 0) eqn:Eg.
    { apply FIN; auto. }
    rewrite orb_false_r in FIN.
    destruct (Z.ltb_spec (Z.of_nat (if 0 <? gs then current_batch s mod gs else 0)) btw).
    { apply FIN; auto. destruct (current_batch s + 1 =? last_batch c); auto; discriminate. }
    set (s1 := if (Z.of_nat _ =? btw)%Z then rcv_update c s else s).
    assert (Hs1 : s1 = s \/ s1 = rcv_update c s) by (unfold s1; destruct (_ =? btw)%Z; auto).
    destruct ((ls =? 1) && negb (current_batch s + 1 =? last_batch c)) eqn:E1.
    { apply FIN; auto. }
    destruct (negb ((if 0 <? ls then current_batch s mod ls else 0) =? 0) && (ls =? 0)) eqn:E2.
    { apply andb_true_iff in E2. destruct E2 as [E2 E3]. apply Nat.eqb_eq in E3. subst ls. rewrite E3 in E2. discriminate. }
    apply FIN; auto. intros E3. rewrite E3. auto.
Qed.

Lemma steps_app c o1 o2 s s' : steps c o1 s = Ok s' -> steps c (o1 ++ o2) s = steps c o2 s'.
Proof. revert s. induction o1 as [|o o1 IH]; intros s H; cbn in *; [congruence|]. destruct (step c o s); [apply IH; auto|discriminate]. Qed.

Lemma steps_inv c s0 gs ls bw e0 opts s : 2 <= loc c -> inv c s0 gs ls bw e0 s -> current_batch s + length opts <= last_batch c ->
  exists s', steps c opts s = Ok s' /\ inv c s0 gs ls bw e0 s' /\ current_batch s' = current_batch s + length opts /\ stability s' = stability s.
Proof.
  revert s. induction opts as [|o opts IH]; intros s L2 I H; cbn [steps].
  - exists s. repeat split; auto; try apply I; cbn; lia.
  - cbn in H. destruct (step_inv c s0 gs ls bw e0 o s L2 I) as (s1 & E1 & E2 & E3 & _). rewrite E1. cbn.
    destruct (Nat.eqb_spec (current_batch s) (last_batch c)); [lia|]. destruct E2 as [E2 E4].
    destruct (IH s1) as (s' & A1 & A2 & A3 & A4); auto; [lia|]. exists s'. repeat split; auto; try apply A2; [lia|congruence].
Qed.

Lemma rest_inv c s : 1 <= loc c -> rest c s -> inv c (sends s) (global_skip s) (local_skip s) (batches_to_wait s) (epoch s) s.
Proof.
  intros L (R1 & R2 & R3 & R4 & R5 & R6 & R7). unfold inv, outst, pending. rewrite R3, R4, R5, R7. cbn. rewrite !app_nil_r. repeat split; auto; try lia.
  rewrite Nat.mod_0_l; lia.
Qed.

(** one epoch: last_batch + 1 steps *)
Lemma epoch_ok c opts s : 2 <= loc c -> rest c s -> length opts = last_batch c + 1 ->
  exists s', steps c opts s = Ok s' /\ rest c s' /\ sends s' = sends s ++ turns (loc c) (exchange_batches (global_skip s) (last_batch c)) /\
    epoch s' = epoch s + 1 /\ global_skip s' = global_skip s /\ local_skip s' = local_skip s /\ batches_to_wait s' = batches_to_wait s /\ stability s' = stability s /\
    exists v, forall n g, par s' n g = v.
Proof.
  intros L2 R H. destruct (exists_last (l := opts)) as (o1 & o & ->); [intros ->; cbn in H; lia|]. rewrite app_length in H. cbn in H.
  pose proof (rest_inv c s ltac:(lia) R) as I. destruct (steps_inv c _ _ _ _ _ o1 s L2 I) as (s1 & A1 & A2 & A3 & A4); [destruct R as (_ & _ & _ & _ & -> & _); lia|].
  rewrite (steps_app _ _ _ _ _ A1). destruct (step_inv c _ _ _ _ _ o s1 L2 A2) as (s' & B1 & B2 & B3 & B4).
  assert (E : current_batch s1 = last_batch c) by (rewrite A3; destruct R as (_ & _ & _ & _ & -> & _); lia). rewrite E, Nat.eqb_refl in *.
  destruct B2 as (B2 & B5 & B6 & B7 & B8 & B9). exists s'. cbn. rewrite B1. cbn. repeat split; auto; try apply B2; try congruence.
  eexists. intros n g. apply B4. reflexivity.
Qed.

Lemma ell_fields c l s : let s' := epoch_loss_logic c l s in
  epoch s' = epoch s /\ current_batch s' = current_batch s /\ send_mod s' = send_mod s /\ send_mod_m1 s' = send_mod_m1 s /\ prev s' = prev s /\ par s' = par s /\
  local_sync s' = local_sync s /\ sends s' = sends s /\ recvs s' = recvs s.
Proof.
  unfold epoch_loss_logic. destruct (epoch s <? warmup c); [cbn; intuition auto|]. cbv zeta.
  destruct (warmup c =? epoch s); cbn -[Nat.div Nat.ltb]; (destruct (total_epochs c <=? epoch s + cooldown_epochs c); [cbn; intuition auto|]);
  destruct (test_if_improving l (stability s)) as [st b]; destruct b; cbn -[Nat.div Nat.ltb];
  repeat match goal with |- context [if ?b then _ else _] => destruct b; cbn -[Nat.div Nat.ltb] end; intuition auto.
Qed.
Lemma ell_rest c l s : rest c s -> rest c (epoch_loss_logic c l s).
Proof. intros (R1 & R2 & R3 & R4 & R5 & R6 & R7). pose proof (ell_fields c l s) as F. cbv zeta in F. destruct F as (F1 & F2 & F3 & F4 & F5 & F6 & F7 & F8 & F9). unfold rest. rewrite F5, F3, F4, F2, F7, F8, F9. repeat split; auto. Qed.

Lemma train_ok c run s : 2 <= loc c -> rest c s -> Forall (fun e => length (fst e) = last_batch c + 1) run ->
  exists s', train c run s = Ok s' /\ rest c s' /\ epoch s' = epoch s + length run /\ (run <> [] -> exists v, forall n g, par s' n g = v).
Proof.
  revert s. induction run as [|[o l] run IH]; intros s L2 R F; cbn [train].
  - exists s. split; [auto|]. split; [auto|]. split; [cbn; lia|congruence].
  - inversion F as [|? ? F1 F2]; subst. cbn in F1. destruct (epoch_ok c o s L2 R F1) as (s1 & A1 & A2 & A3 & A4 & _ & _ & _ & _ & A9). rewrite A1. cbn [bind].
    destruct (IH (epoch_loss_logic c l s1)) as (s' & B1 & B2 & B3 & B4); auto; [apply ell_rest; auto|]. exists s'. split; [exact B1|]. split; [exact B2|].
    pose proof (ell_fields c l s1) as FF. cbv zeta in FF. destruct FF as (F1' & _ & _ & _ & _ & F6' & _). split; [rewrite B3, F1', A4; cbn; lia|].
    intros _. destruct run as [|e run]; [|apply B4; discriminate]. cbn in B1. injection B1 as <-. rewrite F6'. exact A9.
Qed.
Lemma new_rest c lv p : rest c (new_daso c lv p).
Proof. unfold rest, new_daso. cbn. rewrite repeat_length. repeat split; auto. intros g. destruct (Nat.ltb_spec g (loc c)); [apply nth_repeat|apply nth_overflow; rewrite repeat_length; auto]. Qed.
