From Coq Require Import List QArith ZArith Bool Lia Arith Lqa.
From Verif Require Import Base BaseLemmas PlatSpec PlatModel DasoSpec DasoModel DasoProofs.
Import ListNotations.
Open Scope nat_scope.

(** averaging stays within bounds *)
Lemma qn_pos n : 1 <= n -> (0 < qn n)%Q.
Proof. intros H. unfold qn. change 0%Q with (inject_Z 0). rewrite <- Zlt_Qlt. lia. Qed.
Lemma qsum_bounds (f : nat -> Q) lo hi n : (forall i, i < n -> (lo <= f i <= hi)%Q) -> (qn n * lo <= qsum (map f (seq 0 n)) <= qn n * hi)%Q.
Proof.
  induction n as [|n IH]; intros H.
  - change (qn 0) with 0%Q. change (qsum (map f (seq 0 0))) with 0%Q. split; lra.
  - rewrite seq_S, map_app. cbn [map plus].
    assert (A : (qsum (map f (seq 0 n) ++ [f n]) == qsum (map f (seq 0 n)) + f n)%Q).
    { generalize (map f (seq 0 n)). induction l as [|x l IHl]; cbn; [lra|]. unfold qsum in *. rewrite IHl. lra. }
    rewrite A. assert (B : (qn (S n) == qn n + 1)%Q). { unfold qn. rewrite Nat2Z.inj_succ, <- Z.add_1_r, inject_Z_plus. reflexivity. }
    rewrite B. destruct (IH ltac:(intros; apply H; lia)). destruct (H n ltac:(lia)). split; lra.
Qed.
Lemma div_bounds a b lo hi : (0 < b)%Q -> (b * lo <= a <= b * hi)%Q -> (lo <= a / b <= hi)%Q.
Proof.
  intros Hb [H1 H2]. split.
  - apply Qle_shift_div_l; auto. lra.
  - apply Qle_shift_div_r; auto. lra.
Qed.
Definition tr_ok (c : conf) (lo hi : Q) (t : transfer) : Prop := (qn (nodes c) * lo <= total t <= qn (nodes c) * hi)%Q.
Lemma merge_bounds c lo hi t x : tr_ok c lo hi t -> (lo <= x <= hi)%Q -> (lo <= merge c t x <= hi)%Q.
Proof.
  intros [T1 T2] [X1 X2]. unfold merge. set (a := if (0 <? between t)%Z then (inject_Z (between t) * 2)%Q else 1%Q).
  assert (Ha : (0 < a)%Q). { unfold a. destruct (Z.ltb_spec 0 (between t)); [|lra]. assert (0 < inject_Z (between t))%Q by (change 0%Q with (inject_Z 0); rewrite <- Zlt_Qlt; auto). lra. }
  assert (Hn : (0 <= qn (nodes c))%Q). { unfold qn. change 0%Q with (inject_Z 0). rewrite <- Zle_Qle. lia. }
  assert (E : (x * (a / (qn (nodes c) + a)) + total t / (qn (nodes c) + a) == (x * a + total t) / (qn (nodes c) + a))%Q). { field. lra. }
  rewrite E. apply div_bounds; [lra|]. 
  assert (lo * a <= x * a)%Q by (apply Qmult_le_compat_r; lra). assert (x * a <= hi * a)%Q by (apply Qmult_le_compat_r; lra). split; lra.
Qed.

Definition bounded (c : conf) (lo hi : Q) (s : daso) : Prop := within lo hi (nodes c) (loc c) (par s) /\ forall g t, In t (nth g (prev s) []) -> tr_ok c lo hi t.
Lemma local_update_within lo hi n l k p : k < l -> within lo hi n l p -> within lo hi n l (local_update (Some k) p).
Proof. intros Hk H i g Hi Hg. cbn. apply H; auto. Qed.
Lemma in_upd_nth (l : list (list transfer)) k v g t : In t (nth g (upd l k v) []) -> In t v \/ In t (nth g l []).
Proof.
  intros H. destruct (Nat.eq_dec g k) as [->|N]; [|rewrite upd_other in H by auto; auto].
  destruct (Nat.ltb_spec k (length l)); [rewrite upd_same in H by auto; auto|rewrite upd_oob in H by auto; auto].
Qed.
Lemma rcv_bounded c lo hi s : (forall k, send_mod_m1 s = Some k -> k < loc c) -> bounded c lo hi s -> bounded c lo hi (rcv_update c s).
Proof.
  intros Hm [B1 B2]. unfold rcv_update. destruct (send_mod_m1 s) as [k|]; [|split; auto]. specialize (Hm k eq_refl).
  destruct (nth k (prev s) []) as [|t r] eqn:N; split; cbn.
  - apply (local_update_within lo hi _ _ k); auto.
  - auto.
  - apply (local_update_within lo hi _ _ k); auto. intros i g Hi Hg. unfold on_group. destruct (Nat.eqb_spec g k); [|apply B1; auto].
    apply merge_bounds; [|apply B1; auto]. apply (B2 k). rewrite N. left. auto.
  - intros g u Hu. apply in_upd_nth in Hu. destruct Hu as [Hu|Hu]; [|eauto]. apply (B2 k). rewrite N. right. auto.
Qed.
Lemma send_bounded c lo hi btw s : send_mod s < loc c -> bounded c lo hi s -> bounded c lo hi (send_params c btw s).
Proof.
  intros Hm [B1 B2]. split; [exact B1|]. cbn. intros g t Ht. apply in_upd_nth in Ht. destruct Ht as [Ht|Ht]; [|eauto].
  apply in_app_or in Ht. destruct Ht as [Ht|[<-|[]]]; [eauto|]. unfold tr_ok. cbn [total]. apply qsum_bounds. intros i Hi. apply B1; auto.
Qed.
Lemma global_sync_bounded c lo hi btw s s' : 1 <= nodes c -> send_mod s < loc c -> (forall k, send_mod_m1 s = Some k -> k < loc c) ->
  bounded c lo hi s -> global_sync c btw s = Ok s' -> bounded c lo hi s'.
Proof.
  intros Hn Hm Hk B. unfold global_sync. set (s1 := send_params c btw s). set (s2 := if (batches_to_wait s =? 0)%Z then s1 else rcv_update c s1).
  assert (B2 : bounded c lo hi s2). { unfold s2. assert (B1 : bounded c lo hi s1) by (apply send_bounded; auto). destruct (batches_to_wait s =? 0)%Z; auto. apply rcv_bounded; auto. }
  destruct ((current_batch s =? last_batch c) || (batches_to_wait s =? 0)%Z).
  - destruct (nth (send_mod s) (prev s2) []) as [|t [|? ?]] eqn:N; try discriminate. destruct (forallb _ _); [|discriminate]. intros E. injection E as <-.
    destruct B2 as [B3 B4]. split; cbn [par prev].
    + apply local_update_within; auto. intros i g Hi Hg. unfold on_group. destruct (Nat.eqb_spec g (send_mod s)); [|apply B3; auto].
      apply div_bounds; [apply qn_pos; auto|]. apply (B4 (send_mod s)). rewrite N. left. auto.
    + intros g u Hu. apply in_upd_nth in Hu. destruct Hu as [[]|Hu]. eauto.
  - intros E. injection E as <-. exact B2.
Qed.
Lemma step_bounded c lo hi s0 gs ls bw e0 o s s' : 1 <= nodes c -> inv c s0 gs ls bw e0 s -> (forall p, within lo hi (nodes c) (loc c) p -> within lo hi (nodes c) (loc c) (o p)) ->
  bounded c lo hi s -> step c o s = Ok s' -> bounded c lo hi s'.
Proof.
  intros Hn I Ho B. unfold step. set (t := set_comm s (prev s) (o (par s)) (recvs s)).
  assert (Bt : bounded c lo hi t) by (destruct B as [B1 B2]; split; [apply Ho; auto|exact B2]).
  assert (It : inv c s0 gs ls bw e0 t) by exact I. clearbody t. clear I B s o Ho. destruct It as ((O1 & O2 & O3) & _).
  assert (Hk : forall k, send_mod_m1 t = Some k -> k < loc c) by (intros k E; rewrite E in O3; apply O3).
  assert (Br : bounded c lo hi (rcv_update c t)) by (apply rcv_bounded; auto).
  assert (FIN : forall u sync, u = t \/ u = rcv_update c t -> Ok (advance u sync) = Ok s' -> bounded c lo hi s').
  { intros u sync [->| ->] E; injection E as <-; [exact Bt|exact Br]. }
  unfold sync_step. destruct (_ || _); [apply global_sync_bounded; auto|]. destruct (global_skip t =? 0); [discriminate|].
  destruct (_ =? 0); [apply FIN; auto|]. destruct (_ <? _)%Z; [apply FIN; auto|].
  set (u := if (_ =? _)%Z then rcv_update c t else t). assert (Hu : u = t \/ u = rcv_update c t) by (unfold u; destruct (_ =? _)%Z; auto).
  destruct (_ && _); [apply FIN; auto|]. destruct (_ && _); [discriminate|]. apply FIN; auto.
Qed.
Lemma steps_bounded c lo hi s0 gs ls bw e0 opts s s' : 2 <= loc c -> 1 <= nodes c -> inv c s0 gs ls bw e0 s -> current_batch s + length opts <= last_batch c + 1 ->
  Forall (fun o => forall p, within lo hi (nodes c) (loc c) p -> within lo hi (nodes c) (loc c) (o p)) opts ->
  bounded c lo hi s -> steps c opts s = Ok s' -> bounded c lo hi s'.
Proof.
  revert s. induction opts as [|o opts IH]; intros s L2 Hn I HL F B; cbn [steps]; [intros E; injection E as <-; auto|].
  cbn in HL. inversion F as [|? ? F1 F2]; subst. destruct (step_inv c s0 gs ls bw e0 o s L2 I) as (s1 & E1 & E2 & _). rewrite E1. cbn [bind].
  assert (B1 : bounded c lo hi s1) by (eapply step_bounded; eauto).
  destruct (Nat.eqb_spec (current_batch s) (last_batch c)).
  - assert (opts = []) by (destruct opts; auto; cbn in HL; lia). subst opts. cbn. intros E. injection E as <-. auto.
  - destruct E2 as [E2 E3]. apply IH; auto. lia.
Qed.
Lemma train_bounded c lo hi run s s' : 2 <= loc c -> 1 <= nodes c -> rest c s -> Forall (fun e => length (fst e) = last_batch c + 1) run ->
  Forall (fun e => Forall (fun o => forall p, within lo hi (nodes c) (loc c) p -> within lo hi (nodes c) (loc c) (o p)) (fst e)) run ->
  within lo hi (nodes c) (loc c) (par s) -> train c run s = Ok s' -> within lo hi (nodes c) (loc c) (par s').
Proof.
  revert s. induction run as [|[o l] run IH]; intros s L2 Hn R F G W; cbn [train]; [intros E; injection E as <-; auto|].
  inversion F as [|? ? F1 F2]; subst. inversion G as [|? ? G1 G2]; subst. cbn in F1, G1.
  destruct (epoch_ok c o s L2 R F1) as (s1 & A1 & A2 & _). rewrite A1. cbn [bind]. 
  assert (B0 : bounded c lo hi s). { split; auto. destruct R as (_ & R & _). intros g t. rewrite R. intros Ht. destruct Ht. }
  assert (HL : current_batch s + length o <= last_batch c + 1) by (destruct R as (_ & _ & _ & _ & -> & _); lia).
  pose proof (steps_bounded c lo hi _ _ _ _ _ o s s1 L2 Hn (rest_inv c s ltac:(lia) R) HL G1 B0 A1) as B.
  apply IH; auto; [apply ell_rest; auto|]. pose proof (ell_fields c l s1) as FF. cbv zeta in FF. destruct FF as (_ & _ & _ & _ & _ & -> & _). apply B.
Qed.

(** the skips *)
Lemma ell_skips c l s : let s' := epoch_loss_logic c l s in
  (epoch s < warmup c \/ total_epochs c <= epoch s + cooldown_epochs c -> global_skip s' = 0 /\ local_skip s' = 0 /\ batches_to_wait s' = 0%Z) /\
  (~ (epoch s < warmup c \/ total_epochs c <= epoch s + cooldown_epochs c) -> 1 <= max_gs c -> 1 <= reduction c <= 2 ->
     (epoch s = warmup c \/ 1 <= global_skip s <= Nat.max 4 (max_gs c)) -> 1 <= global_skip s' <= Nat.max 4 (max_gs c)).
Proof.
  unfold epoch_loss_logic. cbv zeta. destruct (Nat.ltb_spec (epoch s) (warmup c)); [split; [cbn; auto|intros N; exfalso; auto]|].
  set (t := if warmup c =? epoch s then _ else s).
  assert (Te : epoch t = epoch s) by (unfold t; destruct (warmup c =? epoch s); auto). rewrite Te.
  assert (Tg : epoch s = warmup c \/ 1 <= global_skip s <= Nat.max 4 (max_gs c) -> 1 <= global_skip t <= Nat.max 4 (max_gs c)).
  { unfold t. destruct (Nat.eqb_spec (warmup c) (epoch s)); cbn [global_skip with_skips]; intros [?|?]; lia. }
  clearbody t. destruct (Nat.leb_spec (total_epochs c) (epoch s + cooldown_epochs c)); [split; [cbn; auto|intros N; exfalso; auto]|].
  split; [lia|]. intros _ M R Hg. specialize (Tg Hg). destruct (test_if_improving l (stability t)) as [st b].
  destruct (b && (1 <? global_skip t)) eqn:E1.
  - unfold with_skips. cbn [global_skip]. apply andb_true_iff in E1. destruct E1 as [_ E1]. apply Nat.ltb_lt in E1.
    assert (D : reduction c = 1 \/ reduction c = 2) by lia. destruct D as [-> | ->]; [rewrite Nat.div_1_r; lia|].
    pose proof (Nat.div_mod (global_skip t) 2 ltac:(lia)). pose proof (Nat.mod_upper_bound (global_skip t) 2 ltac:(lia)). lia.
  - destruct ((global_skip t =? 1) && b); cbn [with_skips global_skip]; lia.
Qed.
Lemma train_skips c run s s' : 2 <= loc c -> rest c s -> Forall (fun e => length (fst e) = last_batch c + 1) run -> train c run s = Ok s' -> run <> [] ->
  (epoch s' < warmup c \/ total_epochs c <= epoch s' + cooldown_epochs c -> global_skip s' = 0 /\ local_skip s' = 0 /\ batches_to_wait s' = 0%Z) /\
  (1 <= max_gs c -> 1 <= reduction c <= 2 -> (epoch s < warmup c \/ 1 <= global_skip s <= Nat.max 4 (max_gs c)) ->
     ~ (epoch s' < warmup c \/ total_epochs c <= epoch s' + cooldown_epochs c) -> 1 <= global_skip s' <= Nat.max 4 (max_gs c)).
Proof.
  revert s. induction run as [|[o l] run IH]; intros s L2 R F T NE; [congruence|]. clear NE. cbn [train] in T.
  inversion F as [|? ? F1 F2]; subst. cbn in F1.
  destruct (epoch_ok c o s L2 R F1) as (s1 & A1 & A2 & A3 & A4 & A5 & _). rewrite A1 in T. cbn [bind] in T.
  set (s2 := epoch_loss_logic c l s1) in *. assert (R2 : rest c s2) by (apply ell_rest; auto).
  pose proof (ell_skips c l s1) as K. cbv zeta in K. fold s2 in K. destruct K as [K1 K2].
  pose proof (ell_fields c l s1) as FF. cbv zeta in FF. fold s2 in FF. destruct FF as (FE & _).
  destruct run as [|e run].
  - cbn in T. injection T as <-. rewrite FE. split; [exact K1|]. intros M Rd Hs Hn. apply K2; auto. destruct Hs; [left; lia|right; lia].
  - destruct (train_ok c (e :: run) s2 L2 R2 F2) as (s'' & T' & _ & E'' & _). rewrite T in T'. injection T' as <-.
    destruct (IH s2 L2 R2 F2 T ltac:(discriminate)) as [J1 J2]. split; [exact J1|]. intros M Rd Hs Hn. apply J2; auto.
    destruct (Nat.ltb_spec (epoch s1) (warmup c)); [left; lia|]. right. apply K2; auto.
    + intros [?|?]; [lia|]. apply Hn. right. rewrite E'', FE. lia.
    + destruct Hs; [left; lia|right; lia].
Qed.
