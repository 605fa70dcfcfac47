From Coq Require Import List QArith ZArith Bool Lia Arith Lqa.
From Verif Require Import Base BaseLemmas DpSpec DpModel DpProofs.
Import ListNotations.
Open Scope nat_scope.

Section P.
Variable PS : Type.
Variable opt : PS -> Q -> PS.
Hypothesis opt_ext : forall s a b, (a == b)%Q -> opt s a = opt s b.
Variable n : net.
Variable P : nat.
Let N := length (lay n).

(** a batch in which every parameter gets a gradient and every layer runs; the gradients depend on the model's parameters only *)
Definition full_batch (b : batch PS) : Prop :=
  all_used n (used b) /\ (forall i, i < N -> In (nth i (lay n) 0) (run_layers b)) /\
  (forall r i f g, i < N -> (forall j, j < N -> f j = g j) -> gradient b r i f = gradient b r i g).

Lemma reduced_mean b q f i : full_batch b -> i < N -> (forall r j, j < N -> f r j = q j) -> (reduced P (fun r => gradient b r i (f r)) == mean_grad P b q i)%Q.
Proof.
  intros (_ & _ & E) HiN H. unfold reduced, mean_grad. induction (seq 0 P) as [|r l IH]; cbn [map fold_right].
  - unfold Qdiv. ring.
  - rewrite IH. rewrite (E r i (f r) q HiN (H r)). unfold Qdiv. ring.
Qed.
Lemma sequential_snoc p bs b : sequential opt P p (bs ++ [b]) = one_batch opt P (sequential opt P p bs) b.
Proof. unfold sequential. rewrite fold_left_app. reflexivity. Qed.

(** * blocking *)
Lemma b_hooks x us : forall s : proc PS, NoDup us -> (forall i, In i us -> gr s i = None \/ exists g, gr s i = Some g /\ (g == 0)%Q) ->
  let s' := fold_left (fun s i => b_hook i (x i) s) us s in
  ps s' = ps s /\ (forall i, In i us -> exists g, gr s' i = Some g /\ (g == x i)%Q) /\ (forall i, ~ In i us -> gr s' i = gr s i).
Proof.
  induction us as [|i us IH]; intros s ND H; cbn [fold_left]; cbv zeta; [repeat split; auto; intros ? []|].
  inversion ND as [|? ? N1 N2]; subst. destruct (IH (b_hook i (x i) s) N2) as (A & B & C).
  - intros j Hj. cbn. unfold accumulate. destruct (Nat.eqb_spec j i); [subst; contradiction|]. apply H. right. auto.
  - cbv zeta in *. split; [rewrite A; auto|]. split.
    + intros j [<-|Hj]; [|auto]. rewrite C by auto. cbn. unfold accumulate. rewrite Nat.eqb_refl. destruct (H i (or_introl eq_refl)) as [-> | (g & -> & Hg)]; eexists; (split; [reflexivity|]); lra.
    + intros j Hj. rewrite C by (intros K; apply Hj; right; auto). cbn. unfold accumulate. destruct (Nat.eqb_spec j i); auto. subst. exfalso. apply Hj. left. auto.
Qed.
Lemma zero_grad_0 (s : proc PS) i : gr (zero_grad s) i = None \/ exists g, gr (zero_grad s) i = Some g /\ (g == 0)%Q.
Proof. cbn. destruct (gr s i); [right; eexists; split; [reflexivity|lra]|auto]. Qed.

Lemma iterate_b_ok z w b q : full_batch b -> (forall r i, i < N -> ps (w r) i = q i) -> forall r i, i < N -> ps (iterate_b opt n P z w b r) i = one_batch opt P q b i.
Proof.
  intros F H r i Hi. pose (x := fun i => reduced P (fun r => gradient b r i (snd (forward_plain (zeroing z w r))))).
  assert (X : forall j, j < N -> (x j == mean_grad P b q j)%Q).
  { intros j HjN. unfold x. apply (reduced_mean b q (fun r => snd (forward_plain (zeroing z w r))) j); auto. intros r' j' Hj. unfold zeroing, all. destruct z; cbn; apply H; auto. }
  pose (s0 := zeroing (negb z) (fun r => fst (forward_plain (zeroing z w r))) r).
  change (iterate_b opt n P z w b r) with (b_step opt n (fold_left (fun s i => b_hook i (x i) s) (used b) s0)). clearbody x.
  assert (S0 : ps s0 = ps (w r) /\ forall j, gr s0 j = None \/ exists g, gr s0 j = Some g /\ (g == 0)%Q).
  { unfold s0, zeroing, all. destruct z; cbn; (split; [auto|]); intros j; apply (zero_grad_0 (w r) j). }
  destruct S0 as [S1 S2]. clearbody s0. destruct F as ((U1 & U2) & _).
  destruct (b_hooks x (used b) s0 U1 ltac:(auto)) as (A & B & _). cbv zeta in A, B. unfold b_step, torch_step. cbn [ps].
  destruct (Nat.ltb_spec i (length (lay n))); [|unfold N in Hi; lia]. cbn [Nat.leb andb]. destruct (B i ltac:(apply U2; auto)) as (g & -> & Hg). rewrite A, S1, H by auto.
  unfold one_batch. apply opt_ext. rewrite Hg. apply X; auto.
Qed.
Theorem blocking_ok z bs w p : Forall full_batch bs -> (forall r i, i < N -> ps (w r) i = p i) ->
  forall r i, i < N -> ps (fold_left (iterate_b opt n P z) bs w r) i = sequential opt P p bs i.
Proof.
  intros F H. induction bs as [|b bs IH] using rev_ind; [auto|]. apply Forall_app in F. destruct F as [F1 F2]. inversion F2; subst. rewrite fold_left_app, sequential_snoc. cbn [fold_left].
  apply iterate_b_ok; auto.
Qed.

(** * non-blocking *)
Hypothesis Cont : contiguous (lay n).
Hypothesis Mods : forall l, In l (lay n) -> mods n l = true.
Definition ready_z (z : bool) (q : nat -> PS) (s : proc PS) : Prop := ready PS opt n q (if z then zero_grad s else s).
Lemma iterate_nb_ok z w b q : full_batch b -> (forall r, ready_z z q (w r)) ->
  (forall r, ready_z z (one_batch opt P q b) (iterate_nb opt n P z w b r)) /\ (forall r i, i < N -> snd (forward opt n (run_layers b) (zeroing z w r)) i = q i).
Proof.
  intros F H. pose proof F as (U & RL & GE).
  assert (FW : forall r, let s := forward opt n (run_layers b) (zeroing z w r) in idle PS n q (fst s) /\ handles (fst s) = [] /\ (forall i, i < N -> snd s i = q i)).
  { intros r. cbv zeta. apply (forward_ok PS opt opt_ext n Cont Mods); auto. specialize (H r). unfold ready_z in H. unfold zeroing, all. destruct z; exact H. }
  split; [|intros r; apply FW]. intros r. pose (x := fun i => reduced P (fun r => gradient b r i (snd (forward opt n (run_layers b) (zeroing z w r))))).
  assert (X : forall j, j < N -> (x j == mean_grad P b q j)%Q).
  { intros j HjN. unfold x. apply (reduced_mean b q (fun r => snd (forward opt n (run_layers b) (zeroing z w r))) j); auto. intros r' j' Hj. apply FW; auto. }
  pose (s0 := zeroing (negb z) (fun r => fst (forward opt n (run_layers b) (zeroing z w r))) r).
  unfold ready_z. change (iterate_nb opt n P z w b r) with (nb_step (bw PS n x (used b) s0)). clearbody x. destruct (FW r) as (I0 & H0 & _).
  assert (S0 : handles s0 = [] /\ idle PS n q s0 /\ (z = true \/ forall i, i < N -> gr s0 i = None \/ exists g, gr s0 i = Some g /\ (g == 0)%Q)).
  { unfold s0, zeroing, all. destruct z; cbn [negb]; [split; [auto|split; [auto|left; auto]]|]. split; [exact H0|]. split; [exact I0|]. right. intros i _. apply zero_grad_0. }
  destruct S0 as (S1 & S2 & S3). clearbody s0. right. exists q, x.
  assert (PT : part PS opt n q x (fun _ => false) ((if z then @zero_grad PS else fun s => s) (nb_step (bw PS n x (used b) s0)))) by (apply bw_part; auto).
  split; [destruct z; exact PT|]. intros i Hi. unfold one_batch. apply opt_ext. symmetry. apply X; auto.
Qed.
Theorem nonblocking_ok z bs w p : Forall full_batch bs -> (forall r, ready_z z p (w r)) ->
  forall r, ready_z z (sequential opt P p bs) (fold_left (iterate_nb opt n P z) bs w r).
Proof.
  intros F H. induction bs as [|b bs IH] using rev_ind; [auto|]. apply Forall_app in F. destruct F as [F1 F2]. inversion F2; subst. rewrite fold_left_app, sequential_snoc. cbn [fold_left].
  apply iterate_nb_ok; auto.
Qed.
Lemma plain_idle q s : idle PS n q s -> idle PS n q (fst (forward_plain s)).
Proof. intros (A & B & C). split; [exact A|]. split; [auto|exact C]. Qed.
Theorem epochs_ok es w p : Forall (fun e => Forall full_batch (fst e)) es -> (forall r, idle PS n p (w r)) ->
  forall r, idle PS n (sequential opt P p (concat (map fst es))) (fold_left (epoch_nb opt n P false) es w r).
Proof.
  revert w p. induction es as [|[bs k] es IH]; intros w p F H; [auto|]. inversion F as [|? ? F1 F2]; subst. cbn [fold_left map concat fst]. cbn in F1.
  replace (sequential opt P p (bs ++ concat (map fst es))) with (sequential opt P (sequential opt P p bs) (concat (map fst es))) by (unfold sequential; rewrite fold_left_app; auto).
  apply IH; auto. intros r. unfold epoch_nb. cbn [fst snd].
  assert (E : forall r, idle PS n (sequential opt P p bs) (all (eval_mode opt n) (fold_left (iterate_nb opt n P false) bs w) r)).
  { intros r'. unfold all. apply (eval_ok PS opt opt_ext n); auto. apply (nonblocking_ok false bs w p F1). intros r2. left. apply H. }
  clear - E. revert r. induction k as [|k IHk]; intros r; [apply E|]. cbn. unfold all at 1. apply (plain_idle _ _ (IHk r)).
Qed.
End P.
