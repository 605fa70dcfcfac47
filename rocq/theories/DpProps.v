(** C71: DataParallel against sequential training with the mean gradient. *)
From Coq Require Import List QArith ZArith Bool Lia Arith Lqa.
From Verif Require Import Base BaseLemmas DpSpec DpModel DpProofs DpProofs2.
Import ListNotations.
Open Scope nat_scope.

(** blocking: after any list of batches every process holds the parameters of sequential training, wherever zero_grad stands in the loop *)
Theorem C71_blocking : forall PS (opt : PS -> Q -> PS) n P zero_first p bs, (forall s a b, (a == b)%Q -> opt s a = opt s b) ->
  Forall (full_batch PS n) bs ->
  forall r i, i < length (lay n) -> ps (fold_left (iterate_b opt n P zero_first) bs (fun _ => fresh p) r) i = sequential opt P p bs i.
Proof. intros PS opt n P z p bs H F. apply blocking_ok; auto. Qed.
(** non-blocking: every forward pass of a training run uses, on every process, the parameters of sequential training *)
Theorem C71_nonblocking_forward_partial : forall PS (opt : PS -> Q -> PS) n P zero_first p bs b, (forall s a c, (a == c)%Q -> opt s a = opt s c) ->
  contiguous (lay n) -> (forall l, In l (lay n) -> mods n l = true) -> Forall (full_batch PS n) (bs ++ [b]) ->
  forall r i, i < length (lay n) ->
    snd (forward opt n (run_layers b) (zeroing zero_first (fold_left (iterate_nb opt n P zero_first) bs (fun _ => fresh p)) r)) i = sequential opt P p bs i.
Proof.
  intros PS opt n P z p bs b H C M F. apply Forall_app in F. destruct F as [F1 F2]. inversion F2; subst.
  refine (proj2 (iterate_nb_ok PS opt H n P C M z _ b (sequential opt P p bs) H2 _)). apply (nonblocking_ok PS opt H n P C M); auto.
  intros r. unfold ready_z, ready, idle. left. destruct z; cbn; auto.
Qed.
(** ... and with zero_grad between forward and backward, after whole epochs (model.eval(), any number of evaluations, model.train()) the parameters are those of sequential training *)
Theorem C71_nonblocking_epochs_partial : forall PS (opt : PS -> Q -> PS) n P p es, (forall s a b, (a == b)%Q -> opt s a = opt s b) ->
  contiguous (lay n) -> (forall l, In l (lay n) -> mods n l = true) -> Forall (fun e => Forall (full_batch PS n) (fst e)) es ->
  forall r i, i < length (lay n) -> ps (fold_left (epoch_nb opt n P false) es (fun _ => fresh p) r) i = sequential opt P p (concat (map fst es)) i.
Proof.
  intros PS opt n P p es H C M F r i Hi. refine (proj2 (proj2 (epochs_ok PS opt H n P C M es _ p F _ r)) i Hi). intros r'. split; [reflexivity|]. split; auto.
Qed.
(** so all processes hold the same parameters *)
Theorem C71_processes_agree : forall PS (opt : PS -> Q -> PS) n P p es, (forall s a b, (a == b)%Q -> opt s a = opt s b) ->
  contiguous (lay n) -> (forall l, In l (lay n) -> mods n l = true) -> Forall (fun e => Forall (full_batch PS n) (fst e)) es ->
  forall r r' i, i < length (lay n) -> ps (fold_left (epoch_nb opt n P false) es (fun _ => fresh p) r) i = ps (fold_left (epoch_nb opt n P false) es (fun _ => fresh p) r') i.
Proof. intros. rewrite !C71_nonblocking_epochs_partial; auto. Qed.

(** examples: two layers of two and one parameters; gradient descent on (w - r - i)^2 / 2, process by process *)
Definition sgd (s : Q) (g : Q) : Q := Qred (s - g * (1 # 2)).
Lemma sgd_ext s a b : (a == b)%Q -> sgd s a = sgd s b.
Proof. intros H. apply Qred_complete. rewrite H. reflexivity. Qed.
Definition ex_net : net := mk_net [3; 3; 5] (fun _ => true).
Definition ex_b : batch Q := mk_batch [3; 4; 5] [2; 0; 1] (fun r i f => (f i - inject_Z (Z.of_nat (r + i)))%Q).
Theorem C71_example : contiguous (lay ex_net) /\ full_batch Q ex_net ex_b /\
  map (fun i => ps (fold_left (epoch_nb sgd ex_net 2 false) [([ex_b; ex_b], 1); ([ex_b], 0)] (fun _ => fresh (fun _ => 0%Q)) 1) i) [0; 1; 2] = [7 # 16; 21 # 16; 35 # 16]%Q.
Proof.
  split; [|split; [|vm_compute; reflexivity]].
  - intros i j k H1 H2. cbn in H2. destruct k as [|[|[|?]]]; [| | |lia]; destruct j as [|[|[|?]]]; try lia; destruct i as [|[|[|?]]]; try lia; cbn; congruence.
  - split; [split|split].
    + repeat constructor; cbn; intuition discriminate.
    + intros i. cbn. split; [intuition (subst; lia)|]. intros H. destruct i as [|[|[|?]]]; auto; lia.
    + intros i Hi. cbn in Hi. destruct i as [|[|[|?]]]; cbn; auto; lia.
    + intros r i f g Hi H. cbn. rewrite H; auto.
Qed.
(** zero_grad before the forward pass (the loop of examples/nn/mnist.py), non-blocking: model.eval() applies the sum of the last two
    mean gradients, because the forward pass left the previous one in .grad *)
Theorem C71_eval_double_counts_refuted : exists bs p r i, Forall (full_batch Q ex_net) bs /\ i < length (lay ex_net) /\ ~ Qeq (ps (fold_left (epoch_nb sgd ex_net 2 true) [(bs, 1)] (fun _ => fresh p) r) i) (sequential sgd 2 p bs i).
Proof.
  exists [ex_b; ex_b], (fun _ => 0%Q), 0, 2. split; [|split; [cbn; lia|vm_compute; discriminate]].
  assert (F : full_batch Q ex_net ex_b).
  { split; [split|split].
    - repeat constructor; cbn; intuition discriminate.
    - intros i. cbn. split; [intuition (subst; lia)|]. intros H. destruct i as [|[|[|?]]]; auto; lia.
    - intros i Hi. cbn in Hi. destruct i as [|[|[|?]]]; cbn; auto; lia.
    - intros r i f g Hi H. cbn. rewrite H; auto. }
  auto.
Qed.
(** a parameter of the top module itself (its "layer" is no submodule): the forward pass uses the value before the pending update *)
Definition top_net : net := mk_net [0] (fun _ => false).
Definition top_b : batch Q := mk_batch [0] [0] (fun r i f => (f i - inject_Z (Z.of_nat (r + i)))%Q).
Theorem C71_top_level_parameter_stale_refuted : exists bs b p r i, contiguous (lay top_net) /\ Forall (full_batch Q top_net) (bs ++ [b]) /\ i < length (lay top_net) /\ ~ Qeq (snd (forward sgd top_net (run_layers b) (zeroing false (fold_left (iterate_nb sgd top_net 2 false) bs (fun _ => fresh p)) r)) i) (sequential sgd 2 p bs i).
Proof.
  exists [top_b], top_b, (fun _ => 0%Q), 0, 0. split; [|split; [|split; [cbn; lia|vm_compute; discriminate]]].
  - intros i j k H1 H2. cbn in H2. assert (k = 0) by lia. assert (j = 0) by lia. assert (i = 0) by lia. subst. auto.
  - assert (F : full_batch Q top_net top_b).
    { split; [split|split].
      - repeat constructor; cbn; intuition discriminate.
      - intros i. cbn. split; [intuition (subst; lia)|]. intros H. left. lia.
      - intros i Hi. cbn in Hi. assert (i = 0) by lia. subst. cbn. auto.
      - intros r i f g Hi H. cbn. rewrite H; auto. }
    cbn. auto.
Qed.
(** a layer without gradient in one batch, momentum: blocking moves it on (zero gradient), non-blocking does not *)
Definition momentum (s : Q * Q) (g : Q) : Q * Q := let m := Qred (snd s * (1 # 2) + g) in (Qred (fst s - m), m).
Definition mo_b (us : list nat) : batch (Q * Q) := mk_batch [3; 5] us (fun _ _ _ => 1%Q).
Theorem C71_unused_layer_refuted : exists bs, (forall s a b, (a == b)%Q -> momentum s a = momentum s b) /\ ps (fold_left (epoch_nb momentum ex_net 1 false) [(bs, 0)] (fun _ => fresh (fun _ => (0%Q, 0%Q))) 0) 2 <>
  ps (fold_left (iterate_b momentum ex_net 1 false) bs (fun _ => fresh (fun _ => (0%Q, 0%Q))) 0) 2.
Proof.
  exists [mo_b [0; 1; 2]; mo_b [0; 1]; mo_b [0; 1; 2]]. split; [|vm_compute; congruence].
  intros s a b H. unfold momentum. assert (E : Qred (snd s * (1 # 2) + a) = Qred (snd s * (1 # 2) + b)) by (apply Qred_complete; rewrite H; reflexivity). rewrite E. reflexivity.
Qed.
