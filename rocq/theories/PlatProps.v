(** C68 (DetectMetricPlateau) *)
From Coq Require Import List QArith Qabs Bool Lia Arith Lqa.
From Verif Require Import PlatSpec PlatModel PlatProofs.
Import ListNotations.
Open Scope nat_scope.

(** * C68 *)
(** for every history of metrics: test_if_improving answers True exactly at the plateaus *)
Theorem C68_reports : forall (min rel : bool) (patience cooldown : nat) (thr : Q) (metrics : list metric),
  (0 <= thr < 1)%Q -> (min = false -> rel = true -> forall q, In (Fin q) metrics -> (0 <= q)%Q) ->
  length (answers (new_plateau min patience thr rel cooldown) metrics) = length metrics /\
  reports_plateaus patience cooldown (no_improvement (if min then Minimise else Maximise) rel thr metrics)
    (fun n => nth n (answers (new_plateau min patience thr rel cooldown) metrics) false) (length metrics).
Proof. intros. split; [apply answers_length|apply run_spec; auto]. Qed.
Print Assumptions C68_reports.

Lemma not_better_mono dir rel thr m b b' : (0 <= thr < 1)%Q -> better dir rel thr b' b -> ~ better dir rel thr m b -> ~ better dir rel thr m b'.
Proof.
  intros HT HB HN HM. apply HN. clear HN. unfold better, margin in *. destruct dir, b as [|b| |], b' as [|b'| |], m as [|m| |]; try contradiction; auto; destruct rel; try lra.
  - revert HB HM. apply (Qabs_case b); apply (Qabs_case b'); intros; nra.
  - revert HB HM. apply (Qabs_case b); apply (Qabs_case b'); intros; nra.
Qed.
Lemma not_better_self dir rel thr m : (0 <= thr < 1)%Q -> ~ better dir rel thr m m.
Proof. intros HT. unfold better, margin. destruct dir, m as [|m| |]; auto; destruct rel; try lra; apply (Qabs_case m); intros; nra. Qed.
(** the best value remembered is a metric of the history (or the worst value, if there is none
    that is better), and no metric of the history beats it by more than the margin *)
Theorem C68_best : forall (min rel : bool) (patience cooldown : nat) (thr : Q) (metrics : list metric),
  (0 <= thr < 1)%Q -> (min = false -> rel = true -> forall q, In (Fin q) metrics -> (0 <= q)%Q) ->
  let dir := if min then Minimise else Maximise in
  let b := best (after (new_plateau min patience thr rel cooldown) metrics) in
  best_of dir rel thr metrics b /\ (In b metrics \/ b = (if min then PInf else NInf)) /\ forall m, In m metrics -> ~ better dir rel thr m b.
Proof.
  intros min rel pat cool thr ms HT HF dir b. destruct (run_inv min rel pat cool thr ms HT HF (length ms) (le_n _)) as (_ & _ & _ & _ & _ & _ & _ & BO & _). rewrite firstn_all in BO. fold b in BO.
  change (dir_of min) with dir in BO. split; [exact BO|]. assert (W : (match dir with Minimise => PInf | Maximise => NInf end) = if min then PInf else NInf) by (unfold dir; destruct min; auto). clearbody b.
  induction BO as [|h b m H IH B|h b m H IH B].
  - rewrite W. split; [auto|intros m []].
  - destruct IH as [_ IH]; [intros A1 A2 q Hq; apply HF; auto; apply in_or_app; auto|]. split; [left; apply in_or_app; right; left; auto|]. intros x Hx. apply in_app_or in Hx as [Hx|[<-|[]]]; [|now apply not_better_self]. eapply not_better_mono; eauto.
  - destruct IH as [I1 IH]; [intros A1 A2 q Hq; apply HF; auto; apply in_or_app; auto|]. split; [destruct I1; [left; apply in_or_app; auto|auto]|]. intros x Hx. apply in_app_or in Hx as [Hx|[<-|[]]]; auto.
Qed.
Print Assumptions C68_best.

(** a checkpoint taken at any point of the history and loaded into any other detector continues
    exactly like the original; so does the saved dictionary itself *)
Theorem C68_checkpoint : forall (s other : plateau) (before later : list metric),
  answers s (before ++ later) = answers s before ++ answers (set_state (get_state (after s before)) other) later /\
  get_state (set_state (get_state s) other) = get_state s.
Proof.
  intros s other before later. split; [|reflexivity]. assert (E : set_state (get_state (after s before)) other = after s before) by (destruct (after s before); reflexivity). rewrite E. clear E. revert s.
  induction before as [|m h IH]; intros s; [reflexivity|]. cbn [app answers]. unfold after. cbn [fold_left]. destruct (test_if_improving m s) as [s' r]. cbn [fst]. rewrite IH. reflexivity.
Qed.
Print Assumptions C68_checkpoint.

(** reset() forgets the whole history *)
Theorem C68_reset : forall (min rel : bool) (patience cooldown : nat) (thr : Q) (before later : list metric),
  answers (reset (after (new_plateau min patience thr rel cooldown) before)) later = answers (new_plateau min patience thr rel cooldown) later.
Proof.
  intros min rel pat cool thr before later.
  assert (C : let s := after (new_plateau min pat thr rel cool) before in patience s = pat /\ cooldown s = cool /\ mode_min s = min /\ threshold s = thr /\ mode_rel s = rel /\ mode_worse s = if min then PInf else NInf).
  { assert (G : forall s, patience (after s before) = patience s /\ cooldown (after s before) = cooldown s /\ mode_min (after s before) = mode_min s /\ threshold (after s before) = threshold s /\ mode_rel (after s before) = mode_rel s /\ mode_worse (after s before) = mode_worse s).
    { induction before as [|m h IH]; intros s; [repeat split|]. unfold after in *. cbn [fold_left]. destruct (IH (fst (test_if_improving m s))) as (-> & -> & -> & -> & -> & ->). unfold test_if_improving.
      destruct (is_better s m (best s)); destruct (0 <? cooldown_counter s); destruct (patience s <? _); cbn; repeat split. }
    cbv zeta. destruct (G (new_plateau min pat thr rel cool)) as (-> & -> & -> & -> & -> & ->). repeat split. }
  cbv zeta in C. set (s := after _ _) in *. destruct C as (C1 & C2 & C3 & C4 & C5 & C6). unfold reset. rewrite C1, C2, C3, C4, C5, C6.
  (* only the epoch number differs *)
  assert (I : forall ms a b, (forall e, mk_plateau (patience a) (cooldown a) (cooldown_counter a) (mode_min a) (threshold a) (mode_rel a) (best a) (num_bad_epochs a) (mode_worse a) e =
                                       mk_plateau (patience b) (cooldown b) (cooldown_counter b) (mode_min b) (threshold b) (mode_rel b) (best b) (num_bad_epochs b) (mode_worse b) e) -> answers a ms = answers b ms).
  { induction ms as [|m ms IH]; intros a b H; [auto|]. specialize (H 0). injection H as H1 H2 H3 H4 H5 H6 H7 H8 H9. cbn [answers]. unfold test_if_improving.
    assert (IB : is_better a m (best a) = is_better b m (best b)) by (rewrite H7; apply is_better_cfg; auto). rewrite IB, H1, H2, H3, H4, H5, H6, H7, H8, H9.
    destruct (is_better b m (best b)); destruct (0 <? cooldown_counter b); destruct (patience b <? _); cbn; f_equal; apply IH; intros; reflexivity. }
  apply I. intros e. reflexivity.
Qed.
Print Assumptions C68_reset.

Example C68_instance :
  answers (new_plateau true 1 (1#10) true 2) [Fin 10; Fin 8; Fin 9; Fin (15#2); Fin 8; Fin 8; NaN; Fin 8; Fin 1; Fin 1; PInf] =
  [false; false; false; true; false; false; false; true; false; false; false] /\
  best (after (new_plateau true 1 (1#10) true 2) [Fin 10; Fin 8; Fin 9; Fin (15#2)]) = Fin 8.
Proof. split; vm_compute; reflexivity. Qed.

(** mode "max" with relative threshold and a negative best value: a WORSE value counts as an
    improvement and replaces the best one; a metric falling for ever is never reported *)
Theorem C68_max_rel_negative_refuted :
  best (after (new_plateau false 0 (1#10) true 0) [Fin (-100); Fin (-105)]) = Fin (-105) /\
  (-105 < -100)%Q /\ answers (new_plateau false 0 (1#10) true 0) [Fin (-100); Fin (-105); Fin (-111); Fin (-120)] = [false; false; false; false].
Proof. split; [vm_compute; reflexivity|]. split; [lra|vm_compute; reflexivity]. Qed.
Print Assumptions C68_max_rel_negative_refuted.
(** the docstring ("True if the metrics are better than the best"): the answer is True at a plateau,
    and False at every improvement *)
Theorem C68_docstring_refuted : forall (s : plateau) (m : metric), is_better s m (best s) = true -> snd (test_if_improving m s) = false.
Proof. intros s m H. unfold test_if_improving. rewrite H. destruct (0 <? cooldown_counter s); cbn; destruct (patience s); reflexivity. Qed.
Print Assumptions C68_docstring_refuted.
(** mode "min" with relative threshold 1: inf * 0 is NaN and no value is ever an improvement *)
Theorem C68_threshold_one_refuted : forall m, is_better (new_plateau true 0 1 true 0) m PInf = false.
Proof. intros m. destruct m; reflexivity. Qed.
Print Assumptions C68_threshold_one_refuted.
