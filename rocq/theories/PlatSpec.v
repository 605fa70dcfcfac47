(** Plateau detection: what a user expects.  Nothing here refers to Heat's code. *)
From Coq Require Import List QArith Qabs Lia Arith.
Import ListNotations.
Open Scope nat_scope.

(** metric values: extended numbers (exact, no rounding) *)
Inductive metric := NInf | Fin (q : Q) | PInf | NaN.
Inductive direction := Minimise | Maximise.
(** the margin by which a value must beat the best one [b] to count: a fraction of |b|, or absolute *)
Definition margin (relative : bool) (thr b : Q) : Q := if relative then thr * Qabs b else thr.
(** [a] is better than the best value so far by more than the margin; everything beats "no value yet",
    which is +inf (minimise) or -inf (maximise); NaN beats nothing *)
Definition better (dir : direction) (relative : bool) (thr : Q) (a best : metric) : Prop :=
  match dir, a, best with
  | Minimise, Fin x, Fin b => (x < b - margin relative thr b)%Q
  | Minimise, Fin _, PInf | Minimise, NInf, PInf | Minimise, NInf, Fin _ => True
  | Maximise, Fin x, Fin b => (b + margin relative thr b < x)%Q
  | Maximise, Fin _, NInf | Maximise, PInf, NInf | Maximise, PInf, Fin _ => True
  | _, _, _ => False
  end.
(** the best value after a history: the last one that was better than the best before it *)
Inductive best_of (dir : direction) (relative : bool) (thr : Q) : list metric -> metric -> Prop :=
| best_none : best_of dir relative thr [] (match dir with Minimise => PInf | Maximise => NInf end)
| best_new h b m : best_of dir relative thr h b -> better dir relative thr m b -> best_of dir relative thr (h ++ [m]) m
| best_old h b m : best_of dir relative thr h b -> ~ better dir relative thr m b -> best_of dir relative thr (h ++ [m]) b.
(** epoch k of a history (0 is the first) brought no improvement *)
Definition no_improvement dir relative thr (h : list metric) (k : nat) : Prop :=
  k < length h /\ forall b, best_of dir relative thr (firstn k h) b -> ~ better dir relative thr (nth k h NaN) b.
(** a detector with this patience and cooldown: it reports at epoch n iff the last patience+1 epochs
    all brought no improvement and none of them is a reporting epoch or within [cooldown] epochs after one *)
Definition reports_plateaus (patience cooldown : nat) (bad : nat -> Prop) (report : nat -> bool) (len : nat) : Prop :=
  forall n, n < len ->
    (report n = true <-> (patience <= n /\ (forall k, n - patience <= k <= n -> bad k) /\ forall m, m < n -> report m = true -> m + cooldown < n - patience)).

(** the reports are determined by this *)
Lemma reports_unique p c bad r1 r2 len : reports_plateaus p c bad r1 len -> reports_plateaus p c bad r2 len -> forall n, n < len -> r1 n = r2 n.
Proof.
  intros H1 H2 n. induction n as [n IH] using lt_wf_ind. intros Hn. specialize (H1 n Hn). specialize (H2 n Hn).
  assert (E : r1 n = true <-> r2 n = true).
  { rewrite H1, H2. split; intros (A & B & C); (split; [auto|split; [auto|]]); intros m Hm Hr; apply C; auto; [rewrite IH|rewrite <- IH]; auto; lia. }
  destruct (r1 n), (r2 n); intuition congruence.
Qed.
