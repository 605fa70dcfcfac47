(** The detector's counters against the windows of the specification. *)
From Coq Require Import List QArith Qabs Bool Lia Arith Lqa.
From Verif Require Import PlatSpec PlatModel.
Import ListNotations.
Open Scope nat_scope.

Section Core.
Variables (p c : nat) (badb : nat -> bool).
Definition step (st : nat * nat) (n : nat) : (nat * nat) * bool :=
  let '(cc, nb) := st in
  let bad := if badb n then nb + 1 else 0 in
  let '(cc, bad) := if 0 <? cc then (cc - 1, 0) else (cc, bad) in
  if p <? bad then ((c, 0), true) else ((cc, bad), false).
Fixpoint st (n : nat) : nat * nat := match n with 0 => (0, 0) | S k => fst (step (st k) k) end.
Definition rep n := snd (step (st n) n).
Definition inv n := let '(cc, nb) := st n in
  (forall m, m < n -> rep m = true -> m + 1 + c + nb <= n + cc) /\
  (0 < cc -> nb = 0 /\ exists m, m < n /\ rep m = true /\ n + cc = m + 1 + c) /\
  (nb <= n /\ nb <= p /\ forall k, n - nb <= k < n -> badb k = true) /\
  (n = nb \/ badb (n - nb - 1) = false \/ exists m, m < n /\ rep m = true /\ n - nb <= m + c + 1).
Lemma inv_step n : inv n -> inv (S n).
Proof.
  unfold inv. cbn [st]. pose proof (eq_refl (rep n)) as RN. unfold rep at 2 in RN. destruct (st n) as [cc nb]. unfold step in RN |- *. intros (I1 & I2 & (I3a & I3b & I3) & I4).
  destruct (Nat.ltb_spec 0 cc) as [Hc|Hc].
  - destruct (I2 Hc) as (-> & m0 & Hm0 & R0 & E0). cbn [fst snd] in *. destruct (Nat.ltb_spec p 0); [lia|]. cbn [fst snd] in *.
    split; [intros m Hm R; destruct (Nat.eq_dec m n) as [->|]; [congruence|specialize (I1 m ltac:(lia) R); lia]|].
    split; [intros; split; [auto|exists m0; repeat split; auto; lia]|]. split; [repeat split; try lia; intros; lia|]. right; right. exists m0. repeat split; auto; lia.
  - assert (cc = 0) by lia. subst cc. destruct (badb n) eqn:B.
    + destruct (Nat.ltb_spec p (nb + 1)); cbn [fst snd] in *.
      * split; [intros m Hm R; destruct (Nat.eq_dec m n) as [->|]; [lia|specialize (I1 m ltac:(lia) R); lia]|].
        split; [intros; split; [auto|exists n; repeat split; auto; lia]|]. split; [repeat split; try lia; intros; lia|]. right; right. exists n. repeat split; auto; lia.
      * split; [intros m Hm R; destruct (Nat.eq_dec m n) as [->|]; [congruence|specialize (I1 m ltac:(lia) R); lia]|].
        split; [lia|]. split; [repeat split; try lia; intros k Hk; destruct (Nat.eq_dec k n) as [->|]; [auto|apply I3; lia]|].
        destruct I4 as [->|[I4|(m & Hm & R & L)]]; [left; lia|right; left; replace (S n - (nb + 1) - 1) with (n - nb - 1) by lia; auto|right; right; exists m; repeat split; auto; lia].
    + destruct (Nat.ltb_spec p 0); [lia|]. cbn [fst snd] in *.
      split; [intros m Hm R; destruct (Nat.eq_dec m n) as [->|]; [congruence|specialize (I1 m ltac:(lia) R); lia]|].
      split; [lia|]. split; [repeat split; try lia; intros; lia|]. right; left. replace (S n - 0 - 1) with n by lia. auto.
Qed.
Lemma inv_all n : inv n.
Proof. induction n; [|apply inv_step; auto]. unfold inv. cbn. repeat split; try lia. all: intros; lia. Qed.
Lemma core n : rep n = true <-> (p <= n /\ (forall k, n - p <= k <= n -> badb k = true) /\ forall m, m < n -> rep m = true -> m + c < n - p).
Proof.
  pose proof (inv_all n) as I. unfold inv in I. unfold rep at 1. destruct (st n) as [cc nb]. destruct I as (I1 & I2 & (I3a & I3b & I3) & I4). unfold step. split.
  - destruct (Nat.ltb_spec 0 cc) as [Hc|Hc]; [destruct (Nat.ltb_spec p 0); [lia|discriminate]|]. destruct (badb n) eqn:B; [|destruct (Nat.ltb_spec p 0); [lia|discriminate]].
    destruct (Nat.ltb_spec p (nb + 1)); [|discriminate]. intros _. assert (nb = p) by lia. subst nb. split; [lia|]. split; [intros k Hk; destruct (Nat.eq_dec k n) as [->|]; [auto|apply I3; lia]|].
    intros m Hm R. specialize (I1 m Hm R). lia.
  - intros (A & Bd & F). destruct (Nat.ltb_spec 0 cc) as [Hc|Hc]; [destruct (I2 Hc) as (_ & m & Hm & R & E); specialize (F m Hm R); lia|].
    rewrite (Bd n) by lia. assert (nb = p).
    { destruct (Nat.eq_dec nb p); [auto|exfalso]. destruct I4 as [->|[I4|(m & Hm & R & L)]]; [lia|rewrite Bd in I4 by lia; discriminate|specialize (F m Hm R); lia]. }
    subst nb. destruct (Nat.ltb_spec p (p + 1)); [reflexivity|lia].
Qed.
End Core.

(** * the comparison *)
Lemma qlt_spec a b : qlt a b = true <-> (a < b)%Q.
Proof.
  unfold qlt. destruct (Qle_bool b a) eqn:E; cbn.
  - apply Qle_bool_iff in E. split; [discriminate|]. intros H. exfalso. apply (Qlt_not_le _ _ H E).
  - split; [|auto]. intros _. apply Qnot_le_lt. intros H. apply Qle_bool_iff in H. congruence.
Qed.
Definition dir_of (min : bool) := if min then Minimise else Maximise.
(** values a best value can take: never NaN; with mode "max"/"rel" not negative *)
Definition fine (min rel : bool) (b : metric) : Prop :=
  b <> NaN /\ (min = false -> rel = true -> match b with Fin q => (0 <= q)%Q | _ => True end).
Lemma is_better_spec s a b : (0 <= threshold s < 1)%Q -> fine (mode_min s) (mode_rel s) b ->
  is_better s a b = true <-> better (dir_of (mode_min s)) (mode_rel s) (threshold s) a b.
Proof.
  intros HT [HN HF]. unfold is_better, better, dir_of, margin. destruct (mode_min s) eqn:M, (mode_rel s) eqn:R; cbn [andb negb] in *.
  - destruct b as [|q| |]; [| | |congruence].
    + cbn [fge0 fmul]. assert (Qeq_bool (1 + threshold s) 0 = false) as ->. { destruct (Qeq_bool _ 0) eqn:E; [|auto]. apply Qeq_bool_eq in E. lra. }
      assert (qlt 0 (1 + threshold s) = true) as -> by (apply qlt_spec; lra). destruct a; cbn; intuition discriminate.
    + cbn [fge0 fmul]. destruct (Qle_bool 0 q) eqn:E.
      * apply Qle_bool_iff in E. destruct a as [|x| |]; cbn; try (intuition discriminate). rewrite qlt_spec, (Qabs_pos q E). split; intros; lra.
      * assert (L : (q < 0)%Q). { apply Qnot_le_lt. intros H. apply Qle_bool_iff in H. congruence. } destruct a as [|x| |]; cbn; try (intuition discriminate). rewrite qlt_spec, (Qabs_neg q) by lra. split; intros; lra.
    + cbn [fge0 fmul]. assert (Qeq_bool (1 - threshold s) 0 = false) as ->. { destruct (Qeq_bool _ 0) eqn:E; [|auto]. apply Qeq_bool_eq in E. lra. }
      assert (qlt 0 (1 - threshold s) = true) as -> by (apply qlt_spec; lra). destruct a; cbn; intuition discriminate.
  - destruct b as [|q| |], a as [|x| |]; cbn; try (intuition congruence). rewrite qlt_spec. split; intros; lra.
  - specialize (HF eq_refl eq_refl). destruct b as [|q| |]; [| | |congruence]; cbn [fmul].
    + assert (Qeq_bool (threshold s + 1) 0 = false) as ->. { destruct (Qeq_bool _ 0) eqn:E; [|auto]. apply Qeq_bool_eq in E. lra. }
      assert (qlt 0 (threshold s + 1) = true) as -> by (apply qlt_spec; lra). destruct a; cbn; intuition discriminate.
    + destruct a as [|x| |]; cbn; try (intuition discriminate). rewrite qlt_spec, (Qabs_pos q HF). split; intros; lra.
    + assert (Qeq_bool (threshold s + 1) 0 = false) as ->. { destruct (Qeq_bool _ 0) eqn:E; [|auto]. apply Qeq_bool_eq in E. lra. }
      assert (qlt 0 (threshold s + 1) = true) as -> by (apply qlt_spec; lra). destruct a; cbn; intuition discriminate.
  - destruct b as [|q| |], a as [|x| |]; cbn; try (intuition congruence). rewrite qlt_spec. split; intros; lra.
Qed.

Lemma best_of_fun dir rel thr h b : best_of dir rel thr h b -> forall b', best_of dir rel thr h b' -> b = b'.
Proof.
  induction 1 as [|h b m H IH B|h b m H IH B]; intros b' H'; inversion H' as [E|h2 b2 m2 H2 B2 E|h2 b2 m2 H2 B2 E]; subst; auto; try (destruct h; discriminate); try (destruct h2; discriminate); apply app_inj_tail in E as [-> ->]; auto; exfalso.
  - apply B2. rewrite <- (IH _ H2). auto.
  - apply B. rewrite (IH _ H2). auto.
Qed.
Lemma answers_nth : forall ms s n, n < length ms -> nth n (answers s ms) false = snd (test_if_improving (nth n ms NaN) (after s (firstn n ms))).
Proof.
  induction ms as [|m ms IH]; intros s n Hn; [cbn in Hn; lia|]. cbn [answers]. destruct (test_if_improving m s) as [s' r] eqn:E. destruct n as [|n].
  - cbn. now rewrite E.
  - cbn [nth firstn]. unfold after. cbn [fold_left]. rewrite E. cbn [fst]. apply IH. cbn in Hn. lia.
Qed.
Lemma answers_length : forall ms s, length (answers s ms) = length ms.
Proof. induction ms as [|m ms IH]; intros s; [auto|]. cbn [answers]. destruct (test_if_improving m s). cbn. now rewrite IH. Qed.
Lemma firstn_snoc {A} (d : A) : forall l n, n < length l -> firstn (S n) l = firstn n l ++ [nth n l d].
Proof. induction l as [|a l IH]; intros [|n] H; cbn in *; try lia; auto. f_equal. apply IH. lia. Qed.
Lemma after_S s ms n : n < length ms -> after s (firstn (S n) ms) = fst (test_if_improving (nth n ms NaN) (after s (firstn n ms))).
Proof. intros H. rewrite (firstn_snoc NaN) by auto. unfold after. rewrite fold_left_app. reflexivity. Qed.

Definition fit (min rel : bool) (ms : list metric) : Prop := min = false -> rel = true -> forall q, In (Fin q) ms -> (0 <= q)%Q.
Section Run.
Variables (min rel : bool) (pat cool : nat) (thr : Q) (ms : list metric).
Hypothesis HT : (0 <= thr < 1)%Q.
Hypothesis HF : fit min rel ms.
Let s0 := new_plateau min pat thr rel cool.
Let sn n := after s0 (firstn n ms).
Definition badb k := negb (is_better s0 (nth k ms NaN) (best (after s0 (firstn k ms)))).
Lemma is_better_cfg s s' a b : mode_min s = mode_min s' -> mode_rel s = mode_rel s' -> threshold s = threshold s' -> is_better s a b = is_better s' a b.
Proof. intros E1 E2 E3. unfold is_better. now rewrite E1, E2, E3. Qed.
Lemma run_inv n : n <= length ms ->
  patience (sn n) = pat /\ cooldown (sn n) = cool /\ mode_min (sn n) = min /\ mode_rel (sn n) = rel /\ threshold (sn n) = thr /\ mode_worse (sn n) = mode_worse s0 /\
  (cooldown_counter (sn n), num_bad_epochs (sn n)) = st pat cool badb n /\
  best_of (dir_of min) rel thr (firstn n ms) (best (sn n)) /\ fine min rel (best (sn n)).
Proof.
  induction n as [|n IH]; intros Hn.
  - cbn. repeat split; auto; [destruct min; constructor|destruct min; discriminate|destruct min; auto].
  - destruct (IH ltac:(lia)) as (E1 & E2 & E3 & E4 & E5 & E6 & E7 & BO & FN). unfold sn in *. rewrite after_S by lia. set (s := after s0 (firstn n ms)) in *. set (m := nth n ms NaN).
    assert (SB : is_better s m (best s) = is_better s0 m (best s)) by (apply is_better_cfg; auto).
    pose proof (is_better_spec s m (best s)) as SP. rewrite E3, E4, E5 in SP. specialize (SP HT FN).
    assert (BD : badb n = negb (is_better s0 m (best s))) by reflexivity. rewrite SB in SP.
    assert (IN : In m ms) by (apply nth_In; lia).
    cbn [st]. rewrite <- E7. unfold step. rewrite BD. unfold test_if_improving. rewrite SB, (firstn_snoc NaN) by lia. fold m.
    destruct (is_better s0 m (best s)) eqn:B; cbn [negb].
    + assert (BT : better (dir_of min) rel thr m (best s)) by (apply SP; auto).
      assert (F2 : fine min rel m). { split; [intros ->; unfold better in BT; destruct (dir_of min), (best s); auto|]. intros H1 H2. destruct m; auto; apply HF; auto. }
      assert (B2 : best_of (dir_of min) rel thr (firstn n ms ++ [m]) m) by (eapply best_new; eauto).
      destruct (0 <? cooldown_counter s); rewrite E1; destruct (pat <? 0); cbn; rewrite ?E2; repeat split; auto; apply F2.
    + assert (BT : ~ better (dir_of min) rel thr m (best s)) by (intros H; apply SP in H; discriminate).
      assert (B2 : best_of (dir_of min) rel thr (firstn n ms ++ [m]) (best s)) by (eapply best_old; eauto).
      destruct (0 <? cooldown_counter s); rewrite E1; [destruct (pat <? 0)|destruct (pat <? num_bad_epochs s + 1)]; cbn; rewrite ?E2; repeat split; auto; apply FN.
Qed.
Lemma run_report n : n < length ms -> nth n (answers s0 ms) false = rep pat cool badb n.
Proof.
  intros Hn. rewrite answers_nth by auto. destruct (run_inv n ltac:(lia)) as (E1 & E2 & E3 & E4 & E5 & E6 & E7 & BO & FN). unfold sn in *. set (s := after s0 (firstn n ms)) in *. set (m := nth n ms NaN).
  assert (SB : is_better s m (best s) = is_better s0 m (best s)) by (apply is_better_cfg; auto). unfold rep. rewrite <- E7. unfold step, test_if_improving. change (badb n) with (negb (is_better s0 m (best s))). rewrite SB, E1, E2.
  destruct (is_better s0 m (best s)); cbn [negb]; destruct (0 <? cooldown_counter s); destruct (pat <? _); reflexivity.
Qed.
Lemma bad_spec k : k < length ms -> badb k = true <-> no_improvement (dir_of min) rel thr ms k.
Proof.
  intros Hk. destruct (run_inv k ltac:(lia)) as (E1 & E2 & E3 & E4 & E5 & E6 & E7 & BO & FN). unfold badb. pose proof (is_better_spec s0 (nth k ms NaN) (best (sn k)) HT FN) as SP. cbn [mode_min mode_rel threshold s0 new_plateau reset] in SP. fold (sn k). unfold no_improvement.
  destruct (is_better s0 (nth k ms NaN) (best (sn k))); cbn.
  - split; [discriminate|]. intros [_ H]. exfalso. apply (H _ BO). apply SP. auto.
  - split; [|auto]. intros _. split; [auto|]. intros b Hb HB. rewrite <- (best_of_fun _ _ _ _ _ BO _ Hb) in HB. apply SP in HB. discriminate.
Qed.
Lemma run_spec : reports_plateaus pat cool (no_improvement (dir_of min) rel thr ms) (fun n => nth n (answers s0 ms) false) (length ms).
Proof.
  intros n Hn. rewrite run_report by auto. rewrite core. split; intros (A & B & C); (split; [auto|split]).
  - intros k Hk. apply bad_spec; [lia|]. apply B; auto.
  - intros m Hm R. rewrite run_report in R by lia. apply C; auto.
  - intros k Hk. apply bad_spec; [lia|]. apply B; auto.
  - intros m Hm R. apply C; [auto|]. rewrite run_report by lia. auto.
Qed.
End Run.
