From Coq Require Import List ZArith QArith Qabs Bool Arith Lia Lqa Field Qfield.
From Verif Require Import Base BaseLemmas LayoutModel GnbSpec KmSpec KmModel.
Import ListNotations.
Open Scope Q_scope.

(** ** sums *)
Lemma qsum_app l l' : qsum (l ++ l') == qsum l + qsum l'.
Proof. unfold qsum. induction l as [|x l IH]; cbn [app fold_right]; [ring|]. rewrite IH. ring. Qed.
Lemma qsum_cons x l : qsum (x :: l) = x + qsum l. Proof. reflexivity. Qed.
Lemma qsum_ext {A} (f g : A -> Q) l : (forall x, In x l -> f x == g x) -> qsum (map f l) == qsum (map g l).
Proof. induction l as [|x l IH]; intros H; [reflexivity|]. cbn [map]. rewrite !qsum_cons, IH, (H x) by (auto; try (now left); intros; apply H; now right). reflexivity. Qed.
Lemma qsum_le {A} (f g : A -> Q) l : (forall x, In x l -> f x <= g x) -> qsum (map f l) <= qsum (map g l).
Proof. induction l as [|x l IH]; intros H; [apply Qle_refl|]. cbn [map]. rewrite !qsum_cons. apply Qplus_le_compat; [apply H; now left|apply IH; intros; apply H; now right]. Qed.
Lemma qsum_plus {A} (f g : A -> Q) l : qsum (map (fun x => f x + g x) l) == qsum (map f l) + qsum (map g l).
Proof. induction l as [|x l IH]; [reflexivity|]. cbn [map]. rewrite !qsum_cons, IH. ring. Qed.
Lemma qsum_scale {A} (f : A -> Q) c l : qsum (map (fun x => f x * c) l) == qsum (map f l) * c.
Proof. induction l as [|x l IH]; [cbn; ring|]. cbn [map]. rewrite !qsum_cons, IH. ring. Qed.
Lemma qsum_zero {A} (l : list A) : qsum (map (fun _ => 0) l) == 0.
Proof. induction l as [|x l IH]; [reflexivity|]. cbn [map]. rewrite qsum_cons, IH. ring. Qed.
Lemma qsum_swap {A B} (f : A -> B -> Q) la lb : qsum (map (fun a => qsum (map (f a) lb)) la) == qsum (map (fun b => qsum (map (fun a => f a b) la)) lb).
Proof.
  induction la as [|a la IH]; cbn [map].
  - cbn. now rewrite qsum_zero.
  - rewrite qsum_cons, IH. rewrite <- qsum_plus. apply qsum_ext. intros b _. now rewrite qsum_cons.
Qed.
Lemma qsum_concat {A} (f : A -> Q) ls : qsum (map (fun l => qsum (map f l)) ls) == qsum (map f (concat ls)).
Proof. induction ls as [|l ls IH]; [reflexivity|]. cbn [map concat]. rewrite map_app, qsum_app, qsum_cons, IH. reflexivity. Qed.
Lemma qsum_nonneg {A} (f : A -> Q) l : (forall x, In x l -> 0 <= f x) -> 0 <= qsum (map f l).
Proof. intros H. rewrite <- (qsum_zero l). now apply qsum_le. Qed.
Lemma sq_nonneg (x : Q) : 0 <= x * x. Proof. nra. Qed.

(** ** argmin *)
Lemma argmin_from_spec : forall l pre best bi, (bi < length pre)%nat -> nth bi pre 0 = best ->
  (forall j, (j < length pre)%nat -> best <= nth j pre 0) -> (forall j, (j < bi)%nat -> best < nth j pre 0) ->
  let r := argmin_from best bi (length pre) l in let L := pre ++ l in
  (r < length L)%nat /\ (forall j, (j < length L)%nat -> nth r L 0 <= nth j L 0) /\ (forall j, (j < r)%nat -> nth r L 0 < nth j L 0).
Proof.
  induction l as [|v l IH]; intros pre best bi Hb Eb H1 H2; cbn [argmin_from].
  - cbv zeta. rewrite app_nil_r, Eb. auto.
  - assert (EL : length (pre ++ [v]) = S (length pre)) by (rewrite app_length; cbn; lia).
    destruct (Qle_bool best v) eqn:E.
    + apply Qle_bool_iff in E. specialize (IH (pre ++ [v]) best bi). rewrite EL, <- app_assoc in IH. apply IH; [lia|now rewrite app_nth1| |].
      * intros j Hj. destruct (Nat.eq_dec j (length pre)) as [->|]; [rewrite app_nth2, Nat.sub_diag by lia; exact E|]. rewrite app_nth1 by lia. apply H1. lia.
      * intros j Hj. rewrite app_nth1 by lia. now apply H2.
    + assert (EV : v < best). { apply not_true_iff_false in E. rewrite Qle_bool_iff in E. now apply Qnot_le_lt. }
      specialize (IH (pre ++ [v]) v (length pre)). rewrite EL, <- app_assoc in IH. apply IH; [lia|now rewrite app_nth2, Nat.sub_diag by lia| |].
      * intros j Hj. destruct (Nat.eq_dec j (length pre)) as [->|]; [rewrite app_nth2, Nat.sub_diag by lia; apply Qle_refl|]. rewrite app_nth1 by lia. apply Qlt_le_weak, Qlt_le_trans with best; [auto|apply H1; lia].
      * intros j Hj. rewrite app_nth1 by lia. apply Qlt_le_trans with best; [auto|apply H1; lia].
Qed.
Lemma argmin_spec l : l <> [] -> (argmin l < length l)%nat /\ (forall j, (j < length l)%nat -> nth (argmin l) l 0 <= nth j l 0) /\ (forall j, (j < argmin l)%nat -> nth (argmin l) l 0 < nth j l 0).
Proof.
  destruct l as [|v l]; [tauto|]. intros _. cbn [argmin]. apply (argmin_from_spec l [v] v 0%nat); [cbn; lia|reflexivity| |lia].
  intros j Hj. cbn in Hj. replace j with 0%nat by lia. apply Qle_refl.
Qed.
Lemma Qle_bool_eq a b a' b' : a == a' -> b == b' -> Qle_bool a b = Qle_bool a' b'.
Proof. intros H1 H2. destruct (Qle_bool a b) eqn:E, (Qle_bool a' b') eqn:E'; auto; [apply Qle_bool_iff in E; rewrite H1, H2 in E; apply Qle_bool_iff in E; congruence|apply Qle_bool_iff in E'; rewrite <- H1, <- H2 in E'; apply Qle_bool_iff in E'; congruence]. Qed.
Lemma argmin_from_eq : forall l l' b b' bi i, Forall2 Qeq l l' -> b == b' -> argmin_from b bi i l = argmin_from b' bi i l'.
Proof.
  intros l l' b b' bi i H. revert b b' bi i. induction H as [|v v' l l' Ev H IH]; intros b b' bi i Eb; cbn [argmin_from]; [reflexivity|].
  rewrite (Qle_bool_eq b v b' v') by auto. destruct (Qle_bool b' v'); auto.
Qed.
Lemma argmin_eq l l' : Forall2 Qeq l l' -> argmin l = argmin l'.
Proof. intros H. destruct H; cbn; [reflexivity|]. now apply argmin_from_eq. Qed.
Lemma Forall2_map_eq {A} (f g : A -> Q) l : (forall x, In x l -> f x == g x) -> Forall2 Qeq (map f l) (map g l).
Proof. induction l; intros H; cbn; constructor; [apply H; now left|apply IHl; intros; apply H; now right]. Qed.

Section K.
Variables (d k : nat).
Notation assign := (assign d k). Notation dist2 := (dist2 d). Notation nearest := (nearest d k).
Definition lab (C : nat -> vec) (x : vec) : nat := argmin (map (fun c => dist2 x (C c)) (seq 0 k)).
Lemma lab_nearest C x : (0 < k)%nat -> nearest C x (lab C x).
Proof.
  intros Hk. unfold lab. set (l := map (fun c => dist2 x (C c)) (seq 0 k)). assert (L : length l = k) by (unfold l; now rewrite map_length, seq_length).
  assert (N : forall j, (j < k)%nat -> nth j l 0 = dist2 x (C j)).
  { intros j Hj. unfold l. rewrite nth_indep with (d' := dist2 x (C 0%nat)) by (now rewrite map_length, seq_length). rewrite (map_nth (fun c => dist2 x (C c))), seq_nth by auto. reflexivity. }
  destruct (argmin_spec l) as (A1 & A2 & A3); [destruct l; cbn in L; [lia|discriminate]|]. rewrite L in A1, A2. split; [exact A1|]. split.
  - intros c Hc. rewrite <- !N by auto. apply A2. auto.
  - intros c Hc. rewrite <- !N by lia. apply A3. auto.
Qed.
Lemma nearest_unique C x l l' : nearest C x l -> nearest C x l' -> l = l'.
Proof.
  intros (A1 & A2 & A3) (B1 & B2 & B3). destruct (Nat.lt_trichotomy l l') as [H|[H|H]]; auto; exfalso.
  - specialize (B3 l H). specialize (A2 l' B1). lra.
  - specialize (A3 l' H). specialize (B2 l A1). lra.
Qed.
Definition costf (C : nat -> vec) (rows : list vec) : Q := qsum (map (fun x => dist2 x (C (lab C x))) rows).
Lemma cost_iff C rows v : (0 < k)%nat -> (is_cost d k rows C v <-> v == costf C rows).
Proof.
  intros Hk. split.
  - intros (ds & -> & FA). unfold costf. induction FA as [|x dx rows ds (l & Hl & E) FA IH]; [reflexivity|]. cbn [map]. rewrite !qsum_cons, IH, E.
    rewrite (nearest_unique C x l (lab C x)); [reflexivity|auto|now apply lab_nearest].
  - intros E. exists (map (fun x => dist2 x (C (lab C x))) rows). split; [exact E|]. clear E. induction rows as [|a rows IH]; cbn [map]; constructor; [|exact IH].
    exists (lab C a). split; [now apply lab_nearest|reflexivity].
Qed.

(** ** the update *)
Section Update.
Variable xs : list (list (vec * nat)).
Let all := concat xs.
Definition mem (i : nat) : list (vec * nat) := filter (fun p => Nat.eqb (snd p) i) all.
Lemma count_mem i : allsum (fun p => selection i (snd p)) xs == inject_Z (Z.of_nat (length (mem i))).
Proof.
  unfold allsum. rewrite qsum_concat. fold all. unfold mem. induction all as [|[x l] t IH]; [reflexivity|]. cbn [map filter snd]. rewrite qsum_cons, IH.
  unfold selection. destruct (Nat.eqb l i); cbn [length]; [|ring]. rewrite Nat2Z.inj_succ. unfold Z.succ. rewrite inject_Z_plus. ring.
Qed.
Lemma sum_mem i (g : vec -> Q) : qsum (map (fun p => g (fst p) * selection i (snd p)) all) == qsum (map g (map fst (mem i))).
Proof.
  unfold mem. induction all as [|[x l] t IH]; [reflexivity|]. cbn [map filter snd fst]. rewrite qsum_cons, IH. unfold selection. destruct (Nat.eqb l i); cbn [map fst]; [rewrite qsum_cons|]; ring.
Qed.
Lemma inj_pos z : (0 < z)%Z -> 0 < inject_Z z. Proof. intros H. change 0 with (inject_Z 0). now rewrite <- Zlt_Qlt. Qed.
Lemma update_mean i f : mem i <> [] -> update xs i f == qsum (map (fun x => x f) (map fst (mem i))) / inject_Z (Z.of_nat (length (mem i))).
Proof.
  intros NE. unfold update. assert (HL : (1 <= Z.of_nat (length (mem i)))%Z) by (destruct (mem i); [contradiction|cbn [length]; lia]).
  assert (EP : points_in_cluster i xs == inject_Z (Z.of_nat (length (mem i)))).
  { unfold points_in_cluster. rewrite (Qle_bool_eq 1 _ 1 (inject_Z (Z.of_nat (length (mem i))))); [|reflexivity|apply count_mem].
    assert (E : Qle_bool 1 (inject_Z (Z.of_nat (length (mem i)))) = true) by (apply Qle_bool_iff; change 1 with (inject_Z 1); rewrite <- Zle_Qle; auto).
    rewrite E. apply count_mem. }
  unfold allsum. rewrite qsum_concat. fold all.
  rewrite (qsum_ext _ (fun p => (fst p f * selection i (snd p)) * (/ inject_Z (Z.of_nat (length (mem i)))))); [|intros p _; rewrite EP; reflexivity].
  rewrite (qsum_scale (fun p => fst p f * selection i (snd p))). rewrite (sum_mem i (fun x => x f)). reflexivity.
Qed.
Lemma update_empty i f : mem i = [] -> update xs i f == 0.
Proof.
  intros E. unfold update, allsum. rewrite qsum_concat. fold all.
  rewrite (qsum_ext _ (fun p => (fst p f * selection i (snd p)) * (/ points_in_cluster i xs))); [|intros p _; reflexivity].
  rewrite (qsum_scale (fun p => fst p f * selection i (snd p))). rewrite (sum_mem i (fun x => x f)), E. cbn. ring.
Qed.
(** the mean minimises the sum of the squared distances *)
Lemma mean_min (l : list vec) f (c : Q) : l <> [] -> let m := qsum (map (fun x => x f) l) / inject_Z (Z.of_nat (length l)) in
  qsum (map (fun x => (x f - m) * (x f - m)) l) <= qsum (map (fun x => (x f - c) * (x f - c)) l).
Proof.
  intros NE m. set (N := inject_Z (Z.of_nat (length l))) in *. assert (HN : 0 < N) by (apply inj_pos; destruct l; [contradiction|cbn [length]; lia]).
  assert (EX : forall z, qsum (map (fun x => (x f - z) * (x f - z)) l) == qsum (map (fun x => x f * x f) l) - 2 * z * qsum (map (fun x => x f) l) + z * z * N).
  { intros z. unfold N. clear. induction l as [|x l IH]; [cbn; ring|]. cbn [map length]. rewrite !qsum_cons, IH, Nat2Z.inj_succ. unfold Z.succ. rewrite inject_Z_plus. ring. }
  rewrite !EX. assert (EM : qsum (map (fun x => x f) l) == m * N) by (unfold m; field; lra). rewrite EM. assert (0 <= (m - c) * (m - c)) by apply sq_nonneg.
  assert (0 <= N * ((m - c) * (m - c))) by (apply Qmult_le_0_compat; [lra|auto]). lra.
Qed.
Lemma cluster_le C i : (exists p, In p all /\ snd p = i) -> qsum (map (fun x => dist2 x (update xs i)) (map fst (mem i))) <= qsum (map (fun x => dist2 x (C i)) (map fst (mem i))).
Proof.
  intros (p & Hp & Ei). assert (NE : mem i <> []). { intros E. assert (In p (mem i)) by (apply filter_In; split; [auto|now apply Nat.eqb_eq]). rewrite E in H. destruct H. }
  unfold KmSpec.dist2. rewrite (qsum_swap (fun x f => (x f - update xs i f) * (x f - update xs i f))), (qsum_swap (fun x f => (x f - C i f) * (x f - C i f))).
  apply qsum_le. intros f _. assert (NE' : map fst (mem i) <> []) by (destruct (mem i); [contradiction|discriminate]).
  pose proof (mean_min (map fst (mem i)) f (C i f) NE') as M. cbv zeta in M. rewrite map_length in M.
  eapply Qle_trans; [|exact M]. apply Qle_lteq. right. apply qsum_ext. intros x _. rewrite (update_mean i f NE). reflexivity.
Qed.
Lemma by_cluster (g : nat -> vec -> Q) (t : list (vec * nat)) : (forall p, In p t -> (snd p < k)%nat) ->
  qsum (map (fun p => g (snd p) (fst p)) t) == qsum (map (fun c => qsum (map (g c) (map fst (filter (fun p => Nat.eqb (snd p) c) t)))) (seq 0 k)).
Proof.
  induction t as [|[x l] t IH]; intros H.
  - cbn [map filter]. cbn. now rewrite qsum_zero.
  - cbn [map fst snd]. rewrite qsum_cons, IH by (intros; apply H; now right). assert (Hl : (l < k)%nat) by (apply (H (x, l)); now left).
    cbn [filter fst snd].
    rewrite (qsum_ext (fun c => qsum (map (g c) (map fst (if Nat.eqb l c then (x, l) :: filter (fun p => Nat.eqb (snd p) c) t else filter (fun p => Nat.eqb (snd p) c) t))))
                      (fun c => (if Nat.eqb l c then g l x else 0) + qsum (map (g c) (map fst (filter (fun p => Nat.eqb (snd p) c) t))))).
    + rewrite qsum_plus. apply Qplus_comp; [|reflexivity]. clear -Hl. assert (G : forall s n, (s <= l < s + n)%nat -> g l x == qsum (map (fun c => if Nat.eqb l c then g l x else 0) (seq s n))).
      { intros s n. revert s. induction n as [|n IH]; intros s Hs; [lia|]. cbn [seq map]. rewrite qsum_cons. destruct (Nat.eqb_spec l s) as [->|Ne].
        - rewrite (qsum_ext _ (fun _ => 0)); [rewrite qsum_zero; ring|]. intros c Hc. apply in_seq in Hc. destruct (Nat.eqb_spec s c); [lia|reflexivity].
        - rewrite <- IH by lia. ring. }
      apply G. lia.
    + intros c _. destruct (Nat.eqb_spec l c) as [->|]; cbn [map fst]; [rewrite qsum_cons|]; ring.
Qed.
Lemma update_le C : (forall p, In p all -> (snd p < k)%nat) -> qsum (map (fun p => dist2 (fst p) (update xs (snd p))) all) <= qsum (map (fun p => dist2 (fst p) (C (snd p))) all).
Proof.
  intros H. rewrite (by_cluster (fun c x => dist2 x (update xs c)) all H), (by_cluster (fun c x => dist2 x (C c)) all H). apply qsum_le. intros c _.
  fold (mem c). destruct (mem c) as [|p t] eqn:E; [cbn; apply Qle_refl|]. rewrite <- E. apply cluster_le. exists p. assert (Hp : In p (mem c)) by (rewrite E; now left). apply filter_In in Hp. destruct Hp as [Hp Hc]. apply Nat.eqb_eq in Hc. auto.
Qed.
End Update.
End K.
