From Coq Require Import QArith Qfield List ZArith Bool Lia.
From Verif Require Import Base BaseLemmas StatModel StatSpec.
Import ListNotations.
Open Scope Q_scope.

Definition sq_dev (l : list Q) (m : Q) : Q := qsum (map (fun x => (x - m) * (x - m)) l).
Definition sumsq (l : list Q) : Q := qsum (map (fun x => x * x) l).
Lemma qsum_cons x l : qsum (x :: l) = x + qsum l. Proof. reflexivity. Qed.
Lemma qsum_nil : qsum [] = 0. Proof. reflexivity. Qed.
Lemma qsum_app a b : qsum (a ++ b) == qsum a + qsum b.
Proof. induction a as [|x a IH]; cbn [app]; rewrite ?qsum_nil, ?qsum_cons; [ring|]. rewrite IH. ring. Qed.
Lemma qlen_cons x l : qlen (x :: l) == 1 + qlen l.
Proof. unfold qlen. cbn [length]. rewrite Nat2Z.inj_succ, <- Z.add_1_l, inject_Z_plus. reflexivity. Qed.
Lemma qlen_app a b : qlen (a ++ b) == qlen a + qlen b.
Proof. unfold qlen. rewrite app_length, Nat2Z.inj_add, inject_Z_plus. reflexivity. Qed.
Lemma qlen_nonzero l : l <> [] -> ~ qlen l == 0.
Proof.
  intros H E. unfold qlen in E. change 0 with (inject_Z 0%Z) in E. apply (proj1 (inject_Z_injective _ _)) in E.
  change 0%Z with (Z.of_nat 0) in E. apply Nat2Z.inj in E. destruct l; easy.
Qed.
Lemma sq_dev_expand l m : sq_dev l m == sumsq l - 2 * m * qsum l + qlen l * (m * m).
Proof.
  unfold sq_dev, sumsq. induction l as [|x l IH]; cbn [map].
  - unfold qlen. cbn [length]. rewrite !qsum_nil. change (inject_Z (Z.of_nat 0)) with 0. ring.
  - rewrite !qsum_cons. rewrite IH, qlen_cons. ring.
Qed.
Lemma sumsq_app a b : sumsq (a ++ b) == sumsq a + sumsq b.
Proof. unfold sumsq. rewrite map_app. apply qsum_app. Qed.

Lemma mean_nil : mean_of [] == 0. Proof. reflexivity. Qed.
Lemma sq_dev_mean l : l <> [] -> sq_dev l (mean_of l) == sumsq l - qsum l * qsum l / qlen l.
Proof. intros H. rewrite sq_dev_expand. unfold mean_of. field. now apply qlen_nonzero. Qed.

Lemma mean_merge a b : a ++ b <> [] ->
  mean_of (a ++ b) == mean_of a + qlen b * ((mean_of b - mean_of a) / (qlen a + qlen b)).
Proof.
  intros H. pose proof (qlen_nonzero _ H) as N. rewrite qlen_app in N. unfold mean_of at 1. rewrite qsum_app, qlen_app.
  destruct a as [|x a]; [|destruct b as [|y b]].
  - rewrite mean_nil. unfold mean_of. cbn [app] in *. pose proof (qlen_nonzero b H) as Nb. rewrite qsum_nil.
    assert (E : qlen [] == 0) by reflexivity. rewrite E in *. field. exact Nb.
  - rewrite mean_nil. unfold mean_of. pose proof (qlen_nonzero (x :: a) ltac:(easy)) as Na. assert (E : qlen [] == 0) by reflexivity. rewrite E in *.
    set (s := qsum (x :: a)) in *. set (l := qlen (x :: a)) in *. rewrite qsum_nil. field. auto.
  - unfold mean_of. pose proof (qlen_nonzero (x :: a) ltac:(easy)). pose proof (qlen_nonzero (y :: b) ltac:(easy)).
    set (s := qsum (x :: a)) in *. set (l := qlen (x :: a)) in *. set (s' := qsum (y :: b)) in *. set (l' := qlen (y :: b)) in *. field. auto.
Qed.
Lemma dev_merge a b : a ++ b <> [] ->
  sq_dev (a ++ b) (mean_of (a ++ b)) ==
  sq_dev a (mean_of a) + sq_dev b (mean_of b) +
  (mean_of b - mean_of a) * (mean_of b - mean_of a) * qlen a * qlen b / (qlen a + qlen b).
Proof.
  intros H. pose proof (qlen_nonzero _ H) as N. rewrite qlen_app in N.
  assert (E : qlen [] == 0) by reflexivity. assert (E2 : forall m, sq_dev [] m == 0) by (intros; reflexivity).
  destruct a as [|x a]; [|destruct b as [|y b]].
  - cbn [app] in *. rewrite E2, E. rewrite E in N. field. intros X. apply N. rewrite X. ring.
  - rewrite app_nil_r in *. rewrite E2, E. rewrite E in N. field. intros X. apply N. rewrite X. ring.
  - rewrite (sq_dev_mean (_ ++ _)), (sq_dev_mean (x :: a)), (sq_dev_mean (y :: b)) by easy.
    rewrite qsum_app, qlen_app, sumsq_app. unfold mean_of.
    pose proof (qlen_nonzero (x :: a) ltac:(easy)). pose proof (qlen_nonzero (y :: b) ltac:(easy)).
    set (s := qsum (x :: a)) in *. set (l := qlen (x :: a)) in *. set (s' := qsum (y :: b)) in *. set (l' := qlen (y :: b)) in *.
    field. auto.
Qed.

(** numbers that are equal to a rational *)
Definition isq (a : num) (q : Q) : Prop := exists x, a = Some x /\ x == q.
Lemma isq_add a b x y : isq a x -> isq b y -> isq (nadd a b) (x + y).
Proof. intros (u & -> & E) (v & -> & F). exists (u + v). split; [reflexivity|]. rewrite E, F. reflexivity. Qed.
Lemma isq_sub a b x y : isq a x -> isq b y -> isq (nsub a b) (x - y).
Proof. intros (u & -> & E) (v & -> & F). exists (u - v). split; [reflexivity|]. rewrite E, F. reflexivity. Qed.
Lemma isq_mul a b x y : isq a x -> isq b y -> isq (nmul a b) (x * y).
Proof. intros (u & -> & E) (v & -> & F). exists (u * v). split; [reflexivity|]. rewrite E, F. reflexivity. Qed.
Lemma isq_div a b x y : isq a x -> isq b y -> ~ y == 0 -> isq (ndiv a b) (x / y).
Proof.
  intros (u & -> & E) (v & -> & F) H. cbn. destruct (Qeq_bool v 0) eqn:B.
  - apply Qeq_bool_iff in B. exfalso. apply H. rewrite <- F. exact B.
  - exists (u / v). split; [reflexivity|]. rewrite E, F. reflexivity.
Qed.
Lemma isq_proper a x y : x == y -> isq a x -> isq a y.
Proof. intros E (u & -> & F). exists u. split; [reflexivity|]. now rewrite F. Qed.
Lemma isq_refl (q : Q) : isq (Some q) q. Proof. exists q. split; reflexivity. Qed.
Lemma isq_len l : isq (nnat (length (map Some l))) (qlen l).
Proof. exists (qlen l). rewrite map_length. split; reflexivity. Qed.
Lemma isq_sum l : isq (nsum (map Some l)) (qsum l).
Proof.
  induction l as [|x l IH]; [apply isq_refl|]. cbn [map nsum fold_right qsum]. apply isq_add; [apply isq_refl|exact IH].
Qed.
Lemma isq_mean l : l <> [] -> isq (torch_mean (map Some l)) (mean_of l).
Proof. intros H. apply isq_div; [apply isq_sum|apply isq_len|now apply qlen_nonzero]. Qed.
Lemma isq_sqdev l m x : isq m x -> isq (nsum (map (fun v => nmul (nsub v m) (nsub v m)) (map Some l))) (sq_dev l x).
Proof.
  intros Hm. induction l as [|v l IH]; [apply isq_refl|]. cbn [map nsum fold_right]. unfold sq_dev. cbn [map qsum fold_right].
  apply isq_add; [|exact IH]. apply isq_mul; apply isq_sub; auto; apply isq_refl.
Qed.
Lemma qlen_minus (l : list Q) (c : bool) : (if c then length l <> 1%nat else l <> []) -> ~ qlen l - (if c then 1 else 0) == 0.
Proof.
  intros H E. unfold qlen in E. destruct c.
  - assert (X : inject_Z (Z.of_nat (length l)) == inject_Z 1) by (apply (Qplus_inj_r _ _ (- (1))); cbn; rewrite <- E; reflexivity).
    apply (proj1 (inject_Z_injective _ _)) in X. lia.
  - assert (X : inject_Z (Z.of_nat (length l)) == inject_Z 0) by (rewrite <- E; ring).
    apply (proj1 (inject_Z_injective _ _)) in X. destruct l; [easy|cbn [length] in X; lia].
Qed.
Lemma isq_var c l : l <> [] -> (c = true -> length l <> 1%nat) -> isq (torch_var c (map Some l)) (var_of c l).
Proof.
  intros H Hc. unfold torch_var, var_of. apply isq_div.
  - apply isq_sqdev. now apply isq_mean.
  - apply isq_sub; [apply isq_len|apply isq_refl].
  - apply qlen_minus. destruct c; auto.
Qed.

(** the row of a rank *)
Definition row_mean (l : list Q) (m : num * num) : Prop := isq (fst m) (mean_of l) /\ isq (snd m) (qlen l).
Lemma merge_mean_ok a b m1 m2 : row_mean a m1 -> row_mean b m2 -> a ++ b <> [] -> row_mean (a ++ b) (merge_mean m1 m2).
Proof.
  destruct m1 as [mu1 n1], m2 as [mu2 n2]. intros [A1 A2] [B1 B2] H. cbn [fst snd] in *. unfold merge_mean.
  pose proof (qlen_nonzero _ H) as N. rewrite qlen_app in N. split; cbn [fst snd].
  - apply isq_proper with (mean_of a + qlen b * ((mean_of b - mean_of a) / (qlen a + qlen b))); [symmetry; now apply mean_merge|].
    apply isq_add; auto. apply isq_mul; auto. apply isq_div; [apply isq_sub; auto|apply isq_add; auto|auto].
  - apply isq_proper with (qlen a + qlen b); [symmetry; apply qlen_app|]. apply isq_add; auto.
Qed.

(** variance rows: what is carried is var * (n - c) = squared deviations; [v] is arbitrary
    (but finite) when that product is 0 *)
Definition row_var (c : bool) (l : list Q) (m : num * num * num) : Prop :=
  isq (snd (fst m)) (mean_of l) /\ isq (snd m) (qlen l) /\
  exists v, isq (fst (fst m)) v /\ v * (qlen l - (if c then 1 else 0)) == sq_dev l (mean_of l).
Lemma merge_var_ok c a b m1 m2 : row_var c a m1 -> row_var c b m2 -> a ++ b <> [] -> (c = true -> length (a ++ b) <> 1%nat) ->
  row_var c (a ++ b) (merge_var c m1 m2) /\ isq (fst (fst (merge_var c m1 m2))) (var_of c (a ++ b)).
Proof.
  destruct m1 as [[v1 mu1] n1], m2 as [[v2 mu2] n2]. intros (A1 & A2 & w1 & A3 & A4) (B1 & B2 & w2 & B3 & B4) H Hc.
  cbn [fst snd] in *. unfold merge_var.
  pose proof (qlen_nonzero _ H) as N. rewrite qlen_app in N.
  assert (Nc : ~ qlen (a ++ b) - (if c then 1 else 0) == 0) by (apply qlen_minus; destruct c; auto).
  assert (D : isq (nsub mu2 mu1) (mean_of b - mean_of a)) by (apply isq_sub; auto).
  assert (S : isq (nadd n1 n2) (qlen a + qlen b)) by (apply isq_add; auto).
  assert (V : isq (if c
    then ndiv (nadd (nadd (nmul v1 (nsub n1 (Some 1))) (nmul v2 (nsub n2 (Some 1)))) (ndiv (nmul (nmul (nmul (nsub mu2 mu1) (nsub mu2 mu1)) n1) n2) (nadd n1 n2))) (nsub (nadd n1 n2) (Some 1))
    else ndiv (nadd (nadd (nmul v1 n1) (nmul v2 n2)) (ndiv (nmul (nmul (nmul (nsub mu2 mu1) (nsub mu2 mu1)) n1) n2) (nadd n1 n2))) (nadd n1 n2))
    (var_of c (a ++ b))).
  { assert (X : isq (ndiv (nmul (nmul (nmul (nsub mu2 mu1) (nsub mu2 mu1)) n1) n2) (nadd n1 n2))
       ((mean_of b - mean_of a) * (mean_of b - mean_of a) * qlen a * qlen b / (qlen a + qlen b))).
    { apply isq_div; auto. repeat (apply isq_mul; auto). }
    assert (E : var_of c (a ++ b) == (w1 * (qlen a - (if c then 1 else 0)) + w2 * (qlen b - (if c then 1 else 0)) +
        (mean_of b - mean_of a) * (mean_of b - mean_of a) * qlen a * qlen b / (qlen a + qlen b)) / (qlen a + qlen b - (if c then 1 else 0))).
    { rewrite A4, B4. unfold var_of. fold (sq_dev (a ++ b) (mean_of (a ++ b))). rewrite dev_merge by auto. rewrite qlen_app. reflexivity. }
    rewrite qlen_app in Nc. destruct c.
    - eapply isq_proper; [symmetry; exact E|]. apply isq_div; auto.
      + apply isq_add; auto. apply isq_add; apply isq_mul; auto; apply isq_sub; auto; apply isq_refl.
      + apply isq_sub; auto. apply isq_refl.
    - eapply isq_proper; [symmetry; exact E|]. eapply isq_proper with ((w1 * qlen a + w2 * qlen b + (mean_of b - mean_of a) * (mean_of b - mean_of a) * qlen a * qlen b / (qlen a + qlen b)) / (qlen a + qlen b)).
      { assert (Z0 : forall q, q - 0 == q) by (intros; ring). rewrite !Z0. reflexivity. }
      apply isq_div; auto. apply isq_add; auto. apply isq_add; apply isq_mul; auto. }
  split; [|exact V]. split; [|split]; cbn [fst snd].
  - apply isq_proper with (mean_of a + qlen b * ((mean_of b - mean_of a) / (qlen a + qlen b))); [symmetry; now apply mean_merge|].
    apply isq_add; auto. apply isq_mul; auto. apply isq_div; auto.
  - apply isq_proper with (qlen a + qlen b); [symmetry; apply qlen_app|]. auto.
  - exists (var_of c (a ++ b)). split; [exact V|]. unfold var_of, sq_dev. field. exact Nc.
Qed.
