(** float32 rounding: ranges and exactness. *)
From Coq Require Import QArith Qround Qpower Lqa.
From Verif Require Import Base PercSpec PercModel.
Open Scope Z_scope.

Lemma pow2_pos e : (0 < Qpower 2 e)%Q.
Proof. apply Qpower_0_lt. reflexivity. Qed.
Lemma pow2_nz e : ~ (Qpower 2 e == 0)%Q.
Proof. pose proof (pow2_pos e). lra. Qed.
Lemma pow2_plus a b : (Qpower 2 (a + b) == Qpower 2 a * Qpower 2 b)%Q.
Proof. apply Qpower_plus. discriminate. Qed.
Lemma pow2_inj e : 0 <= e -> (Qpower 2 e == inject_Z (2 ^ e))%Q.
Proof. intros H. symmetry. apply Zpower_Qpower. auto. Qed.
Lemma pow2_le a b : a <= b -> (Qpower 2 a <= Qpower 2 b)%Q.
Proof.
  intros H. replace b with (a + (b - a)) by lia. rewrite pow2_plus. rewrite (pow2_inj (b - a)) by lia.
  assert (1 <= 2 ^ (b - a)) by (assert (0 < 2 ^ (b - a)) by (apply Z.pow_pos_nonneg; lia); lia).
  assert ((1 <= inject_Z (2 ^ (b - a)))%Q) by (change 1%Q with (inject_Z 1); now rewrite <- Zle_Qle).
  pose proof (pow2_pos a). nra.
Qed.
Lemma pow2_lt_inv a b : (Qpower 2 a < Qpower 2 b)%Q -> a < b.
Proof. intros H. destruct (Z_lt_le_dec a b) as [|L]; [auto|]. apply pow2_le in L. lra. Qed.

Lemma rne_int m y : (y == inject_Z m)%Q -> rne y = m.
Proof.
  intros H. unfold rne. assert (F : Qfloor y = m) by (rewrite (Qfloor_comp _ _ H); apply Qfloor_Z). rewrite F.
  destruct (Qcompare (y - inject_Z m) (1 # 2)) eqn:E; auto.
  - apply Qeq_alt in E. lra.
  - apply Qgt_alt in E. lra.
Qed.
Lemma rne_near y : Qle (y - inject_Z (rne y)) (1 # 2) /\ Qle (inject_Z (rne y) - y) (1 # 2).
Proof.
  unfold rne. pose proof (Qfloor_le y). pose proof (Qlt_floor y). rewrite inject_Z_plus in H0. change (inject_Z 1) with 1%Q in H0.
  destruct (Qcompare (y - inject_Z (Qfloor y)) (1 # 2)) eqn:E.
  - apply Qeq_alt in E. destruct (Z.even _); rewrite ?inject_Z_plus; change (inject_Z 1) with 1%Q; lra.
  - apply Qlt_alt in E. lra.
  - apply Qgt_alt in E. rewrite inject_Z_plus. change (inject_Z 1) with 1%Q. lra.
Qed.
Lemma rne_le y m : (y <= inject_Z m)%Q -> rne y <= m.
Proof.
  intros H. destruct (rne_near y) as [_ N]. assert ((inject_Z (rne y) <= inject_Z m + (1 # 2))%Q) by lra.
  assert ((inject_Z (rne y) < inject_Z (m + 1))%Q) by (rewrite inject_Z_plus; change (inject_Z 1) with 1%Q; lra). rewrite <- Zlt_Qlt in H1. lia.
Qed.
Lemma rne_ge y m : (inject_Z m <= y)%Q -> m <= rne y.
Proof.
  intros H. destruct (rne_near y) as [N _].
  assert ((inject_Z (m - 1) < inject_Z (rne y))%Q) by (unfold Z.sub; rewrite inject_Z_plus; change (inject_Z (-(1))) with (-(1))%Q; lra). rewrite <- Zlt_Qlt in H0. lia.
Qed.

Lemma flog2_spec x : (0 < x)%Q -> (Qpower 2 (flog2 x) <= x)%Q /\ (x < Qpower 2 (flog2 x + 1))%Q.
Proof.
  intros Hx. destruct x as [p d]. unfold flog2. cbn [Qnum Qden]. set (a := Z.log2 p). set (b := Z.log2 (Zpos d)).
  assert (Hp : 0 < p) by (unfold Qlt in Hx; cbn in Hx; lia).
  pose proof (Z.log2_spec p Hp) as [A1 A2]. pose proof (Z.log2_spec (Zpos d) ltac:(lia)) as [B1 B2]. fold a in A1, A2. fold b in B1, B2.
  pose proof (Z.log2_nonneg p) as A0. pose proof (Z.log2_nonneg (Zpos d)) as B0. fold a in A0. fold b in B0.
  assert (E : ((p # d) * inject_Z (Zpos d) == inject_Z p)%Q) by (unfold Qeq; cbn; lia).
  assert (D0 : (0 < inject_Z (Zpos d))%Q) by reflexivity.
  assert (PA : forall k, 0 <= k -> (Qpower 2 (k - b) * Qpower 2 b == inject_Z (2 ^ k))%Q).
  { intros k Hk. rewrite <- pow2_plus. replace (k - b + b) with k by lia. now apply pow2_inj. }
  assert (U : ((p # d) < Qpower 2 (a - b + 1))%Q).
  { replace (a - b + 1) with (a + 1 - b) by lia. apply (Qmult_lt_r _ _ (inject_Z (Zpos d)) D0). rewrite E.
    rewrite Zlt_Qlt in A2. replace (Z.succ a) with (a + 1) in A2 by lia. rewrite <- (PA (a + 1)) in A2 by lia.
    rewrite Zle_Qle in B1. rewrite <- pow2_inj in B1 by lia. pose proof (pow2_pos (a + 1 - b)) as PP.
    apply (Qlt_le_trans _ _ _ A2). apply Qmult_le_l; auto. }
  assert (L : (Qpower 2 (a - b - 1) < (p # d))%Q).
  { replace (a - b - 1) with (a - 1 - b) by lia. apply (Qmult_lt_r _ _ (inject_Z (Zpos d)) D0). rewrite E.
    rewrite Zle_Qle in A1. replace (Z.succ b) with (b + 1) in B2 by lia. rewrite Zlt_Qlt in B2. rewrite <- pow2_inj in B2 by lia. rewrite pow2_plus in B2.
    assert (E2 : (Qpower 2 (a - 1 - b) * (Qpower 2 b * Qpower 2 1) == inject_Z (2 ^ a))%Q).
    { rewrite <- !pow2_plus. replace (a - 1 - b + (b + 1)) with a by lia. now apply pow2_inj. }
    pose proof (pow2_pos (a - 1 - b)) as PP. refine (Qlt_le_trans _ _ _ _ A1). rewrite <- E2. apply Qmult_lt_l; auto. }
  destruct (Qle_bool (Qpower 2 (a - b)) (p # d)) eqn:Q.
  - apply Qle_bool_iff in Q. split; auto.
  - assert (N : ~ (Qpower 2 (a - b) <= (p # d))%Q) by (rewrite <- Qle_bool_iff; congruence). split; [lra|].
    replace (a - b - 1 + 1) with (a - b) by lia. lra.
Qed.
Lemma flog2_le x k : (0 < x)%Q -> (x < Qpower 2 k)%Q -> flog2 x < k.
Proof. intros H H1. destruct (flog2_spec x H) as [A _]. apply pow2_lt_inv. lra. Qed.
Lemma f32pos_pow x k : (0 < x)%Q -> (x < Qpower 2 k)%Q -> -125 <= k -> exists u, u <= k - 24 /\ -149 <= u /\ f32pos x = (inject_Z (rne (x / Qpower 2 u)) * Qpower 2 u)%Q.
Proof. intros H H1 K. apply flog2_le in H1; auto. unfold f32pos. exists (Z.max (flog2 x - 23) (-149)). split; [lia|]. split; [lia|auto]. Qed.

(** m / 2^j with an integer m up to 2^24 is a float32 *)
Lemma f32_exact x m j : 0 <= m <= 2 ^ 24 -> 0 <= j <= 100 -> (x == inject_Z m * Qpower 2 (- j))%Q -> (f32 x == x)%Q.
Proof.
  intros Hm Hj E. unfold f32. assert (P := pow2_pos (- j)).
  destruct (Z.eq_dec m 0) as [->|N].
  { destruct (Qcompare x 0) eqn:C; [apply Qeq_alt in C; lra|apply Qlt_alt in C; change (inject_Z 0) with 0%Q in E; lra|apply Qgt_alt in C; change (inject_Z 0) with 0%Q in E; lra]. }
  assert (X0 : (0 < x)%Q). { rewrite E. apply Qmult_lt_0_compat; auto. change 0%Q with (inject_Z 0). rewrite <- Zlt_Qlt. lia. }
  replace (Qcompare x 0) with Gt by (symmetry; now apply Qgt_alt).
  assert (C : exists u, u <= - j /\ f32pos x = (inject_Z (rne (x / Qpower 2 u)) * Qpower 2 u)%Q \/
              (u = - j + 1 /\ m = 2 ^ 24) /\ f32pos x = (inject_Z (rne (x / Qpower 2 u)) * Qpower 2 u)%Q).
  { destruct (Z_lt_le_dec m (2 ^ 24)) as [L|L].
    - destruct (f32pos_pow x (24 - j) X0) as (u & U1 & U2 & U3); [|lia|exists u; left; split; [lia|auto]].
      rewrite E. replace (24 - j) with (24 + - j) by lia. rewrite pow2_plus. apply Qmult_lt_compat_r; auto. rewrite pow2_inj by lia. rewrite <- Zlt_Qlt. auto.
    - assert (m = 2 ^ 24) by lia. destruct (f32pos_pow x (25 - j) X0) as (u & U1 & U2 & U3); [|lia|].
      + rewrite E. replace (25 - j) with (25 + - j) by lia. rewrite pow2_plus. apply Qmult_lt_compat_r; auto. rewrite pow2_inj by lia. rewrite <- Zlt_Qlt. lia.
      + exists u. destruct (Z.eq_dec u (- j + 1)); [right; auto|left; split; [lia|auto]]. }
  assert (G : forall u n, (x == inject_Z n * Qpower 2 u)%Q -> (inject_Z (rne (x / Qpower 2 u)) * Qpower 2 u == x)%Q).
  { intros u n En. assert (Pu := pow2_pos u). rewrite (rne_int n); [lra|]. rewrite En. field. lra. }
  destruct C as (u & [(U & ->)|((-> & ->) & ->)]).
  - apply (G u (m * 2 ^ (- j - u))). rewrite E, inject_Z_mult. rewrite <- pow2_inj by lia. rewrite <- Qmult_assoc, <- pow2_plus. replace (- j - u + u) with (- j) by lia. reflexivity.
  - apply (G _ (2 ^ 23)). rewrite E. rewrite pow2_plus. change (2 ^ 24) with (2 ^ 23 * 2). rewrite inject_Z_mult. change (Qpower 2 1) with (inject_Z 2). ring.
Qed.
Lemma f32_int m : 0 <= m <= 2 ^ 24 -> (f32 (inject_Z m) == inject_Z m)%Q.
Proof. intros H. apply (f32_exact _ m 0); [auto|lia|]. change (Qpower 2 (-0)) with 1%Q. ring. Qed.
Lemma f32_0 x : (x == 0)%Q -> f32 x = 0%Q.
Proof. intros H. unfold f32. replace (Qcompare x 0) with Eq; auto. symmetry. now apply Qeq_alt. Qed.

(** rounding does not cross an integer up to 2^24 *)
Lemma f32_range x m : 0 <= m <= 2 ^ 24 -> (0 <= x <= inject_Z m)%Q -> (0 <= f32 x <= inject_Z m)%Q.
Proof.
  intros Hm [H0 H1]. destruct (Qlt_le_dec 0 x) as [P|P].
  2: { rewrite (f32_0 x) by lra. split; [lra|]. change 0%Q with (inject_Z 0). rewrite <- Zle_Qle. lia. }
  unfold f32. replace (Qcompare x 0) with Gt by (symmetry; now apply Qgt_alt).
  destruct (Qlt_le_dec x (Qpower 2 24)) as [L|L].
  - destruct (f32pos_pow x 24 P L ltac:(lia)) as (u & U1 & U2 & ->). assert (Pu := pow2_pos u).
    assert (XP : (x / Qpower 2 u * Qpower 2 u == x)%Q) by (field; lra).
    split.
    + apply Qmult_le_0_compat; [|lra]. change 0%Q with (inject_Z 0). rewrite <- Zle_Qle. apply rne_ge. change (inject_Z 0) with 0%Q. nra.
    + assert (E : (inject_Z m == inject_Z (m * 2 ^ (- u)) * Qpower 2 u)%Q).
      { rewrite inject_Z_mult, <- pow2_inj by lia. rewrite <- Qmult_assoc, <- pow2_plus. replace (- u + u) with 0 by lia. change (Qpower 2 0) with 1%Q. ring. }
      rewrite E. apply Qmult_le_compat_r; [|lra]. rewrite <- Zle_Qle. apply rne_le. rewrite E in H1. nra.
  - assert (EQ : (x == inject_Z (2 ^ 24))%Q). { rewrite pow2_inj in L by lia. assert ((inject_Z m <= inject_Z (2 ^ 24))%Q) by (rewrite <- Zle_Qle; lia). lra. }
    assert (F := f32_exact x (2 ^ 24) 0 ltac:(lia) ltac:(lia) ltac:(rewrite EQ; change (Qpower 2 (- 0)) with 1%Q; ring)).
    unfold f32 in F. replace (Qcompare x 0) with Gt in F by (symmetry; now apply Qgt_alt). rewrite F. split; lra.
Qed.
Lemma f32_comp_exact x y m j : 0 <= m <= 2 ^ 24 -> 0 <= j <= 100 -> (x == inject_Z m * Qpower 2 (- j))%Q -> (x == y)%Q -> (f32 x == y)%Q.
Proof. intros. rewrite <- H2. eapply f32_exact; eauto. Qed.

(** the float32 index of a percentile in [0,100] stays inside [0, n-1] for n <= 2^24 + 1 *)
Lemma raw_index_range q n : (0 <= q <= inject_Z 100)%Q -> 0 < n <= 2 ^ 24 + 1 -> (0 <= raw_index f32 q n <= inject_Z (n - 1))%Q.
Proof.
  intros Hq Hn. unfold raw_index.
  assert (Q1 := f32_range q 100 ltac:(lia) Hq).
  assert (Q2 : (0 <= f32 q / inject_Z 100 <= inject_Z 1)%Q).
  { split; [apply Qle_shift_div_l; [reflexivity|lra]|apply Qle_shift_div_r; [reflexivity|]; change (inject_Z 1) with 1%Q; lra]. }
  assert (Q3 := f32_range _ 1 ltac:(lia) Q2). change (inject_Z 1) with 1%Q in Q3.
  assert (Q4 := f32_int (n - 1) ltac:(lia)).
  assert (N0 : (0 <= inject_Z (n - 1))%Q) by (change 0%Q with (inject_Z 0); rewrite <- Zle_Qle; lia).
  apply f32_range; [lia|]. rewrite Q4. split; nra.
Qed.
(** percentiles 100 a / 2^j (minimum, quartiles, median, maximum) are exact while
    a (n-1) <= 2^24 *)
Lemma raw_index_dyadic a j n : 0 <= j <= 10 -> 0 <= a <= 2 ^ j -> 0 < n <= 2 ^ 24 + 1 -> a * (n - 1) <= 2 ^ 24 ->
  (raw_index f32 (inject_Z (100 * a) * Qpower 2 (- j)) n == position (inject_Z (100 * a) * Qpower 2 (- j)) n)%Q.
Proof.
  intros Hj Ha Hn Hb. unfold raw_index, position. assert (J : 2 ^ j <= 2 ^ 10) by (apply Z.pow_le_mono_r; lia). change (2 ^ 10) with 1024 in J.
  assert (E1 : (f32 (inject_Z (100 * a) * Qpower 2 (- j)) == inject_Z (100 * a) * Qpower 2 (- j))%Q) by (apply (f32_exact _ (100 * a) j); [lia|lia|reflexivity]).
  assert (ED : (f32 (inject_Z (100 * a) * Qpower 2 (- j)) / inject_Z 100 == inject_Z a * Qpower 2 (- j))%Q).
  { rewrite E1, inject_Z_mult. change (inject_Z 100) with 100%Q. field. }
  assert (E2 := f32_exact _ a j ltac:(lia) ltac:(lia) ED).
  assert (E3 := f32_int (n - 1) ltac:(lia)).
  assert (EM : (f32 (f32 (inject_Z (100 * a) * Qpower 2 (- j)) / inject_Z 100) * f32 (inject_Z (n - 1)) == inject_Z (a * (n - 1)) * Qpower 2 (- j))%Q).
  { rewrite E2, ED, E3, inject_Z_mult. ring. }
  rewrite (f32_exact _ (a * (n - 1)) j ltac:(nia) ltac:(lia) EM). rewrite E2, E1, E3. reflexivity.
Qed.

(** monotone *)
Lemma f32_mono a b : (0 <= a <= b)%Q -> (0 <= f32 a <= f32 b)%Q.
Proof.
  intros [A B]. assert (NN : forall x, (0 <= x)%Q -> (0 <= f32 x)%Q).
  { intros x Hx. unfold f32. destruct (Qcompare x 0) eqn:E; [lra|apply Qlt_alt in E; lra|]. apply Qgt_alt in E. unfold f32pos. apply Qmult_le_0_compat; [|pose proof (pow2_pos (Z.max (flog2 x - 23) (-149))); lra].
    change 0%Q with (inject_Z 0). rewrite <- Zle_Qle. apply rne_ge. change (inject_Z 0) with 0%Q. apply Qle_shift_div_l; [apply pow2_pos|lra]. }
  split; [auto|]. destruct (Qlt_le_dec 0 a) as [P|P]; [|rewrite (f32_0 a) by lra; apply NN; lra].
  unfold f32. replace (Qcompare a 0) with Gt by (symmetry; now apply Qgt_alt). replace (Qcompare b 0) with Gt by (symmetry; apply Qgt_alt; lra).
  destruct (flog2_spec a P) as [A1 A2]. destruct (flog2_spec b ltac:(lra)) as [B1 B2]. unfold f32pos.
  set (ua := Z.max (flog2 a - 23) (-149)). set (ub := Z.max (flog2 b - 23) (-149)).
  assert (L : flog2 a <= flog2 b). { assert (flog2 a < flog2 b + 1); [|lia]. apply pow2_lt_inv. lra. }
  assert (Pa := pow2_pos ua). assert (Pb := pow2_pos ub).
  destruct (Z.eq_dec ua ub) as [E|N].
  - rewrite <- E. apply Qmult_le_compat_r; [|lra]. rewrite <- Zle_Qle.
    assert (LE : (a / Qpower 2 ua <= b / Qpower 2 ua)%Q). { apply Qle_shift_div_l; auto. assert (X : (a / Qpower 2 ua * Qpower 2 ua == a)%Q) by (field; lra). lra. }
    destruct (Z_le_gt_dec (rne (a / Qpower 2 ua)) (rne (b / Qpower 2 ua))) as [|G]; [auto|exfalso].
    destruct (rne_near (a / Qpower 2 ua)) as [N1 N2]. destruct (rne_near (b / Qpower 2 ua)) as [N3 N4]. set (p := (a / Qpower 2 ua)%Q) in *. set (q := (b / Qpower 2 ua)%Q) in *.
    assert (X : (inject_Z (rne q) + 1 <= inject_Z (rne p))%Q). { change 1%Q with (inject_Z 1). rewrite <- inject_Z_plus. rewrite <- Zle_Qle. lia. }
    assert (EQ : (p == q)%Q) by lra. assert (rne p = rne q); [|lia]. unfold rne. rewrite (Qfloor_comp _ _ EQ).
    assert (E2 : (p - inject_Z (Qfloor q) == q - inject_Z (Qfloor q))%Q) by (now rewrite EQ). rewrite (Qcompare_comp _ _ E2 (1 # 2) (1 # 2) (Qeq_refl _)). reflexivity.
  - assert (LL : flog2 a + 1 <= flog2 b /\ ua <= flog2 b /\ ub <= flog2 b) by (unfold ua, ub in *; lia). destruct LL as (L1 & L2 & L3).
    assert (AB : (a <= Qpower 2 (flog2 b))%Q) by (pose proof (pow2_le _ _ L1); lra).
    assert (EX : forall u, u <= flog2 b -> (Qpower 2 (flog2 b) == inject_Z (2 ^ (flog2 b - u)) * Qpower 2 u)%Q).
    { intros u Hu. rewrite <- pow2_inj by lia. rewrite <- pow2_plus. replace (flog2 b - u + u) with (flog2 b) by lia. reflexivity. }
    apply (Qle_trans _ (Qpower 2 (flog2 b))).
    + rewrite (EX ua L2). apply Qmult_le_compat_r; [|lra]. rewrite <- Zle_Qle. apply rne_le. apply Qle_shift_div_r; auto. rewrite <- (EX ua L2). auto.
    + rewrite (EX ub L3) at 1. apply Qmult_le_compat_r; [|lra]. rewrite <- Zle_Qle. apply rne_ge. apply Qle_shift_div_l; auto. rewrite <- (EX ub L3). auto.
Qed.

(** absolute error below 2^k *)
Lemma f32_err x k : -125 <= k -> (0 <= x <= Qpower 2 k)%Q -> (x - Qpower 2 (k - 25) <= f32 x <= x + Qpower 2 (k - 25))%Q.
Proof.
  intros Hk [H0 H1]. assert (PE := pow2_pos (k - 25)). destruct (Qlt_le_dec 0 x) as [P|P].
  2: { rewrite (f32_0 x) by lra. lra. }
  unfold f32. replace (Qcompare x 0) with Gt by (symmetry; now apply Qgt_alt).
  assert (G : exists u, f32pos x = (inject_Z (rne (x / Qpower 2 u)) * Qpower 2 u)%Q /\ (u <= k - 24 \/ (u = k - 23 /\ (x == Qpower 2 k)%Q))).
  { destruct (Qlt_le_dec x (Qpower 2 k)) as [L|L].
    - destruct (f32pos_pow x k P L Hk) as (u & U1 & U2 & U3). exists u. auto.
    - destruct (f32pos_pow x (k + 1) P) as (u & U1 & U2 & U3); [rewrite pow2_plus; change (Qpower 2 1) with 2%Q; pose proof (pow2_pos k); lra|lia|]. exists u. split; [auto|].
      destruct (Z.eq_dec u (k - 23)); [right; split; [auto|lra]|left; lia]. }
  destruct G as (u & -> & U). assert (Pu := pow2_pos u). assert (XP : (x / Qpower 2 u * Qpower 2 u == x)%Q) by (field; lra).
  destruct U as [U|[-> U]].
  - destruct (rne_near (x / Qpower 2 u)) as [N1 N2]. assert (PL := pow2_le u (k - 24) U). replace (k - 24) with (k - 25 + 1) in PL by lia. rewrite pow2_plus in PL. change (Qpower 2 1) with 2%Q in PL.
    assert (M1 := Qmult_le_compat_r _ _ _ N1 (Qlt_le_weak _ _ Pu)). assert (M2 := Qmult_le_compat_r _ _ _ N2 (Qlt_le_weak _ _ Pu)). split; lra.
  - rewrite (rne_int (2 ^ 23)).
    + assert (EE : (inject_Z (2 ^ 23) * Qpower 2 (k - 23) == x)%Q). { rewrite U. rewrite <- pow2_inj by lia. rewrite <- pow2_plus. replace (23 + (k - 23)) with k by lia. reflexivity. } split; lra.
    + rewrite U. rewrite <- pow2_inj by lia. replace k with (23 + (k - 23)) at 1 by lia. rewrite pow2_plus. field. lra.
Qed.

(** the float32 position is within (n-1) / 2^22 of the exact one *)
Lemma raw_index_err q n : (0 <= q <= inject_Z 100)%Q -> 0 < n <= 2 ^ 24 + 1 ->
  (position q n - inject_Z (n - 1) * (1 # 4194304) <= raw_index f32 q n <= position q n + inject_Z (n - 1) * (1 # 4194304))%Q.
Proof.
  intros Hq Hn. unfold raw_index, position. change (inject_Z 100) with 100%Q in *.
  assert (E1 := f32_err q 7 ltac:(lia) ltac:(change (Qpower 2 7) with 128%Q; lra)). change (Qpower 2 (7 - 25)) with (1 # 262144)%Q in E1.
  assert (R1 := f32_range q 100 ltac:(lia) Hq). change (inject_Z 100) with 100%Q in R1. set (q1 := f32 q) in *.
  assert (D : forall z, (z / 100 == z * (1 # 100))%Q) by (intros z; field).
  assert (E2 := f32_err (q1 / 100) 0 ltac:(lia) ltac:(rewrite D; change (Qpower 2 0) with 1%Q; lra)). change (Qpower 2 (0 - 25)) with (1 # 33554432)%Q in E2. assert (D1 := D q1).
  assert (R2 := f32_range (q1 / 100) 1 ltac:(lia) ltac:(rewrite D; change (inject_Z 1) with 1%Q; lra)). change (inject_Z 1) with 1%Q in R2. set (w := (q1 / 100)%Q) in *. set (t := f32 w) in *.
  assert (E3 := f32_int (n - 1) ltac:(lia)). set (N := inject_Z (n - 1)) in *. assert (N0 : (0 <= N)%Q) by (unfold N; change 0%Q with (inject_Z 0); rewrite <- Zle_Qle; lia). set (N' := f32 N) in *.
  destruct (Z.eq_dec n 1) as [->|Nn].
  - change (1 - 1) with 0 in *. assert (NZ : (N == 0)%Q) by reflexivity. rewrite (f32_0 (t * N')) by (rewrite E3, NZ; ring). rewrite NZ, D. lra.
  - assert (LG := Z.log2_spec (n - 1) ltac:(lia)). set (k := Z.log2 (n - 1)) in *. assert (K0 := Z.log2_nonneg (n - 1)). fold k in K0.
    assert (NK : (N <= Qpower 2 (k + 1))%Q). { rewrite pow2_inj by lia. unfold N. rewrite <- Zle_Qle. lia. }
    assert (KN : (Qpower 2 k <= N)%Q). { rewrite pow2_inj by lia. unfold N. rewrite <- Zle_Qle. lia. }
    assert (TN : (0 <= t * N' <= N)%Q). { rewrite E3. split; nra. }
    assert (E4 := f32_err (t * N') (k + 1) ltac:(lia) ltac:(lra)). replace (k + 1 - 25) with (k + -24) in E4 by lia. rewrite pow2_plus in E4. change (Qpower 2 (-24)) with (1 # 16777216)%Q in E4.
    rewrite D. assert (TE : (t * N' == t * N)%Q) by now rewrite E3. 
    assert (T1 : (q * (1 # 100) - (1 # 26214400) - (1 # 33554432) <= t <= q * (1 # 100) + (1 # 26214400) + (1 # 33554432))%Q) by (clear - E1 E2 D1; split; lra).
    assert (M1 : ((q * (1 # 100) - (1 # 26214400) - (1 # 33554432)) * N <= t * N)%Q) by (apply Qmult_le_compat_r; [apply T1|auto]).
    assert (M2 : (t * N <= (q * (1 # 100) + (1 # 26214400) + (1 # 33554432)) * N)%Q) by (apply Qmult_le_compat_r; [apply T1|auto]).
    destruct E4 as [E5 E6]. split; lra.
Qed.
