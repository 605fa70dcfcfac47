(** Regular sampling: how many elements lie below a global pivot. *)
From Coq Require Import Permutation Sorted.
From Verif Require Import Base BaseLemmas LayoutModel LayoutProofs NdSpec TensorSpec NdLemmas OpsModel OpsProofs4 BinModel SortModel SortProofs SortProofs2.
Open Scope nat_scope.

Section Order.
Context {V : Type} (dv : V) (c : V -> V -> bool).
Hypothesis asym : forall x y, c x y = true -> c y x = false.
Hypothesis negtrans : forall x y z, c x y = false -> c y z = false -> c x z = false.
Definition nle (x y : V) : Prop := c y x = false.
Notation SS := (StronglySorted nle).

Lemma irr x : c x x = false.
Proof. destruct (c x x) eqn:E; auto. rewrite (asym _ _ E) in E. discriminate. Qed.
Lemma down p x y : nle x y -> c y p = true -> c x p = true.
Proof. unfold nle. intros H1 H2. destruct (c x p) eqn:E; auto. rewrite (negtrans _ _ _ H1 E) in H2. discriminate. Qed.
Lemma up p x q : c x p = true -> nle p q -> c x q = true.
Proof. unfold nle. intros H1 H2. destruct (c x q) eqn:E; auto. rewrite (negtrans _ _ _ E H2) in H1. discriminate. Qed.

Definition cnt (p : V) (l : list V) : nat := length (filter (fun v => c v p) l).
Lemma cnt_prefix p l : SS l -> forall i, i < length l -> c (nth i l dv) p = true <-> i < cnt p l.
Proof. intros H i Hi. apply (filter_prefix nle (fun v => c v p) l dv H); auto. intros x y. apply down. Qed.
Lemma cnt_le p l : cnt p l <= length l. Proof. apply filter_length_le'. Qed.
Lemma cnt_at l k : SS l -> k < length l -> cnt (nth k l dv) l <= k.
Proof. intros H Hk. destruct (Nat.le_gt_cases (cnt (nth k l dv) l) k); [auto|]. exfalso. apply (cnt_prefix _ l H k Hk) in H0. now rewrite irr in H0. Qed.
Lemma cnt_mono p q l : nle p q -> cnt p l <= cnt q l.
Proof.
  intros H. unfold cnt. induction l as [|x l IH]; cbn; [lia|]. destruct (c x p) eqn:E1; [rewrite (up _ _ _ E1 H); cbn; lia|]. destruct (c x q); cbn; lia.
Qed.

Definition samples (P : nat) (l : list V) : list V := map (fun x => nth (x * length l / (P + 1)) l dv) (seq 1 P).
Lemma samples_length P l : length (samples P l) = P. Proof. unfold samples. now rewrite map_length, seq_length. Qed.
Lemma samples_nth P l i : i < P -> nth i (samples P l) dv = nth ((i + 1) * length l / (P + 1)) l dv.
Proof. intros H. unfold samples. rewrite <- seq_shift, map_map. rewrite (@nth_map_seq) by auto. f_equal. f_equal. f_equal. lia. Qed.
Lemma idx_lt P i m : i < P -> 0 < m -> (i + 1) * m / (P + 1) < m.
Proof. intros H Hm. apply Nat.div_lt_upper_bound; [lia|]. rewrite (Nat.mul_comm (P + 1)). rewrite Nat.mul_comm. apply Nat.mul_lt_mono_pos_l; lia. Qed.
Lemma samples_SS P l : SS l -> 0 < length l -> SS (samples P l).
Proof.
  intros H HL. apply (SS_nth nle _ dv). intros i j Hij. rewrite samples_length in Hij. rewrite !samples_nth by lia.
  set (a := (i + 1) * length l / (P + 1)). set (b := (j + 1) * length l / (P + 1)). assert (a <= b) by (unfold a, b; apply Nat.div_le_mono; [lia|]; apply Nat.mul_le_mono_r; lia).
  assert (b < length l) by (apply idx_lt; lia). destruct (Nat.eq_dec a b) as [->|N]; [apply irr|]. apply (SS_nth nle l dv); auto. lia.
Qed.
Lemma local_bound P l p : SS l -> 0 < length l -> cnt p l * (P + 1) <= (cnt p (samples P l) + 1) * length l.
Proof.
  intros H HL. set (k := cnt p (samples P l)). assert (Hk : k <= P) by (unfold k; rewrite <- (samples_length P l) at 2; apply cnt_le).
  destruct (Nat.eq_dec k P) as [->|N].
  - rewrite (Nat.mul_comm (P + 1)). apply Nat.mul_le_mono_r. apply cnt_le.
  - assert (X : ~ (c (nth k (samples P l) dv) p = true)). { rewrite (cnt_prefix p (samples P l)); [fold k; lia|apply samples_SS; auto|rewrite samples_length; lia]. }
    rewrite samples_nth in X by lia. rewrite (cnt_prefix p l H) in X by (apply idx_lt; lia).
    assert (cnt p l <= (k + 1) * length l / (P + 1)) by lia. apply Nat.le_trans with ((k + 1) * length l / (P + 1) * (P + 1)); [apply Nat.mul_le_mono_r; auto|]. rewrite Nat.mul_comm. apply Nat.mul_div_le. lia.
Qed.

Lemma cnt_concat p ls : Z.of_nat (cnt p (concat ls)) = sum_n (fun r => Z.of_nat (cnt p (nth r ls []))) (length ls).
Proof.
  induction ls as [|l ls IH] using rev_ind; [reflexivity|]. rewrite concat_app, app_length, Nat.add_1_r. cbn [concat sum_n]. rewrite app_nil_r. unfold cnt at 1. rewrite filter_len_app. fold (cnt p (concat ls)). fold (cnt p l). rewrite app_nth2, Nat.sub_diag by lia. cbn [nth].
  rewrite Nat2Z.inj_add, IH. f_equal. apply sum_n_ext. intros i Hi. now rewrite app_nth1.
Qed.
End Order.

Open Scope Z_scope.
Lemma sum_n_le f g n : (forall i, (i < n)%nat -> f i <= g i) -> sum_n f n <= sum_n g n.
Proof. induction n as [|n IH]; intros H; cbn; [lia|]. specialize (IH ltac:(intros; apply H; lia)). specialize (H n ltac:(lia)). lia. Qed.
Lemma sum_n_scale k f n : sum_n (fun i => k * f i) n = k * sum_n f n.
Proof. induction n; cbn; lia. Qed.
Lemma sum_n_plus f g n : sum_n (fun i => f i + g i) n = sum_n f n + sum_n g n.
Proof. induction n; cbn; lia. Qed.
Lemma sum_n_const k n : sum_n (fun _ => k) n = k * Z.of_nat n.
Proof. induction n; cbn [sum_n]; lia. Qed.
Lemma sum_n_prefix_le f m n : (m <= n)%nat -> (forall i, (i < n)%nat -> 0 <= f i) -> sum_n f m <= sum_n f n.
Proof. induction 1 as [|n H IH]; intros H0; [lia|]. cbn. specialize (IH ltac:(intros; apply H0; lia)). specialize (H0 n ltac:(lia)). lia. Qed.

Lemma arith_bound (P q : nat) (b rho K : Z) (m k : nat -> Z) :
  (S q < P)%nat -> 0 <= b -> 0 <= rho < Z.of_nat P -> 0 <= K ->
  (forall r, (r < P)%nat -> 0 <= k r <= Z.of_nat P) ->
  (forall r, (r < P)%nat -> m r * (Z.of_nat P + 1) <= (k r + 1) * (b + (if Z.of_nat r <? rho then 1 else 0))) ->
  sum_n k P <= (Z.of_nat q + 1) * K -> K <= Z.of_nat P ->
  sum_n m P <= (Z.of_nat q + 2) * b + Z.min (Z.of_nat q + 2) rho.
Proof.
  intros Hq Hb Hr HK Hk Hm HS HKP. set (p := Z.of_nat P) in *. set (w := Z.of_nat q) in *.
  assert (E1 : (p + 1) * sum_n m P <= b * (sum_n k P + p) + sum_n (fun r => if Z.of_nat r <? rho then k r + 1 else 0) P).
  { rewrite <- sum_n_scale. apply Z.le_trans with (sum_n (fun r => (b * (k r + 1)) + (if Z.of_nat r <? rho then k r + 1 else 0)) P).
    - apply sum_n_le. intros i Hi. specialize (Hm i Hi). destruct (Z.of_nat i <? rho); nia.
    - rewrite sum_n_plus, sum_n_scale, sum_n_plus, sum_n_const. fold p. lia. }
  assert (E2 : sum_n (fun r => if Z.of_nat r <? rho then k r + 1 else 0) P = sum_n (fun r => k r + 1) (Z.to_nat rho)).
  { rewrite (sum_n_tail _ (Z.to_nat rho) P) by (try lia; intros i Hi; destruct (Z.ltb_spec (Z.of_nat i) rho); lia). apply sum_n_ext. intros i Hi. destruct (Z.ltb_spec (Z.of_nat i) rho); lia. }
  rewrite E2 in E1. clear E2.
  assert (B1 : sum_n (fun r => k r + 1) (Z.to_nat rho) <= rho * (p + 1)).
  { apply Z.le_trans with (sum_n (fun _ => p + 1) (Z.to_nat rho)); [apply sum_n_le; intros i Hi; specialize (Hk i ltac:(lia)); lia|]. rewrite sum_n_const. nia. }
  assert (B2 : sum_n (fun r => k r + 1) (Z.to_nat rho) <= sum_n k P + rho).
  { rewrite sum_n_plus, sum_n_const. assert (X : sum_n k (Z.to_nat rho) <= sum_n k P) by (apply sum_n_prefix_le; [lia|intros i Hi; specialize (Hk i Hi); lia]). lia. }
  set (s := sum_n (fun r => k r + 1) (Z.to_nat rho)) in *. set (sk := sum_n k P) in *. set (sm := sum_n m P) in *.
  assert (SK : sk <= (w + 1) * p) by nia. clearbody s sk sm. clear -E1 B1 B2 SK Hb Hr Hq. assert (0 <= w) by (unfold w; lia). assert (w + 2 <= p) by (unfold w, p; lia). clearbody w p.
  assert (E3 : (p + 1) * sm <= b * ((w + 2) * p) + s) by nia.
  assert (s <= (p + 1) * Z.min (w + 2) rho) by (destruct (Z.min_spec (w + 2) rho) as [[_ ->]|[_ ->]]; nia).
  nia.
Qed.
