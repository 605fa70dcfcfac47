(** Proofs about the Threefry cipher (C28). *)
From Verif Require Import Base TensorSpec RandSpec RandModel.
Open Scope Z_scope.

Lemma wrapb_sword b z : wrapb b z = sword b z. Proof. reflexivity. Qed.
Lemma pow2_split b : 1 <= b -> 2 ^ b = 2 * 2 ^ (b - 1).
Proof. intros H. rewrite <- (Z.pow_succ_r 2 (b - 1)) by lia. f_equal; lia. Qed.
Lemma pow2_pos b : 0 <= b -> 0 < 2 ^ b. Proof. intros. apply Z.pow_pos_nonneg; lia. Qed.

Lemma wrapb_word b z : 1 <= b -> is_word b (wrapb b z).
Proof.
  intros H. unfold is_word, wrapb. rewrite (pow2_split b) by auto.
  pose proof (pow2_pos (b - 1) ltac:(lia)). set (M := 2 ^ (b - 1)) in *.
  pose proof (Z.mod_pos_bound (z + M) (2 * M)). lia.
Qed.
Lemma wrapb_id b z : 1 <= b -> is_word b z -> wrapb b z = z.
Proof.
  intros H W. unfold is_word, wrapb in *. rewrite (pow2_split b) by auto.
  pose proof (pow2_pos (b - 1) ltac:(lia)). set (M := 2 ^ (b - 1)) in *.
  rewrite Z.mod_small; lia.
Qed.
Lemma wrapb_mod b z : 1 <= b -> wrapb b z mod 2 ^ b = z mod 2 ^ b.
Proof.
  intros H. unfold wrapb. pose proof (pow2_pos b ltac:(lia)). rewrite Zminus_mod_idemp_l.
  f_equal. lia.
Qed.
Lemma wrapb_cong b x y : 1 <= b -> x mod 2 ^ b = y mod 2 ^ b -> wrapb b x = wrapb b y.
Proof.
  intros H E. unfold wrapb. rewrite (Z.add_mod x), (Z.add_mod y), E by (pose proof (pow2_pos b); lia). reflexivity.
Qed.
Lemma word_eq b x y : 1 <= b -> is_word b x -> is_word b y -> x mod 2 ^ b = y mod 2 ^ b -> x = y.
Proof. intros H X Y E. rewrite <- (wrapb_id b x), <- (wrapb_id b y) by auto. now apply wrapb_cong. Qed.
Lemma wrapb_add_l b x y : 1 <= b -> wrapb b (wrapb b x + y) = wrapb b (x + y).
Proof.
  intros H. pose proof (pow2_pos b ltac:(lia)). apply wrapb_cong; auto.
  rewrite Z.add_mod, wrapb_mod, <- Z.add_mod by lia. reflexivity.
Qed.

Lemma word_shift b z : 1 <= b -> is_word b z <-> (Z.shiftr z (b - 1) = 0 \/ Z.shiftr z (b - 1) = -1).
Proof.
  intros H. rewrite Z.shiftr_div_pow2 by lia. pose proof (pow2_pos (b - 1) ltac:(lia)). unfold is_word.
  set (M := 2 ^ (b - 1)) in *. split; [intros W|].
  - destruct (Z.ltb_spec z 0).
    + right. symmetry. apply (Z.div_unique_pos z M (-1) (z + M)); lia.
    + left. apply Z.div_small; lia.
  - pose proof (Z.div_mod z M ltac:(lia)). pose proof (Z.mod_pos_bound z M ltac:(lia)).
    set (q := z / M) in *. intros [E|E]; rewrite E in *; lia.
Qed.
Lemma word_lxor b x y : 1 <= b -> is_word b x -> is_word b y -> is_word b (Z.lxor x y).
Proof.
  intros H. rewrite !word_shift, Z.shiftr_lxor by auto. intros [->| ->] [->| ->]; cbn; auto.
Qed.
Lemma word_lor b x y : 1 <= b -> is_word b x -> is_word b y -> is_word b (Z.lor x y).
Proof.
  intros H. rewrite !word_shift, Z.shiftr_lor by auto. intros [->| ->] [->| ->]; cbn; auto.
Qed.
Lemma word_bits b x y : 1 <= b -> is_word b x -> is_word b y ->
  (forall n, 0 <= n < b -> Z.testbit x n = Z.testbit y n) -> x = y.
Proof.
  intros H X Y E. apply (word_eq b); auto. apply Z.bits_inj'. intros n Hn.
  destruct (Z.ltb_spec n b).
  - rewrite !Z.mod_pow2_bits_low by lia. apply E; lia.
  - rewrite !Z.mod_pow2_bits_high by lia. reflexivity.
Qed.
Lemma wrapb_bits b x n : 1 <= b -> 0 <= n < b -> Z.testbit (wrapb b x) n = Z.testbit x n.
Proof.
  intros H Hn. rewrite <- (Z.mod_pow2_bits_low _ b) by lia. rewrite wrapb_mod by auto. apply Z.mod_pow2_bits_low; lia.
Qed.

(** rotation *)
Definition rotw (b l : Z) (x : Z) : Z := Z.lor (wrapb b (Z.shiftl x l)) (Z.land (Z.shiftr x (b - l)) (Z.ones l)).
Lemma rotw_word b l x : 0 < l < b -> is_word b (rotw b l x).
Proof.
  intros H. apply word_lor; [lia|apply wrapb_word; lia|].
  rewrite Z.land_ones by lia. unfold is_word. pose proof (pow2_pos l ltac:(lia)). pose proof (pow2_pos (b-1) ltac:(lia)).
  pose proof (Z.mod_pos_bound (Z.shiftr x (b - l)) (2 ^ l) ltac:(lia)).
  assert (2 ^ l <= 2 ^ (b - 1)) by (apply Z.pow_le_mono_r; lia). lia.
Qed.
Lemma rotw_bits b l x n : 0 < l < b -> 0 <= n < b ->
  Z.testbit (rotw b l x) n = if n <? l then Z.testbit x (n + (b - l)) else Z.testbit x (n - l).
Proof.
  intros H Hn. unfold rotw. rewrite Z.lor_spec, Z.land_spec, wrapb_bits by lia.
  rewrite Z.shiftl_spec, Z.shiftr_spec by lia. destruct (Z.ltb_spec n l).
  - rewrite Z.ones_spec_low by lia. rewrite (Z.testbit_neg_r x (n - l)) by lia. now rewrite andb_true_r.
  - rewrite Z.ones_spec_high by lia. now rewrite andb_false_r, orb_false_r.
Qed.
Lemma rotw_inv b l x : 0 < l < b -> is_word b x -> rotw b (b - l) (rotw b l x) = x.
Proof.
  intros H W. apply (word_bits b); [lia|apply rotw_word; lia|auto|]. intros n Hn.
  rewrite rotw_bits by lia. destruct (Z.ltb_spec n (b - l)).
  - rewrite rotw_bits by lia. destruct (Z.ltb_spec (n + (b - (b - l))) l); [lia|]. f_equal; lia.
  - rewrite rotw_bits by lia. destruct (Z.ltb_spec (n - (b - l)) l); [|lia]. f_equal; lia.
Qed.

(** bijections compose *)
Lemma bij_comp {X} (D : X -> Prop) f g : bijective_on D f -> bijective_on D g -> bijective_on D (fun x => g (f x)).
Proof.
  intros (F1 & F2 & F3) (G1 & G2 & G3). repeat split; auto.
  intros y Hy. destruct (G3 y Hy) as (z & Hz & <-). destruct (F3 z Hz) as (x & Hx & <-). eauto.
Qed.
Lemma bij_ext {X} (D : X -> Prop) f g : (forall x, D x -> f x = g x) -> bijective_on D f -> bijective_on D g.
Proof.
  intros E (F1 & F2 & F3). repeat split.
  - intros x H. rewrite <- E; auto.
  - intros x y Hx Hy. rewrite <- !E by auto. auto.
  - intros y Hy. destruct (F3 y Hy) as (x & Hx & <-). exists x. now rewrite E.
Qed.
Lemma bij_inv {X} (D : X -> Prop) (f g : X -> X) :
  (forall x, D x -> D (f x)) -> (forall x, D x -> D (g x)) ->
  (forall x, D x -> g (f x) = x) -> (forall y, D y -> f (g y) = y) -> bijective_on D f.
Proof.
  intros F G E1 E2. repeat split; auto.
  - intros x y Hx Hy E. rewrite <- (E1 x), <- (E1 y), E; auto.
  - intros y Hy. exists (g y); auto.
Qed.

Lemma wrap_cancel b x a : 1 <= b -> is_word b x -> wrapb b (wrapb b (x + a) - a) = x.
Proof.
  intros H W. change (wrapb b (x + a) - a) with (wrapb b (x + a) + - a). rewrite wrapb_add_l by auto.
  replace (x + a + - a) with x by lia. now apply wrapb_id.
Qed.
Lemma wrap_cancel' b x a : 1 <= b -> is_word b x -> wrapb b (wrapb b (x - a) + a) = x.
Proof. intros H W. rewrite wrapb_add_l by auto. replace (x - a + a) with x by lia. now apply wrapb_id. Qed.

Lemma inject_bij b a c : 1 <= b -> bijective_on (word_pair b) (tf_inject b a c).
Proof.
  intros H. apply (bij_inv _ _ (fun x => (wrapb b (fst x - a), wrapb b (snd x - c)))); unfold word_pair, tf_inject; cbn.
  1,2: intros; split; now apply wrapb_word.
  - intros [x y] [X Y]; cbn in *. now rewrite !wrap_cancel.
  - intros [x y] [X Y]; cbn in *. now rewrite !wrap_cancel'.
Qed.

Definition good_round (b : Z) (lrm : Z * Z * Z) : bool :=
  let '(l, r, m) := lrm in (0 <? l) && (l <? b) && (r =? b - l) && (m =? Z.ones l).

Lemma lxor_cancel x y : Z.lxor (Z.lxor x y) y = x.
Proof. rewrite Z.lxor_assoc, Z.lxor_nilpotent, Z.lxor_0_r. reflexivity. Qed.

Lemma round_bij b lrm : good_round b lrm = true -> bijective_on (word_pair b) (tf_round b lrm).
Proof.
  destruct lrm as [[l r] m]. unfold good_round. intros G.
  assert (0 < l < b /\ r = b - l /\ m = Z.ones l) as (Hl & -> & ->) by lia. clear G.
  apply (bij_ext _ (fun x => let s := wrapb b (fst x + snd x) in (s, Z.lxor (rotw b l (snd x)) s))).
  { reflexivity. }
  apply (bij_inv _ _ (fun y => let x1 := rotw b (b - l) (Z.lxor (snd y) (fst y)) in (wrapb b (fst y - x1), x1)));
    unfold word_pair; cbn.
  - intros [x y] [X Y]; cbn in *. split; [apply wrapb_word; lia|].
    apply word_lxor; [lia|apply rotw_word; lia|apply wrapb_word; lia].
  - intros [x y] [X Y]; cbn in *. split; [apply wrapb_word; lia|apply rotw_word; lia].
  - intros [x y] [X Y]; cbn in *. rewrite lxor_cancel, rotw_inv by auto. rewrite wrap_cancel by (auto; lia). reflexivity.
  - intros [x y] [X Y]; cbn in *.
    assert (W : is_word b (Z.lxor y x)) by (apply word_lxor; auto; lia).
    rewrite wrap_cancel' by (auto; lia). f_equal.
    replace (rotw b l (rotw b (b - l) (Z.lxor y x))) with (Z.lxor y x); [apply lxor_cancel|].
    symmetry. rewrite <- (rotw_inv b (b - l) (Z.lxor y x)) at 2 by (auto; lia). f_equal. lia.
Qed.
Lemma rounds_bij b rs : forallb (good_round b) rs = true ->
  bijective_on (word_pair b) (fun x => fold_left (fun y r => tf_round b r y) rs x).
Proof.
  induction rs as [|r t IH]; cbn; intros H.
  - repeat split; auto; try (intros; eauto); apply H0.
  - apply andb_true_iff in H as [H1 H2]. apply (bij_comp _ (tf_round b r) _ (round_bij b r H1) (IH H2)).
Qed.
Lemma threefry_bij b sd k ra rb : 1 <= b -> forallb (good_round b) ra = true -> forallb (good_round b) rb = true ->
  bijective_on (word_pair b) (threefry b sd k ra rb).
Proof.
  intros Hb Ha Hr. unfold threefry.
  refine (bij_comp _ (fun x => fold_left _ rb (tf_inject b _ _ (fold_left _ ra (tf_inject b _ _ x)))) _ _ (inject_bij b _ _ Hb)).
  refine (bij_comp _ (fun x => tf_inject b _ _ (fold_left _ ra (tf_inject b _ _ x))) _ _ (rounds_bij b rb Hr)).
  refine (bij_comp _ (fun x => (fold_left _ ra (tf_inject b _ _ x))) _ _ (inject_bij b _ _ Hb)).
  exact (bij_comp _ (tf_inject b _ _) _ (inject_bij b _ _ Hb) (rounds_bij b ra Ha)).
Qed.
Lemma threefry32_bij sd : bijective_on (word_pair 32) (threefry32 sd).
Proof. apply threefry_bij; [lia|vm_compute; reflexivity..]. Qed.
Lemma threefry64_bij sd : bijective_on (word_pair 64) (threefry64 sd).
Proof. apply threefry_bij; [lia|vm_compute; reflexivity..]. Qed.
