(** Block Gram-Schmidt on global matrices (C96). *)
From Coq Require Import Ring.
From Verif Require Import Base QrSpec QrModel QrProofs QrProofs2 QrProps QrColModel QrColProofs OpsModel.
Open Scope nat_scope.
Section Glob.
Context {V : Type} (zero one : V) (add mul sub : V -> V -> V) (opp : V -> V) (conj : V -> V) (RT : ring_theory zero one add mul sub opp eq).
Context (conj_add : forall a b, conj (add a b) = add (conj a) (conj b)) (conj_mul : forall a b, conj (mul a b) = mul (conj a) (conj b)) (conj_conj : forall a, conj (conj a) = a).
Add Ring VR3 : RT.
Notation F := (nat -> nat -> V).
Notation vsum := (gsum zero add).
Let AC := ac zero one add mul sub opp RT. Let AA := aa zero one add mul sub opp RT. Let AZ := az zero one add mul sub opp RT.
Let vml := vsum_mul_l zero one add mul sub opp RT. Let vmr := vsum_mul_r zero one add mul sub opp RT. Let vconj := vsum_conj zero one add mul sub opp conj RT conj_add.
Let gS := gsum_app zero add AC AA AZ. Let gZ := gsum_zero zero add AC AA AZ. Let g1 := gsum_one zero add AC AA AZ. Let gX := gsum_swap zero add AC AA AZ.
Context (m n : nat) (A : F).
Notation dot X Y a b := (vsum m (fun x => mul (conj (X x a)) (Y x b))).
Definition nozero := forall a b, mul a b = zero -> a = zero \/ b = zero.
Definition delta (a b : nat) := if a =? b then one else zero.
Record J (s : nat) (Ac R Q : F) : Prop := {
  j_left : forall x j, x < m -> j < s -> A x j = vsum s (fun a => mul (Q x a) (R a j));
  j_right : forall x j, x < m -> s <= j -> j < n -> A x j = add (Ac x j) (vsum s (fun a => mul (Q x a) (R a j)));
  j_zero : forall p j, p < n -> p < m -> j < s -> j < p -> R p j = zero;
  j_orth : nozero -> (forall a, a < s -> R a a <> zero) ->
     (forall a b, a < s -> b < s -> dot Q Q a b = delta a b) /\ (forall a j, a < s -> s <= j -> j < n -> dot Q Ac a j = zero) }.

Lemma dot_conj (X Y : F) a b : dot X Y a b = conj (dot Y X b a).
Proof. rewrite vconj. apply gsum_ext. intros x _. rewrite conj_mul, conj_conj. ring. Qed.
Lemma dot_comb k (X Y : F) (c : nat -> V) (a : nat) (W : nat -> V) : (forall x, x < m -> W x = vsum k (fun t => mul (Y x t) (c t))) ->
  vsum m (fun x => mul (conj (X x a)) (W x)) = vsum k (fun t => mul (dot X Y a t) (c t)).
Proof.
  intros H. transitivity (vsum m (fun x => vsum k (fun t => mul (mul (conj (X x a)) (Y x t)) (c t)))).
  - apply gsum_ext. intros x Hx. rewrite H, vml by auto. apply gsum_ext. intros t _. ring.
  - rewrite gX. apply gsum_ext. intros t _. now rewrite <- vmr.
Qed.

Lemma J_step s s' (Ac R Q Ac' R' Q' Qn Rn : F) : J s Ac R Q -> s <= s' -> s' <= n -> s' <= m ->
  let w := s' - s in
  (forall a b, a < w -> b < w -> dot Qn Qn a b = delta a b) -> (forall a b, a < w -> b < w -> b < a -> Rn a b = zero) ->
  (forall x j, x < m -> j < w -> vsum w (fun t => mul (Qn x t) (Rn t j)) = Ac x (s + j)) ->
  (forall x a, x < m -> a < s -> Q' x a = Q x a) -> (forall x t, x < m -> t < w -> Q' x (s + t) = Qn x t) ->
  (forall p j, p < m -> p < n -> j < s -> R' p j = R p j) -> (forall p j, p < s -> j < n -> R' p j = R p j) ->
  (forall t j, t < w -> j < w -> R' (s + t) (s + j) = Rn t j) -> (forall p j, s' <= p -> p < m -> p < n -> s <= j -> j < s' -> R' p j = zero) ->
  (forall t j, t < w -> s' <= j -> j < n -> R' (s + t) j = dot Qn Ac t j) ->
  (forall x j, x < m -> s' <= j -> j < n -> Ac' x j = sub (Ac x j) (vsum w (fun t => mul (Qn x t) (dot Qn Ac t j)))) ->
  J s' Ac' R' Q'.
Proof.
  intros I L Ln Lm w QO RU QR EQ EQn ER0 ERs ERn ERz ERc EA. assert (Es : s' = s + w) by lia.
  assert (old : forall x j, x < m -> j < n -> vsum s (fun a => mul (Q' x a) (R' a j)) = vsum s (fun a => mul (Q x a) (R a j))) by (intros x j Hx Hj; apply gsum_ext; intros a Ha; rewrite EQ, ERs by auto; reflexivity).
  constructor.
  - intros x j Hx Hj. rewrite Es at 1. rewrite gS, old by (auto; lia). destruct (le_lt_dec s j) as [G|G].
    + rewrite (j_right _ _ _ _ I x j Hx G ltac:(lia)). rewrite AC. f_equal. replace j with (s + (j - s)) at 1 by lia. rewrite <- QR by (auto; lia). apply gsum_ext. intros t Ht. rewrite EQn by auto. f_equal. replace j with (s + (j - s)) at 2 by lia. rewrite ERn by lia. reflexivity.
    + rewrite (j_left _ _ _ _ I x j Hx G). rewrite (gZ w); [ring|]. intros t Ht. rewrite ER0 by lia. rewrite (j_zero _ _ _ _ I) by lia. ring.
  - intros x j Hx Hj Hn. rewrite Es at 1. rewrite gS, old by auto. rewrite EA by auto. rewrite (j_right _ _ _ _ I x j Hx ltac:(lia) Hn).
    replace (vsum w (fun i => mul (Q' x (s + i)) (R' (s + i) j))) with (vsum w (fun t => mul (Qn x t) (dot Qn Ac t j))); [ring|]. apply gsum_ext. intros t Ht. rewrite EQn, ERc by auto. reflexivity.
  - intros p j Hp Hpm Hj Hjp. destruct (le_lt_dec s j) as [G|G]; [|rewrite ER0 by auto; apply (j_zero _ _ _ _ I); auto].
    destruct (le_lt_dec s' p) as [G'|G']; [apply ERz; auto|]. replace p with (s + (p - s)) by lia. replace j with (s + (j - s)) by lia. rewrite ERn by lia. apply RU; lia.
  - intros ID HD. destruct (j_orth _ _ _ _ I ID) as [O1 O2]. { intros a Ha. rewrite <- ERs by lia. apply HD. lia. }
    assert (O3 : forall a b, a < s -> b < w -> dot Q Qn a b = zero).
    { intros a b Ha. revert b. apply (cancel zero one add mul sub opp conj RT conj_add conj_mul [] 0 ltac:(intros r Hr; inversion Hr) (le_n 0) w (fun b => dot Q Qn a b) Rn ID).
      - intros u v Hu Hv H. apply RU; auto.
      - intros u Hu. rewrite <- ERn by auto. apply HD. lia.
      - intros j Hj. rewrite <- (dot_comb w Q Qn (fun t => Rn t j) a (fun x => Ac x (s + j))); [apply O2; lia|]. intros x Hx. symmetry. apply QR; auto. }
    assert (Q'd : forall (Y : F) a b, a < s -> dot Q' Y a b = dot Q Y a b) by (intros Y a b Ha; apply gsum_ext; intros x Hx; rewrite EQ by auto; reflexivity).
    assert (Q'n : forall (Y : F) t b, t < w -> dot Q' Y (s + t) b = dot Qn Y t b) by (intros Y t b Ht; apply gsum_ext; intros x Hx; rewrite EQn by auto; reflexivity).
    assert (DQ : forall X : F, forall a b, b < s -> dot X Q' a b = dot X Q a b) by (intros X a b Hb; apply gsum_ext; intros x Hx; rewrite EQ by auto; reflexivity).
    assert (DN : forall X : F, forall a t, t < w -> dot X Q' a (s + t) = dot X Qn a t) by (intros X a t Ht; apply gsum_ext; intros x Hx; rewrite EQn by auto; reflexivity).
    split.
    + intros a b Ha Hb. destruct (le_lt_dec s a) as [Ga|Ga], (le_lt_dec s b) as [Gb|Gb].
      * replace a with (s + (a - s)) by lia. replace b with (s + (b - s)) by lia. rewrite Q'n, DN by lia. rewrite QO by lia. unfold delta. destruct (Nat.eqb_spec (a - s) (b - s)), (Nat.eqb_spec (s + (a - s)) (s + (b - s))); try reflexivity; lia.
      * replace a with (s + (a - s)) by lia. rewrite Q'n, DQ by lia. rewrite dot_conj, O3 by lia. rewrite (conj0 zero one add mul sub opp conj RT conj_add). unfold delta. destruct (Nat.eqb_spec (s + (a - s)) b); [lia|reflexivity].
      * replace b with (s + (b - s)) by lia. rewrite Q'd, DN by lia. rewrite O3 by lia. unfold delta. destruct (Nat.eqb_spec a (s + (b - s))); [lia|reflexivity].
      * rewrite Q'd, DQ by auto. apply O1; auto.
    + assert (DA : forall (X : F) a j, s' <= j -> j < n -> dot X Ac' a j = sub (dot X Ac a j) (vsum w (fun t => mul (dot X Qn a t) (dot Qn Ac t j)))).
      { intros X a j Hj Hn. rewrite <- (dot_comb w X Qn (fun t => dot Qn Ac t j) a (fun x => vsum w (fun t => mul (Qn x t) (dot Qn Ac t j)))) by auto.
        rewrite <- (vsum_sub zero one add mul sub opp RT). apply gsum_ext. intros x Hx. rewrite EA by auto. ring. }
      intros a j Ha Hj Hn. destruct (le_lt_dec s a) as [Ga|Ga].
      * replace a with (s + (a - s)) by lia. rewrite Q'n by lia. rewrite DA by auto. replace (vsum w (fun t => mul (dot Qn Qn (a - s) t) (dot Qn Ac t j))) with (dot Qn Ac (a - s) j); [ring|].
        rewrite <- (g1 w (a - s) (fun t => dot Qn Ac t j) ltac:(lia)). apply gsum_ext. intros t Ht. rewrite QO by lia. unfold delta. rewrite Nat.eqb_sym. destruct (a - s =? t); ring.
      * rewrite Q'd, DA by auto. rewrite O2 by lia. rewrite gZ; [ring|]. intros t Ht. rewrite O3 by auto. ring.
Qed.
Lemma J_init Q : J 0 A A Q.
Proof. constructor; try (intros; lia). - intros x j _ _ _. cbn. ring. - intros _ _. split; intros; lia. Qed.
End Glob.
