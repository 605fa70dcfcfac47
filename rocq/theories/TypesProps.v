(** C32 and C52: type promotion and casting. *)
From Coq Require Import List ZArith Bool String Lia Permutation.
From Verif Require Import Base TypesModel TypesSpec.
Import ListNotations.
Local Open Scope Z_scope.

Ltac cases t := unfold data in *; cbn [In data_types] in *; repeat match goal with H : _ \/ _ |- _ => destruct H end; subst; try easy.
Lemma data_forall (Q : ht -> bool) : forallb Q data_types = true -> forall t, data t -> Q t = true.
Proof. intros H t Ht. rewrite forallb_forall in H. now apply H. Qed.
Lemma data_forall2 (Q : ht -> ht -> bool) :
  forallb (fun a => forallb (Q a) data_types) data_types = true -> forall a b, data a -> data b -> Q a b = true.
Proof. intros H a b Ha Hb. apply (data_forall _ (data_forall _ H a Ha) b Hb). Qed.
Lemma data_forall3 (Q : ht -> ht -> ht -> bool) :
  forallb (fun a => forallb (fun b => forallb (Q a b) data_types) data_types) data_types = true ->
  forall a b c, data a -> data b -> data c -> Q a b c = true.
Proof. intros H a b c Ha Hb Hc. apply (data_forall _ (data_forall _ (data_forall _ H a Ha) b Hb) c Hc). Qed.
Definition oeqb (a b : option ht) : bool :=
  match a, b with Some x, Some y => ht_eqb x y | None, None => true | _, _ => false end.
Lemma ht_eqb_eq a b : ht_eqb a b = true <-> a = b.
Proof. unfold ht_eqb. destruct (ht_eq_dec a b); split; congruence. Qed.
Lemma oeqb_eq a b : oeqb a b = true -> a = b.
Proof. destruct a, b; cbn; try easy. intros H. apply ht_eqb_eq in H. congruence. Qed.

(** promote_types of any two data types succeeds with a data type, is symmetric,
    idempotent and associative. *)
Theorem C32_promote_lattice : forall a b, data a -> data b ->
  exists c, promote a b = Some c /\ data c /\ promote b a = Some c /\ promote a a = Some a /\
    can_cast a c CIntuitive = true /\ can_cast b c CIntuitive = true.
Proof.
  intros a b Ha Hb.
  pose (Q a b := match promote a b with None => false | Some c =>
    ht_in c data_types && oeqb (promote b a) (Some c) && oeqb (promote a a) (Some a) && can_cast a c CIntuitive && can_cast b c CIntuitive end).
  assert (H : Q a b = true) by (apply (data_forall2 Q); [vm_compute; reflexivity|auto..]). unfold Q in H.
  destruct (promote a b) as [c|]; [|easy]. exists c. rewrite !andb_true_iff in H. destruct H as ((((H1 & H2) & H3) & H4) & H5).
  unfold ht_in in H1. destruct (in_dec ht_eq_dec c data_types); [|easy]. repeat split; auto using oeqb_eq.
Qed.
Print Assumptions C32_promote_lattice.
Theorem C32_promote_associative : forall a b c ab bc, data a -> data b -> data c ->
  promote a b = Some ab -> promote b c = Some bc -> promote ab c = promote a bc.
Proof.
  intros a b c ab bc Ha Hb Hc E1 E2.
  pose (Q a b c := match promote a b, promote b c with Some x, Some y => oeqb (promote x c) (promote a y) | _, _ => true end).
  assert (H : Q a b c = true) by (apply (data_forall3 Q); [vm_compute; reflexivity|auto..]). unfold Q in H.
  rewrite E1, E2 in H. now apply oeqb_eq.
Qed.
Print Assumptions C32_promote_associative.
(** The promoted type is the smallest one (fewest bits, then lowest kind) both can be cast to. *)
Theorem C32_promote_smallest : forall a b c t, data a -> data b -> data t -> promote a b = Some c ->
  can_cast a t CIntuitive = true -> can_cast b t CIntuitive = true ->
  bits c < bits t \/ (bits c = bits t /\ (kind c <= kind t)%nat).
Proof.
  intros a b c t Ha Hb Ht E C1 C2.
  pose (Q a b t := match promote a b with None => true | Some c =>
     negb (can_cast a t CIntuitive && can_cast b t CIntuitive) || (bits c <? bits t) || ((bits c =? bits t) && (kind c <=? kind t)%nat) end).
  assert (H : Q a b t = true) by (apply (data_forall3 Q); [vm_compute; reflexivity|auto..]). unfold Q in H.
  rewrite E, C1, C2 in H. cbn [andb negb orb] in H. lia.
Qed.
Print Assumptions C32_promote_smallest.
Example C32_instance : data HInt8 /\ data HUint8 /\ promote HInt8 HUint8 = Some HInt16 /\ promote HInt32 HFloat32 = Some HFloat32 /\
  promote HInt64 HFloat32 = Some HFloat64. Proof. repeat split; cbn; auto 20. Qed.

(** safe casting is a partial order, each rule allows everything the stricter one allows *)
Theorem C32_safe_order : forall a b c, data a -> data b -> data c ->
  can_cast a a CSafe = true /\
  (can_cast a b CSafe = true -> can_cast b c CSafe = true -> can_cast a c CSafe = true) /\
  (can_cast a b CSafe = true -> can_cast b a CSafe = true -> a = b).
Proof.
  intros a b c Ha Hb Hc.
  pose (Q a b c := can_cast a a CSafe && (negb (can_cast a b CSafe && can_cast b c CSafe) || can_cast a c CSafe)
     && (negb (can_cast a b CSafe && can_cast b a CSafe) || ht_eqb a b)).
  assert (H : Q a b c = true) by (apply (data_forall3 Q); [vm_compute; reflexivity|auto..]). unfold Q in H.
  rewrite !andb_true_iff in H. destruct H as ((H1 & H2) & H3). split; [auto|]. split.
  - intros E1 E2. rewrite E1, E2 in H2. exact H2.
  - intros E1 E2. rewrite E1, E2 in H3. now apply ht_eqb_eq.
Qed.
Print Assumptions C32_safe_order.
Theorem C32_rules_nested_partial : forall a b, data a -> data b ->
  (can_cast a b CNo = true -> can_cast a b CSafe = true) /\ (can_cast a b CSafe = true -> can_cast a b CIntuitive = true) /\
  (can_cast a b CNo = true -> can_cast a b CSameKind = true) /\
  can_cast a b CUnsafe = true /\ (can_cast a b CSameKind = true <-> kind a = kind b).
Proof.
  intros a b Ha Hb.
  pose (Q a b := (negb (can_cast a b CNo) || can_cast a b CSafe) && (negb (can_cast a b CSafe) || can_cast a b CIntuitive)
     && (negb (can_cast a b CNo) || can_cast a b CSameKind) && Bool.eqb (can_cast a b CSameKind) (kind a =? kind b)%nat).
  assert (H : Q a b = true) by (apply (data_forall2 Q); [vm_compute; reflexivity|auto..]). unfold Q in H.
  rewrite !andb_true_iff in H. destruct H as (((H1 & H2) & H3) & H4). apply eqb_prop in H4.
  repeat split; try (intros E; rewrite E in *; auto; fail).
  - intros E. rewrite E in H4. symmetry in H4. now apply Nat.eqb_eq.
  - intros E. rewrite H4. now apply Nat.eqb_eq.
Qed.
Print Assumptions C32_rules_nested_partial.
(** ... but, against the documentation, not every safe cast is a same_kind cast *)
Theorem C32_safe_not_same_kind_refuted : can_cast HInt8 HFloat32 CSafe = true /\ can_cast HInt8 HFloat32 CSameKind = false.
Proof. split; reflexivity. Qed.

(** * C52: values survive *)
Lemma same_refl x : same_number x x. Proof. unfold same_number. cbv zeta. rewrite Z.min_id. reflexivity. Qed.
Lemma int_float lo hi p emin emax x : - 2 ^ p < lo -> hi < 2 ^ p -> emin <= 0 <= emax -> 0 <= p ->
  is_integer_in lo hi x -> is_float p emin emax x.
Proof. intros H1 H2 H3 Hp (n & Hn & S). exists n, 0. repeat split; auto; lia. Qed.
Lemma int_int lo hi lo' hi' x : lo' <= lo -> hi <= hi' -> is_integer_in lo hi x -> is_integer_in lo' hi' x.
Proof. intros H1 H2 (n & Hn & S). exists n. split; auto. lia. Qed.
Lemma float_float p emin emax p' emin' emax' x : 0 <= p <= p' -> emin' <= emin -> emax <= emax' -> is_float p emin emax x -> is_float p' emin' emax' x.
Proof.
  intros Hp H1 H2 (m & e & Hm & He & S). exists m, e. split; [|split; [lia|auto]].
  pose proof (Z.pow_le_mono_r 2 p p' ltac:(lia) ltac:(lia)). lia.
Qed.
Lemma zero_float p emin emax x : 0 <= p -> emin <= emax -> mant x = 0 -> is_float p emin emax x.
Proof.
  intros Hp He Hx. exists 0, emin. split; [rewrite Z.abs_0; apply Z.pow_pos_nonneg; lia|]. split; [lia|].
  unfold same_number. cbn [mant]. rewrite Hx. lia.
Qed.
Ltac real_case := 
  first [ assumption | eapply int_int; [| |eassumption]; lia
        | eapply int_float; [| | | |eassumption]; lia
        | eapply float_float; [| | |eassumption]; lia
        | apply zero_float; [lia|lia|assumption] ].
Definition lossy (a b : ht) : bool := ht_eqb a HInt64 && (ht_eqb b HFloat64 || ht_eqb b HComplex128).
(** A safe cast preserves every number.  Restriction: not int64 to float64 / complex128. *)
Theorem C52_safe_preserves_partial : forall a b, data a -> data b -> can_cast a b CSafe = true -> lossy a b = false ->
  holds_all_of b a.
Proof.
  intros a b Ha Hb C L. cases a; vm_compute in C; try discriminate; vm_compute in L; try discriminate;
    intros re im (R & E & Hre & Him); cbn in E; injection E as <-; eexists; (split; [reflexivity|]);
    (split; [real_case|]); cbn [ht_eq_dec ht_rec ht_rect] in *; cbn in Him |- *; real_case.
Qed.
Print Assumptions C52_safe_preserves_partial.
Lemma odd_not_float n p emin emax : 0 <= p -> Z.odd n = true -> 2 ^ p <= Z.abs n -> ~ is_float p emin emax (D n 0).
Proof.
  intros Hp Ho Hn (m & e & Hm & He & S). unfold same_number in S. cbn [mant expo] in S. cbv zeta in S.
  destruct (Z.le_gt_cases 0 e) as [Le|Gt].
  - rewrite Z.min_l in S by lia. rewrite !Z.sub_0_r, Z.pow_0_r, Z.mul_1_r in S.
    destruct (Z.eq_dec e 0) as [->|Ne]; [rewrite Z.pow_0_r in S; lia|].
    rewrite S, Z.odd_mul, Z.odd_pow in Ho by lia. destruct (Z.odd m); discriminate.
  - rewrite Z.min_r in S by lia. rewrite Z.sub_diag, Z.pow_0_r, Z.mul_1_r in S.
    assert (1 <= 2 ^ (0 - e)) by (apply (Z.pow_le_mono_r 2 0); lia).
    rewrite <- S, Z.abs_mul, (Z.abs_eq (2 ^ (0 - e))) in Hm by lia. set (w := 2 ^ (0 - e)) in *. clearbody w.
    pose proof (Z.abs_nonneg n). set (u := Z.abs n) in *. set (v := 2 ^ p) in *. clearbody u v. clear - Hm Hn H H0. nia.
Qed.
Lemma half_not_int lo hi : ~ is_integer_in lo hi (D 1 (-1)).
Proof. intros (n & _ & S). unfold same_number in S. cbn [mant expo] in S. cbv zeta in S. change (Z.min (-1) 0) with (-1) in S.
  change (2 ^ (-1 - -1)) with 1 in S. change (2 ^ (0 - -1)) with 2 in S. lia. Qed.
Lemma out_of_range lo hi n : n < lo \/ hi < n -> ~ is_integer_in lo hi (D n 0).
Proof. intros H (m & Hm & S). unfold same_number in S. cbn [mant expo] in S. rewrite Z.min_id, Z.sub_diag, Z.pow_0_r in S. lia. Qed.

(** a number that type [a] holds and type [b] does not *)
Definition witness (a b : ht) : dyadic * dyadic :=
  let zero := D 0 0 in
  match a, b with
  | HComplex128, HComplex64 => (D (2 ^ 53 - 1) 0, zero)
  | HComplex64, HComplex64 => (zero, zero)
  | (HComplex64 | HComplex128), _ => (zero, D 1 0)
  | (HFloat16 | HFloat32 | HFloat64), (HBool | HUint8 | HInt8 | HInt16 | HInt32 | HInt64) => (D 1 (-1), zero)
  | HFloat32, _ => (D (2 ^ 24 - 1) 0, zero)
  | HFloat64, _ => (D (2 ^ 53 - 1) 0, zero)
  | HUint8, (HBool | HInt8) => (D 255 0, zero)
  | HUint8, _ | HBool, _ => (zero, zero)
  | HInt16, (HFloat16 | HInt8) => (D 32767 0, zero)
  | HInt32, (HFloat16 | HFloat32 | HComplex64 | HInt8 | HInt16) => (D (2 ^ 31 - 1) 0, zero)
  | HInt64, (HFloat16 | HFloat32 | HComplex64 | HFloat64 | HComplex128 | HInt8 | HInt16 | HInt32) => (D (2 ^ 63 - 1) 0, zero)
  | HInt8, HUint8 => (D (-1) 0, zero)
  | _, (HUint8 | HBool) => (D (-1) 0, zero)
  | _, _ => (zero, zero)
  end.
Lemma witness_held a b : data a -> data b -> holds a (fst (witness a b)) (snd (witness a b)).
Proof.
  intros Ha Hb. cases a; eexists; (split; [reflexivity|]); cbn [witness fst snd]; (split; [|cbn]);
    first [ reflexivity
          | match goal with |- is_integer_in _ _ (D ?n _) => exists n; split; [vm_compute; split; congruence|apply same_refl] end
          | match goal with |- is_float _ _ _ (D ?n ?e) => exists n, e; split; [vm_compute; reflexivity|split; [vm_compute; split; congruence|apply same_refl]] end ].
Qed.
Lemma witness_lost a b : data a -> data b -> can_cast a b CSafe = false \/ lossy a b = true ->
  ~ holds b (fst (witness a b)) (snd (witness a b)).
Proof.
  intros Ha Hb. cases a; intros C (R & E & Hre & Him); vm_compute in C; try (destruct C; discriminate); cbn in E; injection E as <-; cbn in Hre, Him; try discriminate Him;
    first [ now apply half_not_int in Hre
          | apply out_of_range in Hre; [exact Hre|vm_compute; first [left; reflexivity|right; reflexivity]]
          | apply odd_not_float in Hre; [exact Hre|lia|reflexivity|vm_compute; congruence] ].
Qed.
(** ... and the safe casts (with the same exception) are all the value preserving ones *)
Theorem C52_safe_iff_preserves : forall a b, data a -> data b ->
  (holds_all_of b a <-> can_cast a b CSafe = true /\ lossy a b = false).
Proof.
  intros a b Ha Hb. split.
  - intros H. pose proof (H _ _ (witness_held a b Ha Hb)) as K.
    destruct (can_cast a b CSafe) eqn:C; [|exfalso; apply (witness_lost a b Ha Hb); auto].
    destruct (lossy a b) eqn:L; [exfalso; apply (witness_lost a b Ha Hb); auto|auto].
  - intros [C L]. now apply C52_safe_preserves_partial.
Qed.
Print Assumptions C52_safe_iff_preserves.
(** int64 to float64 counts as safe but changes 2^63 - 1 *)
Theorem C52_int64_float64_refuted : can_cast HInt64 HFloat64 CSafe = true /\
  holds HInt64 (D (2 ^ 63 - 1) 0) (D 0 0) /\ ~ holds HFloat64 (D (2 ^ 63 - 1) 0) (D 0 0).
Proof.
  split; [reflexivity|]. split.
  - apply (witness_held HInt64 HFloat64); cbn; auto 20.
  - apply (witness_lost HInt64 HFloat64); cbn; auto 20.
Qed.
Print Assumptions C52_int64_float64_refuted.
(** the type two operands are promoted to holds all values of both, except for 16, 32 and 64
    bit integers that meet a floating point type *)
Theorem C52_promotion_preserves : forall a b c, data a -> data b -> promote a b = Some c ->
  holds_all_of c a \/ ((a = HInt16 \/ a = HInt32 \/ a = HInt64) /\ (2 <= kind b)%nat).
Proof.
  intros a b c Ha Hb E.
  pose (Q a b := match promote a b with None => true | Some c =>
     (ht_in c data_types && can_cast a c CSafe && negb (lossy a c)) || ((ht_eqb a HInt16 || ht_eqb a HInt32 || ht_eqb a HInt64) && (2 <=? kind b)%nat) end).
  assert (H : Q a b = true) by (apply (data_forall2 Q); [vm_compute; reflexivity|auto..]). unfold Q in H. rewrite E in H.
  apply orb_true_iff in H. destruct H as [H|H].
  - left. rewrite !andb_true_iff, negb_true_iff in H. destruct H as ((H1 & H2) & H3).
    apply C52_safe_preserves_partial; auto. unfold ht_in in H1. destruct (in_dec ht_eq_dec c data_types); easy.
  - right. rewrite andb_true_iff, !orb_true_iff, !ht_eqb_eq in H. destruct H as [H1 H2]. split; [tauto|lia].
Qed.
Print Assumptions C52_promotion_preserves.
Example C52_instance : holds_all_of HFloat32 HInt16 /\ ~ holds_all_of HFloat16 HInt16.
Proof. split; [apply C52_safe_iff_preserves; cbn; auto 20|]. intros H. apply C52_safe_iff_preserves in H; cbn; auto 20. destruct H; discriminate. Qed.

(** * C53: names of types *)
(** Every type string, Python, NumPy or torch type denotes at most one Heat type: the answer
    does not depend on the (arbitrary) order in which Python enumerates the classes. *)
Theorem C53_canonical_order_independent : forall all k, (forall t, In t all <-> In t leaves) ->
  canonical all k = canonical leaves k.
Proof.
  intros all k H. destruct k as [s|b|t|t|t]; try reflexivity; unfold canonical;
    match goal with |- context [find ?f all] => set (F := f) end;
    (assert (U : forall x y, F x = true -> F y = true -> x = y);
     [ intros x y Hx Hy; unfold F in Hx, Hy;
       destruct (in_dec key_eq_dec _ (mappings x)) as [Ix|]; [|easy]; destruct (in_dec key_eq_dec _ (mappings y)) as [Iy|]; [|easy];
       destruct x; cbn [mappings In] in Ix; try tauto; repeat (destruct Ix as [Ix|Ix]; [injection Ix as <- || discriminate Ix|]); try tauto;
       destruct y; cbn [mappings In] in Iy; try tauto; repeat (destruct Iy as [Iy|Iy]; [discriminate Iy || reflexivity|]); try tauto
     | destruct (find F all) as [x|] eqn:E1; destruct (find F leaves) as [y|] eqn:E2; auto;
       [ apply find_some in E1; apply find_some in E2; f_equal; apply U; tauto
       | apply find_some in E1; destruct E1 as [I Fx]; apply H in I; rewrite (find_none _ _ E2 _ I) in Fx; discriminate
       | apply find_some in E2; destruct E2 as [I Fx]; apply H in I; rewrite (find_none _ _ E1 _ I) in Fx; discriminate ] ]).
Qed.
Print Assumptions C53_canonical_order_independent.
(** every data type is found under its NumPy and its torch type *)
Theorem C53_round_trip : forall t, data t -> canonical leaves (KNp t) = Ok t /\ canonical leaves (KTorch t) = Ok t /\ canonical leaves (KHeat t) = Ok t.
Proof. intros t Ht. cases t; repeat split; reflexivity. Qed.
Print Assumptions C53_round_trip.
(** the names of the Heat types themselves are not understood *)
Theorem C53_own_names_refuted : canonical leaves (KStr "int32") = Err TypeError /\ canonical leaves (KStr "float32") = Err TypeError /\ canonical leaves (KStr "i4") = Ok HInt32.
Proof. repeat split; reflexivity. Qed.

(** * C54: result_type *)
Definition arg_ok (a : ht * nat) : Prop := data (fst a) /\ (snd a < 4)%nat.
Lemma combine2_ok a b : arg_ok a -> arg_ok b -> exists t,
  combine2 a b = Some (t, Nat.min (snd a) (snd b)) /\ data t /\ kind t = Nat.max (kind (fst a)) (kind (fst b)) /\
  combine2 b a = Some (t, Nat.min (snd a) (snd b)) /\ (snd a = snd b -> promote (fst a) (fst b) = Some t) /\
  ((snd a < snd b)%nat -> kind (fst a) = kind (fst b) -> t = fst a).
Proof.
  destruct a as [t1 p1], b as [t2 p2]. unfold arg_ok. cbn [fst snd]. intros [Ha Hp] [Hb Hq].
  pose (okb t1 p1 t2 p2 := match combine2 (t1, p1) (t2, p2), combine2 (t2, p2) (t1, p1) with
     | Some (t, p), Some (t', p') => ht_in t data_types && (p =? Nat.min p1 p2)%nat && (kind t =? Nat.max (kind t1) (kind t2))%nat
          && ht_eqb t t' && (p =? p')%nat && (negb (p1 =? p2)%nat || oeqb (promote t1 t2) (Some t))
          && (negb ((p1 <? p2)%nat && (kind t1 =? kind t2)%nat) || ht_eqb t t1)
     | _, _ => false end).
  assert (H : okb t1 p1 t2 p2 = true).
  { assert (F : forallb (fun p1 => forallb (fun p2 => forallb (fun t1 => forallb (fun t2 => okb t1 p1 t2 p2) data_types) data_types) [0;1;2;3]%nat) [0;1;2;3]%nat = true)
      by (vm_compute; reflexivity).
    rewrite forallb_forall in F. specialize (F p1 ltac:(cbn; lia)). rewrite forallb_forall in F. specialize (F p2 ltac:(cbn; lia)).
    rewrite forallb_forall in F. specialize (F t1 Ha). rewrite forallb_forall in F. apply (F t2 Hb). }
  unfold okb in H. destruct (combine2 (t1, p1) (t2, p2)) as [[t p]|]; [|easy]. destruct (combine2 (t2, p2) (t1, p1)) as [[t' p']|]; [|easy].
  rewrite !andb_true_iff in H. destruct H as ((((((H1 & H2) & H3) & H4) & H5) & H6) & H7).
  apply ht_eqb_eq in H4. subst t'. apply Nat.eqb_eq in H2, H3, H5. subst p'. rewrite H2 in *.
  exists t. unfold ht_in in H1. destruct (in_dec ht_eq_dec t data_types) as [Hd|]; [|easy]. repeat split; auto.
  - intros E. rewrite E, Nat.eqb_refl in H6. now apply oeqb_eq.
  - intros E K. apply Nat.ltb_lt in E. apply Nat.eqb_eq in K. rewrite E, K in H7. now apply ht_eqb_eq.
Qed.
(** result_type of any number of arguments: it succeeds; the kind of the result is the
    highest kind among the arguments *)
Theorem C54_result_kind : forall a rest, arg_ok a -> Forall arg_ok rest ->
  exists t, result_type a rest = Some t /\ data t /\
    kind t = fold_right (fun b k => Nat.max (kind (fst b)) k) (kind (fst a)) rest.
Proof.
  assert (G : forall rest a, arg_ok a -> Forall arg_ok rest -> exists r, result_rec a rest = Some r /\ arg_ok r /\
     kind (fst r) = fold_right (fun b k => Nat.max (kind (fst b)) k) (kind (fst a)) rest).
  { induction rest as [|b rest IH]; intros a Ha F; [exists a; auto|]. inversion_clear F as [|? ? Hb Hr].
    destruct (IH b Hb Hr) as (r & E & Hk & K). destruct (combine2_ok a r Ha Hk) as (t & C & Hd & Kt & _).
    cbn [result_rec]. rewrite E, C. eexists. split; [reflexivity|]. cbn [fst]. split.
    - split; cbn; auto. destruct Ha, Hk. lia.
    - rewrite Kt, K. cbn [fold_right]. clear. generalize (kind (fst a)), (kind (fst b)). intros x y.
      induction rest as [|c l IH]; cbn [fold_right]; lia. }
  intros a rest Ha F. destruct (G rest a Ha F) as ([t p] & E & [Hd _] & K). exists t. unfold result_type. rewrite E. auto.
Qed.
Print Assumptions C54_result_kind.
(** two arguments: symmetric; equal precedence promotes; otherwise an array's type is kept
    against scalars of the same kind *)
Theorem C54_result_two : forall a b, arg_ok a -> arg_ok b ->
  result_type a [b] = result_type b [a] /\
  (snd a = snd b -> result_type a [b] = promote (fst a) (fst b)) /\
  ((snd a < snd b)%nat -> kind (fst a) = kind (fst b) -> result_type a [b] = Some (fst a)).
Proof.
  intros a b Ha Hb. destruct (combine2_ok a b Ha Hb) as (t & C & _ & _ & C' & P & Q). unfold result_type. cbn [result_rec].
  rewrite C, C'. cbn. split; [auto|]. split; [intros E; now rewrite P|intros E K; now rewrite Q].
Qed.
Print Assumptions C54_result_two.
(** three arguments: the order matters *)
Theorem C54_order_refuted :
  result_type (HInt64, 0%nat) [(HFloat16, 1%nat); (HFloat64, 2%nat)] = Some HFloat16 /\
  result_type (HFloat16, 1%nat) [(HInt64, 0%nat); (HFloat64, 2%nat)] = Some HFloat64.
Proof. split; reflexivity. Qed.
Example C54_instance : arg_ok (HInt32, 0%nat) /\ arg_ok (HFloat64, 3%nat) /\ result_type (HInt32, 0%nat) [(HFloat64, 3%nat)] = Some HFloat64.
Proof. repeat split; cbn; auto 20; lia. Qed.
