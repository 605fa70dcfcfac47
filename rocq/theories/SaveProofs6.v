(** Proofs for C47, part 6: smallest and largest element, column width. *)
From Coq Require Import NArith QArith Qround Qabs Qminmax Lia Psatz.
From Verif Require Import Base BaseLemmas LayoutModel NdSpec TensorSpec TensorLemmas OpsModel ShapeModel ShapeProps CsvSpec UniqueProps SaveSpec SaveModel SaveProofs SaveProofs2 SaveProofs3 SaveProofs4 SaveProofs5.
Open Scope nat_scope.

Lemma qmin_fold l : forall q, let r := fold_left Qmin l q in (r = q \/ In r l) /\ (r <= q)%Q /\ forall v, In v l -> (r <= v)%Q.
Proof.
  induction l as [|a l IH]; intros q; cbn [fold_left]; [split; [auto|]; split; [apply Qle_refl|intros v []]|].
  destruct (IH (Qmin q a)) as (H1 & H2 & H3). cbn zeta in *. split; [|split].
  - destruct H1 as [H1|H1]; [|right; now right]. rewrite H1. unfold Qmin, GenericMinMax.gmin. destruct (q ?= a)%Q; [left|left|right; left]; reflexivity.
  - eapply Qle_trans; [exact H2|apply Q.le_min_l].
  - intros v [<-|Hv]; [|now apply H3]. eapply Qle_trans; [exact H2|apply Q.le_min_r].
Qed.
Lemma qmax_fold l : forall q, let r := fold_left Qmax l q in (r = q \/ In r l) /\ (q <= r)%Q /\ forall v, In v l -> (v <= r)%Q.
Proof.
  induction l as [|a l IH]; intros q; cbn [fold_left]; [split; [auto|]; split; [apply Qle_refl|intros v []]|].
  destruct (IH (Qmax q a)) as (H1 & H2 & H3). cbn zeta in *. split; [|split].
  - destruct H1 as [H1|H1]; [|right; now right]. rewrite H1. unfold Qmax, GenericMinMax.gmax. destruct (q ?= a)%Q; [left|right; left|left]; reflexivity.
  - eapply Qle_trans; [apply Q.le_max_l|exact H2].
  - intros v [<-|Hv]; [|now apply H3]. eapply Qle_trans; [apply Q.le_max_r|exact H2].
Qed.

(** [lo] and [hi] are the extreme values of the array *)
Definition extremes {V} (val : V -> Q) (gsh : list Z) (G : list Z -> V) (lo hi : Q) : Prop :=
  (forall idx, in_bounds gsh idx -> lo <= val (G idx) /\ val (G idx) <= hi)%Q /\
  (exists idx, in_bounds gsh idx /\ lo = val (G idx)) /\ (exists idx, in_bounds gsh idx /\ hi = val (G idx)).
Lemma extremes_eq {V} (val : V -> Q) gsh G lo hi lo' hi' : extremes val gsh G lo hi -> extremes val gsh G lo' hi' -> (lo == lo')%Q /\ (hi == hi')%Q.
Proof.
  intros (A1 & (i1 & B1 & ->) & (j1 & C1 & ->)) (A2 & (i2 & B2 & ->) & (j2 & C2 & ->)).
  split; apply Qle_antisym; try apply A1; try apply A2; auto.
Qed.
Lemma extreme_ok {V} (nt : numtype V) x cnts G idx0 : rep x cnts G -> 0 < length (d_locals x) -> in_bounds (d_gshape x) idx0 ->
  exists lo hi, extreme Qmin nt x = Ok lo /\ extreme Qmax nt x = Ok hi /\ extremes (nt_val nt) (d_gshape x) G lo hi.
Proof.
  intros HR HP Hi. assert (LC : length (d_locals x) = length cnts) by (unfold rep in HR; destruct HR; auto).
  destruct (@rep_elements V x G cnts HR ltac:(lia)) as [E1 E2].
  assert (MEM : forall q, In q (map (nt_val nt) (flat_map flat (d_locals x))) <-> exists idx, in_bounds (d_gshape x) idx /\ q = nt_val nt (G idx)).
  { intros q. rewrite in_map_iff. split.
    - intros (v & <- & Hv). apply in_flat_map in Hv as (t & Ht & Hv). destruct (E1 t v Ht Hv) as (idx & B & ->). eauto.
    - intros (idx & B & ->). destruct (E2 idx B) as (t & Ht & Hv & _). exists (G idx). split; auto. apply in_flat_map. eauto. }
  unfold extreme. destruct (map (nt_val nt) (flat_map flat (d_locals x))) as [|q qs] eqn:EL.
  - destruct (proj2 (MEM (nt_val nt (G idx0)))). eauto.
  - exists (fold_left Qmin qs q), (fold_left Qmax qs q). split; [reflexivity|]. split; [reflexivity|].
    destruct (qmin_fold qs q) as (M1 & M2 & M3). destruct (qmax_fold qs q) as (X1 & X2 & X3). cbn zeta in *. split; [|split].
    + intros idx B. destruct (proj2 (MEM (nt_val nt (G idx)))) as [Y|Y]; [eauto|rewrite <- Y; auto|auto].
    + apply MEM. destruct M1 as [->|M1]; [now left|now right].
    + apply MEM. destruct X1 as [->|X1]; [now left|now right].
Qed.

Lemma qneg_iff q : qneg q = true <-> (q < 0)%Q.
Proof. unfold qneg, Qlt. cbn. rewrite Z.ltb_lt. lia. Qed.
Lemma qpos_iff q : qpos q = true <-> (0 < q)%Q.
Proof. unfold qpos, Qlt. cbn. rewrite Z.ltb_lt. lia. Qed.
Lemma bool_iff (a b : bool) : (a = true <-> b = true) -> a = b.
Proof. destruct a, b; intuition congruence. Qed.
Definition width lg k lo hi := item_size k (sign_width lo) (pre_point_digits lg lo hi).
Lemma width_eq lg k lo hi lo' hi' : (forall p q, (p == q)%Q -> lg p = lg q) -> (lo == lo')%Q -> (hi == hi')%Q -> width lg k lo hi = width lg k lo' hi'.
Proof.
  intros LG E1 E2. unfold width, item_size, sign_width, pre_point_digits.
  assert (X1 : qneg lo = qneg lo') by (apply bool_iff; rewrite !qneg_iff, E1; tauto).
  assert (X2 : qpos (Qabs lo) = qpos (Qabs lo')) by (apply bool_iff; rewrite !qpos_iff, E1; tauto).
  assert (X3 : qpos (Qabs hi) = qpos (Qabs hi')) by (apply bool_iff; rewrite !qpos_iff, E2; tauto).
  rewrite X1, X2, X3. rewrite (LG (Qmax (Qabs hi) (Qabs lo)) (Qmax (Qabs hi') (Qabs lo'))); [reflexivity|]. now rewrite E1, E2.
Qed.

Definition one_or_two (gsh : list Z) : Prop := (exists n, gsh = [Z.of_nat (S n)]) \/ exists n c, gsh = [Z.of_nat (S n); Z.of_nat (S c)].
Theorem save_generic (V : Type) lg enc (nt : numtype V) gsh (G : list Z -> V) (head : option (list (list nat))) sep :
  (forall p q, (p == q)%Q -> lg p = lg q) -> (forall l, length (enc l) = length l) -> one_or_two gsh ->
  (forall lo hi, extremes (nt_val nt) gsh G lo hi -> forall idx, in_bounds gsh idx -> (Z.of_nat (length (nt_text nt (G idx))) <= width lg (nt_kind nt) lo hi)%Z) ->
  exists w, forall x cnts, d_gshape x = gsh -> 0 < length (d_locals x) -> rep x cnts G ->
  exists out, save_csv lg enc nt x (twice head) [sep] = Ok out /\ forall old f, outcome old out f ->
    let text := csv_text enc (hlines head) sep w (nt_text nt) (array_rows gsh G) in f = text ++ skipn (length text) old.
Proof.
  intros LG HEnc HG HF. assert (Hi : exists idx, in_bounds gsh idx).
  { destruct HG as [(n & ->)|(n & c & ->)]; [exists [0%Z]|exists [0%Z; 0%Z]]; repeat constructor; cbn; lia. }
  destruct Hi as (idx0 & Hi).
  assert (R0 : rep (mk_dnd [mk_arr gsh G] gsh None) [0%Z] G).
  { split; [reflexivity|]. cbn [d_gshape d_split d_locals]. split.
    - destruct HG as [(n & ->)|(n & c & ->)]; repeat constructor; lia.
    - intros t [<-|[]]. split; [reflexivity|auto]. }
  destruct (extreme_ok nt _ _ _ idx0 R0 ltac:(cbn; lia) Hi) as (lo0 & hi0 & _ & _ & X0). cbn [d_gshape] in X0.
  assert (W0 : (0 <= width lg (nt_kind nt) lo0 hi0)%Z) by (specialize (HF _ _ X0 _ Hi); lia).
  exists (Z.to_nat (width lg (nt_kind nt) lo0 hi0)). intros x cnts Hx HP HR. rewrite <- Hx in Hi.
  destruct (extreme_ok nt x cnts G idx0 HR HP Hi) as (lo & hi & Elo & Ehi & X). rewrite Hx in X. destruct (extremes_eq _ _ _ _ _ _ _ X0 X) as [Q1 Q2].
  rewrite (width_eq lg (nt_kind nt) lo0 hi0 lo hi LG Q1 Q2) in *. set (W := Z.to_nat (width lg (nt_kind nt) lo hi)). assert (HWi : width lg (nt_kind nt) lo hi = Z.of_nat W) by (unfold W; lia).
  unfold csv_text. rewrite file_of_true, map_map. destruct HG as [(n & EG)|(n & c & EG)]; rewrite EG in *.
  - assert (HS : d_split x = None \/ d_split x = Some 0). { unfold rep in HR. destruct (d_split x) as [s|]; [right|now left]. destruct HR as (_ & _ & Hs & _). rewrite Hx in Hs. cbn in Hs. f_equal. lia. }
    destruct (save_1d V lg enc nt x head sep lo hi W (S n) 1 cnts G HEnc Elo Ehi HWi HP HR ltac:(lia) Hx HS) as (out & E1 & E2).
    { intros i Hil. assert (B := HF lo hi X [Z.of_nat i] (in_bounds1 _ _ Hil)). lia. }
    exists out. split; [exact E1|]. intros old f Ho. cbn zeta. rewrite (E2 old f Ho). unfold E, line, items, head_bytes. cbn [array_rows]. rewrite Nat2Z.id, !map_map. reflexivity.
  - assert (HS : d_split x = None \/ d_split x = Some 0 \/ d_split x = Some 1). { unfold rep in HR. destruct (d_split x) as [s|]; [right|now left]. destruct HR as (_ & _ & Hs & _). rewrite Hx in Hs. cbn in Hs. destruct s as [|[|s]]; [left|right|]; auto. lia. }
    destruct (save_2d V lg enc nt x head sep lo hi W (S n) (S c) cnts G HEnc Elo Ehi HWi HP HR ltac:(lia) Hx HS) as (out & E1 & E2).
    { intros i j Hil Hjl. assert (B := HF lo hi X [Z.of_nat i; Z.of_nat j] (in_bounds2 _ _ _ _ Hil Hjl)). lia. }
    exists out. split; [exact E1|]. intros old f Ho. cbn zeta. rewrite (E2 old f Ho). unfold E, line, items, head_bytes. cbn [array_rows]. rewrite !Nat2Z.id, !map_map.
    assert (EQ : map (fun i => join [sep] (map (fun j => fld V nt W (G [Z.of_nat i; Z.of_nat j])) (seq 0 (S c))) ++ [10]) (seq 0 (S n)) =
       map (fun i => join [sep] (map (fun v => justify W (nt_text nt v)) (map (fun j => G [Z.of_nat i; Z.of_nat j]) (seq 0 (S c)))) ++ [10]) (seq 0 (S n))).
    { apply map_ext. intros i. now rewrite map_map. }
    cbn zeta in *. rewrite EQ. reflexivity.
Qed.

(** * widths *)
Lemma absmax lo hi v : (lo <= v)%Q -> (v <= hi)%Q -> (Qabs v <= Qmax (Qabs hi) (Qabs lo))%Q.
Proof.
  intros H1 H2. apply Qabs_case; intros S0.
  - eapply Qle_trans; [|apply Q.le_max_l]. eapply Qle_trans; [exact H2|apply Qle_Qabs].
  - eapply Qle_trans; [|apply Q.le_max_r]. rewrite <- Qabs_opp. eapply Qle_trans; [|apply Qle_Qabs]. lra.
Qed.
Lemma sign_one lo v : (lo <= v)%Q -> (v < 0)%Q -> sign_width lo = 1%Z.
Proof. intros H1 H2. unfold sign_width. assert (X : qneg lo = true) by (apply qneg_iff; lra). now rewrite X. Qed.
Lemma sign_nonneg lo : (0 <= sign_width lo)%Z.
Proof. unfold sign_width. destruct (qneg lo); lia. Qed.
(** every magnitude with at least one digit before the point fits *)
Lemma ppd_ok lg lo hi : log10_ok lg -> let M := Qmax (Qabs hi) (Qabs lo) in (M == 0 \/ 11 # 100 <= M)%Q ->
  (1 <= pre_point_digits lg lo hi)%Z /\ forall k : N, (inject_Z (Z.of_N k) <= M)%Q -> (Z.of_nat (length (digits k)) <= pre_point_digits lg lo hi)%Z.
Proof.
  intros [LG LB] M HM. unfold pre_point_digits. fold M.
  assert (Mh : (Qabs hi <= M)%Q) by apply Q.le_max_l. assert (Ml : (Qabs lo <= M)%Q) by apply Q.le_max_r.
  destruct (qpos (Qabs hi) || qpos (Qabs lo)) eqn:EP.
  - assert (P0 : (0 < M)%Q) by (apply orb_true_iff in EP as [X|X]; apply qpos_iff in X; lra).
    destruct HM as [HM|HM]; [lra|]. destruct (LB M HM) as [L0 L1]. split; [lia|]. intros k Hk.
    assert (B : length (digits k) <= Z.to_nat (lg M + 1)); [|lia]. apply digits_len; [lia|].
    assert (C : (inject_Z (Z.of_N k) < inject_Z (10 ^ (lg M + 1)))%Q) by lra. rewrite <- Zlt_Qlt in C.
    assert (Y : (Z.of_N (10 ^ N.of_nat (Z.to_nat (lg M + 1))) = 10 ^ (lg M + 1))%Z).
    { rewrite N2Z.inj_pow. f_equal. lia. }
    lia.
  - apply orb_false_iff in EP as [X1 X2]. split; [lia|]. intros k Hk.
    assert (Z1 : (Qabs hi <= 0)%Q) by (apply Qnot_lt_le; intros X; apply qpos_iff in X; congruence).
    assert (Z2 : (Qabs lo <= 0)%Q) by (apply Qnot_lt_le; intros X; apply qpos_iff in X; congruence).
    assert (M0 : (M <= 0)%Q) by (apply Q.max_lub; auto).
    assert (K : (inject_Z (Z.of_N k) <= inject_Z 0)%Q) by (eapply Qle_trans; [exact Hk|exact M0]). rewrite <- Zle_Qle in K. assert (k = 0%N) by lia. subst k. cbn. lia.
Qed.
