(** Histories of partial_fit calls. *)
From Coq Require Import List ZArith QArith Bool Lia Sorted Field Qfield.
From Verif Require Import Base GnbSpec GnbModel GnbProofs.
Import ListNotations.
Open Scope Q_scope.

(** what one batch does to class i *)
Definition upd_of (b : batch) (m : model) (i f : nat) : Q * Q :=
  let mine := filter (fun s => Z.eqb (s_label s) (nth i (m_classes m) 0%Z)) (b_samples b) in
  update_mean_variance (m_count m i) (m_theta m i f) (m_sigma m i f)
    (if b_weighted b then Some (map s_weight mine) else None) (map (fun s => s_feat s f) mine).
Definition n_of (b : batch) (m : model) (i : nat) : Q :=
  let mine := filter (fun s => Z.eqb (s_label s) (nth i (m_classes m) 0%Z)) (b_samples b) in
  if b_weighted b then qsum (map s_weight mine) else inject_Z (Z.of_nat (length mine)).
Lemma mem_dec (y : Z) l : {In y l} + {~ In y l}. Proof. apply in_dec, Z.eq_dec. Qed.
Lemma steps_ok b c : NoDup c -> forall ys m, m_classes m = c -> NoDup ys -> (forall y, In y ys -> In y c) ->
  exists m', steps b ys m = Ok m' /\ m_classes m' = c /\ m_nf m' = m_nf m /\ m_prior m' = m_prior m /\
    forall i, (i < length c)%nat ->
      (In (nth i c 0%Z) ys -> m_count m' i = m_count m i + n_of b m i /\ forall f, m_theta m' i f = fst (upd_of b m i f) /\ m_sigma m' i f = snd (upd_of b m i f)) /\
      (~ In (nth i c 0%Z) ys -> m_count m' i = m_count m i /\ forall f, m_theta m' i f = m_theta m i f /\ m_sigma m' i f = m_sigma m i f).
Proof.
  intros Nc ys. induction ys as [|y ys IH]; intros m Em Ny Hin.
  - exists m. do 4 (split; [auto|]). intros i Hi. split; [intros []|auto].
  - inversion Ny as [|? ? Ny1 Ny2]; subst. cbn [steps].
    destruct (In_nth _ _ 0%Z (Hin y (or_introl eq_refl))) as (k & Hk & Ek).
    unfold step. pose proof (position (m_classes m) k Nc Hk) as PO. rewrite Ek in PO. rewrite PO. clear PO. cbn [bind].
    set (m1 := mk_model _ _ _ _ _ _).
    destruct (IH m1 eq_refl Ny2 (fun z Hz => Hin z (or_intror Hz))) as (m' & E & E1 & E2 & E3 & H).
    exists m'. split; [exact E|]. split; [exact E1|]. split; [rewrite E2; reflexivity|]. split; [rewrite E3; reflexivity|].
    intros i Hi. destruct (H i Hi) as [Hyes Hno]. clear H.
    destruct (Nat.eq_dec i k) as [->|NE].
    + assert (NI : ~ In (nth k (m_classes m) 0%Z) ys) by (rewrite Ek; auto).
      destruct (Hno NI) as [C T]. split; [intros _|intros Hn; exfalso; apply Hn; left; now rewrite Ek].
      unfold m1 in C, T. cbn [m_count m_theta m_sigma] in C, T. rewrite Nat.eqb_refl in C.
      split; [rewrite C; unfold n_of; rewrite Ek; reflexivity|]. intros f. destruct (T f) as [T1 T2]. rewrite Nat.eqb_refl in T1, T2.
      rewrite T1, T2. unfold upd_of. rewrite Ek. auto.
    + assert (NV : nth i (m_classes m) 0%Z <> y).
      { intros E'. apply NE. apply (proj1 (NoDup_nth (m_classes m) 0%Z) Nc); auto. congruence. }
      assert (EU : forall f, upd_of b m1 i f = upd_of b m i f).
      { intros f. unfold upd_of, m1. cbn [m_count m_theta m_sigma m_classes]. destruct (Nat.eqb_spec i k); [contradiction|reflexivity]. }
      assert (EC : m_count m1 i = m_count m i) by (unfold m1; cbn [m_count]; destruct (Nat.eqb_spec i k); [contradiction|reflexivity]).
      split.
      * intros [->|Hi']; [contradiction|]. destruct (Hyes Hi') as [C T]. split; [rewrite C, EC; reflexivity|]. intros f. destruct (T f) as [T1 T2]. now rewrite T1, T2, EU.
      * intros Hn. destruct Hno as [C T]; [intros H; apply Hn; now right|]. split; [now rewrite C|]. intros f. destruct (T f) as [T1 T2]. rewrite T1, T2.
        unfold m1. cbn [m_theta m_sigma]. destruct (Nat.eqb_spec i k); [contradiction|auto].
Qed.

(** the labels of a batch that passes the test of L323-329 *)
Definition labels (b : batch) : list Z := map s_label (b_samples b).
Lemma passes b m eqs : b_samples b <> [] -> eq_vec (unique (labels b)) (m_classes m) = Some eqs -> forallb (fun v => v) eqs = true ->
  unique (labels b) = m_classes m \/ exists e, steps b (unique (labels b)) m = Err e.
Proof.
  intros Hne E A. set (ys := unique (labels b)) in *. assert (NY : NoDup ys) by apply sorted_nodup, unique_sorted.
  assert (NN : ys <> []).
  { destruct (b_samples b) as [|s l] eqn:Eb; [contradiction|]. intros EY. assert (In (s_label s) ys) as H by (apply unique_in; unfold labels; rewrite Eb; now left). rewrite EY in H. destruct H. }
  unfold eq_vec in E. destruct (Nat.eqb_spec (length ys) (length (m_classes m))) as [L|L].
  - injection E as <-. left. now apply eqs_all.
  - destruct (Nat.eqb_spec (length ys) 1) as [L1|L1].
    + injection E as <-. right. destruct ys as [|y [|]]; try discriminate. cbn [steps]. unfold step.
      exists ValueError. cbn [hd] in A. rewrite forallb_forall in A.
      assert (F : forall i, (i < length (m_classes m))%nat -> Z.eqb (nth i (m_classes m) 0%Z) y = true).
      { intros i Hi. rewrite Z.eqb_sym. apply A. apply in_map. now apply nth_In. }
      assert (FS : filter (fun i => Z.eqb (nth i (m_classes m) 0%Z) y) (seq 0 (length (m_classes m))) = seq 0 (length (m_classes m))).
      { assert (G : forall l, (forall i, In i l -> (i < length (m_classes m))%nat) -> filter (fun i => Z.eqb (nth i (m_classes m) 0%Z) y) l = l).
        { induction l as [|i l IH]; intros HL; cbn [filter]; [auto|]. rewrite F by (apply HL; now left). f_equal. apply IH. intros; apply HL; now right. }
        apply G. intros i Hi. apply in_seq in Hi. lia. }
      rewrite FS. destruct (length (m_classes m)) as [|[|k]]; [reflexivity|lia|reflexivity].
    + destruct (Nat.eqb_spec (length (m_classes m)) 1) as [L2|L2]; [|discriminate]. injection E as <-. exfalso.
      rewrite forallb_forall in A. destruct ys as [|y1 [|y2 ys]]; [contradiction|cbn in L1; lia|].
      assert (H1 : Z.eqb y1 (hd 0%Z (m_classes m)) = true) by (apply A; now left). assert (H2 : Z.eqb y2 (hd 0%Z (m_classes m)) = true) by (apply A; right; now left). apply Z.eqb_eq in H1, H2. inversion NY as [|? ? N1 _]; subst. apply N1. left. congruence.
Qed.

(** * the invariant *)
Section Inv.
Variables (smoothing : Q) (priors : option (list Q)) (isclose1 : Q -> bool) (nf : nat).
Notation eps := (epsilon smoothing nf).
Definition w_of (c : Z) (b : batch) : Q := weight (class_data c 0 b).
Definition w_all (c : Z) (bs : list batch) : Q := weight (class_history c 0 bs).
Definition eps_part (c : Z) (bs : list batch) : Q := qsum (map (fun b => w_of c b * eps b) bs) / w_all c bs.
Lemma weight_f c f b : weight (class_data c f b) = w_of c b.
Proof. unfold w_of, weight, class_data. now rewrite !map_map. Qed.
Lemma weight_hist c f bs : weight (class_history c f bs) = w_all c bs.
Proof. unfold w_all, weight, class_history. f_equal. induction bs as [|b bs IH]; cbn; [reflexivity|]. rewrite !map_app, IH. f_equal. unfold class_data. now rewrite !map_map. Qed.
Lemma n_of_ok b m i : n_of b m i == w_of (nth i (m_classes m) 0%Z) b.
Proof.
  unfold n_of, w_of, class_data. destruct (b_weighted b); [unfold weight; rewrite map_map; reflexivity|]. now rewrite weight_ones.
Qed.
Definition positive (b : batch) : Prop := forall s, In s (b_samples b) -> b_weighted b = true -> 0 < s_weight s.
Lemma w_of_pos c b : positive b -> In c (labels b) -> 0 < w_of c b.
Proof.
  intros HP Hin. unfold w_of, class_data, weight. rewrite map_map. cbn [fst].
  assert (G : forall l, (forall s, In s l -> 0 < (if b_weighted b then s_weight s else 1)) -> 0 <= qsum (map (fun s => if b_weighted b then s_weight s else 1) l) /\ (l <> [] -> 0 < qsum (map (fun s => if b_weighted b then s_weight s else 1) l))).
  { induction l as [|s l IH]; intros H; [split; [apply Qle_refl|tauto]|]. cbn [map]. rewrite qsum_cons.
    destruct IH as [I1 _]; [intros; apply H; now right|]. assert (H0 : 0 < (if b_weighted b then s_weight s else 1)) by (apply H; now left).
    assert (HL : 0 < (if b_weighted b then s_weight s else 1) + qsum (map (fun s => if b_weighted b then s_weight s else 1) l)).
    { rewrite <- (Qplus_0_r 0). apply Qplus_lt_le_compat; auto. }
    split; [now apply Qlt_le_weak|auto]. }
  apply G.
  - intros s Hs. apply filter_In in Hs as [Hs _]. destruct (b_weighted b) eqn:E; [now apply HP|reflexivity].
  - apply in_map_iff in Hin as (s & E & Hs). intros EF. assert (H : In s []) by (rewrite <- EF; apply filter_In; split; [auto|now apply Z.eqb_eq]). destruct H.
Qed.
Definition Inv (c : list Z) (bs : list batch) (m : model) : Prop :=
  m_classes m = c /\ m_nf m = nf /\
  forall i, (i < length c)%nat -> let ci := nth i c 0%Z in
    0 < w_all ci bs /\ m_count m i == w_all ci bs /\
    forall f, m_theta m i f == wmean (class_history ci f bs) /\ m_sigma m i f == wvar (class_history ci f bs) + eps_part ci bs.
Lemma w_all_snoc c bs b : w_all c (bs ++ [b]) == w_all c bs + w_of c b.
Proof. unfold w_all, w_of, class_history. rewrite flat_map_app. cbn [flat_map]. rewrite app_nil_r. apply weight_app. Qed.
Lemma hist_snoc c f bs b : class_history c f (bs ++ [b]) = class_history c f bs ++ class_data c f b.
Proof. unfold class_history. rewrite flat_map_app. cbn [flat_map]. now rewrite app_nil_r. Qed.
Lemma q_pos x : 0 < x -> ~ x == 0. Proof. intros H E. rewrite E in H. now apply Qlt_irrefl in H. Qed.
Lemma qeqb_pos x y : x == y -> 0 < y -> Qeq_bool x 0 = false.
Proof. intros E H. apply not_true_iff_false. intros HE. apply Qeq_bool_iff in HE. apply (q_pos y H). now rewrite <- E. Qed.

(** the update of all classes, then the smoothing *)
Lemma class_step c bs b m m' : NoDup c -> Inv c bs m -> positive b -> unique (labels b) = c ->
  steps b (unique (labels b)) (shift (- eps b) m) = Ok m' -> Inv c (bs ++ [b]) (shift (eps b) m').
Proof.
  intros Nc (Ec & En & H) HP EU Est.
  destruct (steps_ok b c Nc (unique (labels b)) (shift (- eps b) m) Ec) as (m1 & E & E1 & E2 & E3 & HS).
  { now rewrite EU. } { now rewrite EU. }
  rewrite Est in E. injection E as <-. split; [exact E1|]. split; [cbn [shift m_nf]; rewrite E2; exact En|].
  intros i Hi ci. destruct (H i Hi) as (W0 & C & T). fold ci in W0, C, T.
  destruct (HS i Hi) as [HY _]. assert (HIn : In ci (unique (labels b))) by (rewrite EU; now apply nth_In). destruct (HY HIn) as [C' T']. clear HY HS.
  assert (WP : 0 < w_of ci b) by (apply w_of_pos; auto; now apply unique_in).
  assert (WT : 0 < w_all ci bs + w_of ci b) by (rewrite <- (Qplus_0_r 0); apply Qplus_lt_le_compat; auto; now apply Qlt_le_weak).
  split; [rewrite w_all_snoc; exact WT|].
  assert (Eci : nth i (m_classes (shift (- eps b) m)) 0%Z = ci) by (cbn [shift m_classes]; rewrite Ec; reflexivity).
  split. { cbn [shift m_count]. rewrite C'. rewrite n_of_ok, Eci, w_all_snoc. cbn [shift m_count]. now rewrite C. }
  intros f. destruct (T f) as [T1 T2]. destruct (T' f) as [U1 U2]. cbn [shift m_theta m_sigma]. rewrite U1, U2. clear U1 U2.
  unfold upd_of. rewrite Eci. cbn [shift m_count m_theta m_sigma].
  destruct (update_ok b ci f (m_count m i) (m_theta m i f) (m_sigma m i f + - eps b) (w_all ci bs)) as [A1 A2].
  { rewrite weight_f. now apply q_pos. } { exact C. }
  rewrite (qeqb_pos _ _ C W0) in A1, A2. rewrite A1, A2, hist_snoc. clear A1 A2.
  assert (N1 : ~ weight (class_history ci f bs) == 0) by (rewrite weight_hist; now apply q_pos).
  assert (N2 : ~ weight (class_data ci f b) == 0) by (rewrite weight_f; now apply q_pos).
  assert (N3 : ~ weight (class_history ci f bs) + weight (class_data ci f b) == 0) by (rewrite weight_hist, weight_f; now apply q_pos).
  rewrite merge_mean, merge_var by auto. rewrite weight_hist, weight_f in *. rewrite T1, T2. split; [reflexivity|].
  unfold eps_part. rewrite map_app, qsum_app. cbn [map]. rewrite qsum_cons. change (qsum []) with 0. rewrite w_all_snoc. field. auto.
Qed.
(** the first batch *)
Lemma class_first c b m m' : NoDup c -> m_classes m = c -> m_nf m = nf -> (forall i, m_count m i = 0) -> positive b -> unique (labels b) = c ->
  steps b (unique (labels b)) m = Ok m' -> Inv c [b] (shift (eps b) m').
Proof.
  intros Nc Ec En H0 HP EU Est.
  destruct (steps_ok b c Nc (unique (labels b)) m Ec) as (m1 & E & E1 & E2 & E3 & HS).
  { now rewrite EU. } { now rewrite EU. }
  rewrite Est in E. injection E as <-. split; [exact E1|]. split; [cbn [shift m_nf]; rewrite E2; exact En|].
  intros i Hi ci. destruct (HS i Hi) as [HY _]. assert (HIn : In ci (unique (labels b))) by (rewrite EU; now apply nth_In). destruct (HY HIn) as [C' T']. clear HY HS.
  assert (WP : 0 < w_of ci b) by (apply w_of_pos; auto; now apply unique_in).
  assert (EW : w_all ci [b] = w_of ci b) by (unfold w_all, class_history; cbn [flat_map]; now rewrite app_nil_r).
  split; [now rewrite EW|]. assert (Eci : nth i (m_classes m) 0%Z = ci) by (rewrite Ec; reflexivity).
  split. { cbn [shift m_count]. rewrite C', n_of_ok, Eci, EW, H0. ring. }
  intros f. destruct (T' f) as [U1 U2]. cbn [shift m_theta m_sigma]. rewrite U1, U2. clear U1 U2.
  unfold upd_of. rewrite Eci.
  destruct (update_ok b ci f (m_count m i) (m_theta m i f) (m_sigma m i f) 0) as [A1 A2].
  { rewrite weight_f. now apply q_pos. } { now rewrite H0. }
  assert (Q0 : Qeq_bool (m_count m i) 0 = true) by (rewrite H0; reflexivity). rewrite Q0 in A1, A2. rewrite A1, A2.
  unfold class_history. cbn [flat_map]. rewrite app_nil_r. split; [reflexivity|].
  unfold eps_part. cbn [map]. rewrite qsum_cons, EW. change (qsum []) with 0. field. now apply q_pos.
Qed.
End Inv.
