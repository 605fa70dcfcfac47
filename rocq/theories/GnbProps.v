(** C79: GaussianNB, histories of fit and partial_fit. *)
From Coq Require Import List ZArith QArith Bool Lia Sorted Field Qfield.
From Verif Require Import Base GnbSpec GnbModel GnbProofs GnbProofs2.
Import ListNotations.
Open Scope Q_scope.

Lemma qmax_spec l : l <> [] -> (exists x, In x l /\ qmaximum l = x) /\ forall x, In x l -> x <= qmaximum l.
Proof.
  induction l as [|x l IH]; [tauto|]. intros _. destruct l as [|y l].
  - split; [exists x; split; [now left|reflexivity]|]. intros z [<-|[]]. apply Qle_refl.
  - destruct IH as [(z & Hz & E) HM]; [discriminate|]. change (qmaximum (x :: y :: l)) with (let m := qmaximum (y :: l) in if Qle_bool m x then x else m). cbv zeta.
    destruct (Qle_bool (qmaximum (y :: l)) x) eqn:EB.
    + apply Qle_bool_iff in EB. split; [exists x; split; [now left|auto]|]. intros w [<-|Hw]; [apply Qle_refl|]. apply Qle_trans with (qmaximum (y :: l)); auto.
    + assert (HL : x <= qmaximum (y :: l)). { apply not_true_iff_false in EB. rewrite Qle_bool_iff in EB. apply Qnot_le_lt in EB. now apply Qlt_le_weak. }
      split; [exists z; split; [now right|auto]|]. intros w [<-|Hw]; auto.
Qed.
Lemma epsilon_spec smoothing nf b : (0 < nf)%nat -> exists v, largest_variance nf b v /\ epsilon smoothing nf b == smoothing * v.
Proof.
  intros H. exists (qmaximum (map (fun f => var (column f b)) (seq 0 nf))). split; [|reflexivity].
  destruct (qmax_spec (map (fun f => var (column f b)) (seq 0 nf))) as [(x & Hx & E) HM]; [destruct nf; [lia|discriminate]|].
  apply in_map_iff in Hx as (f & <- & Hf). apply in_seq in Hf. split.
  - exists f. split; [lia|]. rewrite E. apply var_ones.
  - intros g Hg. eapply Qle_trans; [|apply HM; apply in_map with (x := g); apply in_seq; lia]. setoid_rewrite var_ones. apply Qle_refl.
Qed.

Section Hist.
Variables (smoothing : Q) (priors : option (list Q)) (isclose1 : Q -> bool) (nf : nat).
Notation pf := (partial_fit smoothing priors isclose1 nf). Notation run := (run smoothing priors isclose1 nf).
Definition priorOK (c : list Z) (m : model) : Prop :=
  priors = None -> forall i, m_prior m i = m_count m i / qsum (map (m_count m) (seq 0 (length c))).
Lemma Inv_shift c bs m m' : (forall i, m_count m i = m_count m' i) -> m_classes m = m_classes m' -> m_nf m = m_nf m' -> (forall i f, m_theta m i f = m_theta m' i f /\ m_sigma m i f = m_sigma m' i f) ->
  Inv smoothing nf c bs m -> Inv smoothing nf c bs m'.
Proof.
  intros H1 H2 H3 H4 (I1 & I2 & I3). split; [congruence|]. split; [congruence|]. intros i Hi ci. destruct (I3 i Hi) as (A & B & C). rewrite <- H1. split; [auto|]. split; [auto|].
  intros f. destruct (H4 i f) as [<- <-]. apply C.
Qed.
Lemma labels_has b c : unique (labels b) = c <-> (StronglySorted Z.lt c /\ has_classes c b).
Proof.
  split.
  - intros <-. split; [apply unique_sorted|]. intros z. symmetry. apply unique_in.
  - intros [S H]. apply sorted_same; [apply unique_sorted|auto|]. intros z. rewrite unique_in. apply H.
Qed.
Lemma eq_vec_refl c : eq_vec c c = Some (map (fun p => Z.eqb (fst p) (snd p)) (combine c c)).
Proof. unfold eq_vec. now rewrite Nat.eqb_refl. Qed.
(** the part of a call after the initialisation *)
Definition finish (b : batch) (m : model) : option model * option exn :=
  let ys := unique (map s_label (b_samples b)) in
  match eq_vec ys (m_classes m) with
  | None => (Some m, Some ValueError)
  | Some eqs =>
      if negb (forallb (fun v => v) eqs) then (Some m, Some ValueError)
      else match steps b ys m with
           | Err x => (Some m, Some x)
           | Ok m' =>
               let m' := shift (epsilon smoothing nf b) m' in
               let total := qsum (map (m_count m') (seq 0 (length (m_classes m')))) in
               (Some (mk_model (m_classes m') (m_nf m') (m_theta m') (m_sigma m') (m_count m')
                        (match priors with None => fun i => m_count m' i / total | Some _ => m_prior m' end)), None)
           end
  end.
Lemma finish_ok b m : proper b ->
  (unique (labels b) = m_classes m -> exists m1 m2, steps b (unique (labels b)) m = Ok m1 /\ finish b m = (Some m2, None) /\
     m_classes m2 = m_classes m /\ m_nf m2 = m_nf m1 /\ (forall i, m_count m2 i = m_count m1 i) /\
     (forall i f, m_theta m2 i f = m_theta m1 i f /\ m_sigma m2 i f = m_sigma m1 i f + epsilon smoothing nf b) /\
     priorOK (m_classes m) m2) /\
  (unique (labels b) <> m_classes m -> exists x, finish b m = (Some m, Some x) /\ x = ValueError).
Proof.
  intros [Hne _]. unfold finish. fold (labels b). split.
  - intros EU. assert (EV : eq_vec (unique (labels b)) (m_classes m) = Some (map (fun p => Z.eqb (fst p) (snd p)) (combine (m_classes m) (m_classes m)))) by (rewrite EU; apply eq_vec_refl). rewrite EV.
    assert (A : forallb (fun v => v) (map (fun p => Z.eqb (fst p) (snd p)) (combine (m_classes m) (m_classes m))) = true) by (now apply eqs_all).
    rewrite A. cbn [negb].
    assert (ND : NoDup (m_classes m)) by (rewrite <- EU; apply sorted_nodup, unique_sorted).
    destruct (steps_ok b (m_classes m) ND (unique (labels b)) m eq_refl) as (m1 & E & E1 & E2 & _); [now rewrite EU|now rewrite EU|].
    rewrite E. eexists m1, _. split; [reflexivity|]. split; [reflexivity|]. cbn [m_classes m_nf m_count m_theta m_sigma shift]. split; [exact E1|]. split; [reflexivity|]. split; [reflexivity|]. split; [split; reflexivity|].
    intros HP i. cbn [m_prior m_count shift m_classes]. rewrite HP, E1. reflexivity.
  - intros NE. destruct (eq_vec (unique (labels b)) (m_classes m)) as [eqs|] eqn:E; [|exists ValueError; auto].
    destruct (forallb (fun v => v) eqs) eqn:A; cbn [negb]; [|exists ValueError; auto].
    destruct (passes b m eqs Hne E A) as [H|(e & H)]; [contradiction|]. rewrite H. exists e. split; [reflexivity|].
    clear -H. revert m H. generalize (unique (labels b)). induction l as [|y l IH]; intros m H; cbn [steps] in H; [discriminate|].
    unfold step in H. destruct (filter _ _) as [|i [|]]; cbn [bind] in H; try (injection H; auto). eauto.
Qed.
Lemma pf_first b c : proper b -> priors_bad priors isclose1 (length c) = false -> pf b (Some c) None = finish b (fresh priors c nf).
Proof. intros _ H. unfold partial_fit, partial_fit_. rewrite H. reflexivity. Qed.
Lemma pf_next b m arg : m_nf m = nf -> (arg = None \/ arg = Some (m_classes m)) -> pf b arg (Some m) = finish b (shift (- epsilon smoothing nf b) m).
Proof.
  intros En [-> | ->]; unfold partial_fit, partial_fit_.
  - assert (EN : Nat.eqb nf (m_nf m) = true) by (rewrite En; apply Nat.eqb_refl). rewrite EN. reflexivity.
  - replace (list_eqb (m_classes m) (m_classes m)) with true by (symmetry; now apply list_eqb_eq). cbn [negb]. assert (EN : Nat.eqb nf (m_nf m) = true) by (rewrite En; apply Nat.eqb_refl). rewrite EN. reflexivity.
Qed.
Lemma run_ok c : forall rest bs m, StronglySorted Z.lt c -> Inv smoothing nf c bs m -> priorOK c m ->
  (forall p, In p rest -> proper (fst p) /\ (snd p = None \/ snd p = Some c)) ->
  match run rest (Some m) with
  | (Some m', None) => Inv smoothing nf c (bs ++ map fst rest) m' /\ priorOK c m' /\ forall p, In p rest -> has_classes c (fst p)
  | (_, x) => x = Some ValueError /\ exists p, In p rest /\ ~ has_classes c (fst p)
  end.
Proof.
  induction rest as [|[b arg] rest IH]; intros bs m Sc HI HPr Hin; cbn [GnbModel.run].
  - rewrite app_nil_r. split; [auto|]. split; [auto|]. intros p [].
  - destruct (Hin (b, arg) (or_introl eq_refl)) as [HP HA]. cbn [fst snd] in HP, HA.
    assert (Ec : m_classes m = c) by apply HI. rewrite pf_next; [|apply HI|rewrite Ec; auto].
    destruct (finish_ok b (shift (- epsilon smoothing nf b) m) HP) as [F1 F2]. cbn [shift m_classes] in F1, F2. rewrite Ec in F1, F2.
    destruct (list_eq_dec Z.eq_dec (unique (labels b)) c) as [EU|NU].
    + destruct (F1 EU) as (m1 & m2 & E1 & E2 & E3 & E4 & E5 & E6 & E7). rewrite E2.
      assert (HI2 : Inv smoothing nf c (bs ++ [b]) m2).
      { apply (Inv_shift c _ (shift (epsilon smoothing nf b) m1)).
        - intros i. cbn [shift m_count]. now rewrite E5.
        - cbn [shift m_classes]. destruct (steps_ok b c (sorted_nodup _ Sc) (unique (labels b)) (shift (- epsilon smoothing nf b) m) Ec) as (m1' & E & E' & _); [now rewrite EU; apply sorted_nodup|now rewrite EU|]. rewrite E1 in E. injection E as <-. congruence.
        - cbn [shift m_nf]. now rewrite E4.
        - intros i f. cbn [shift m_theta m_sigma]. destruct (E6 i f) as [-> ->]. auto.
        - apply (class_step smoothing isclose1 nf c bs b m); auto; [now apply sorted_nodup|]. intros s Hs Hw. destruct HP as [_ HP]. auto. }
      specialize (IH (bs ++ [b]) m2 Sc HI2 E7 (fun p Hp => Hin p (or_intror Hp))).
      assert (HC : has_classes c b) by (apply labels_has in EU; apply EU).
      destruct (run rest (Some m2)) as [[m'|] [x|]].
      * destruct IH as (EX & p & Hp & H). split; [auto|]. exists p. split; [now right|auto].
      * rewrite <- app_assoc in IH. destruct IH as (A & B & C). split; [exact A|]. split; [exact B|]. intros p [<-|Hp]; auto.
      * destruct IH as (EX & p & Hp & H). split; [auto|]. exists p. split; [now right|auto].
      * destruct IH as (EX & p & Hp & H). split; [auto|]. exists p. split; [now right|auto].
    + destruct (F2 NU) as (x & E & ->). rewrite E. split; [auto|]. exists (b, arg). split; [now left|]. cbn [fst]. intros HC. apply NU, labels_has. auto.
Qed.
Lemma all_runs c b0 rest : proper b0 -> StronglySorted Z.lt c -> priors_bad priors isclose1 (length c) = false ->
  (forall p, In p rest -> proper (fst p) /\ (snd p = None \/ snd p = Some c)) ->
  match run ((b0, Some c) :: rest) None with
  | (Some m, None) => Inv smoothing nf c (b0 :: map fst rest) m /\ priorOK c m /\ has_classes c b0 /\ forall p, In p rest -> has_classes c (fst p)
  | (_, x) => x = Some ValueError /\ exists b, In b (b0 :: map fst rest) /\ ~ has_classes c b
  end.
Proof.
  intros HP Sc HB Hin. cbn [GnbModel.run]. rewrite pf_first by auto.
  destruct (finish_ok b0 (fresh priors c nf) HP) as [F1 F2]. cbn [fresh m_classes] in F1, F2.
  destruct (list_eq_dec Z.eq_dec (unique (labels b0)) c) as [EU|NU].
  - destruct (F1 EU) as (m1 & m2 & E1 & E2 & E3 & E4 & E5 & E6 & E7). rewrite E2.
    assert (HI2 : Inv smoothing nf c [b0] m2).
    { apply (Inv_shift c _ (shift (epsilon smoothing nf b0) m1)).
      - intros i. cbn [shift m_count]. now rewrite E5.
      - cbn [shift m_classes]. destruct (steps_ok b0 c (sorted_nodup _ Sc) (unique (labels b0)) (fresh priors c nf) eq_refl) as (m1' & E & E' & _); [now rewrite EU; apply sorted_nodup|now rewrite EU|]. rewrite E1 in E. injection E as <-. congruence.
      - cbn [shift m_nf]. now rewrite E4.
      - intros i f. cbn [shift m_theta m_sigma]. destruct (E6 i f) as [-> ->]. auto.
      - apply (class_first smoothing isclose1 nf c b0 (fresh priors c nf)); auto; [now apply sorted_nodup|]. intros s Hs Hw. destruct HP as [_ HP]. auto. }
    pose proof (run_ok c rest [b0] m2 Sc HI2 E7 Hin) as R.
    assert (HC : has_classes c b0) by (apply labels_has in EU; apply EU).
    destruct (run rest (Some m2)) as [[m'|] [x|]].
    + destruct R as (EX & p & Hp & H). split; [auto|]. exists (fst p). split; [right; now apply in_map|auto].
    + destruct R as (A & B & C). auto.
    + destruct R as (EX & p & Hp & H). split; [auto|]. exists (fst p). split; [right; now apply in_map|auto].
    + destruct R as (EX & p & Hp & H). split; [auto|]. exists (fst p). split; [right; now apply in_map|auto].
  - destruct (F2 NU) as (x & E & ->). rewrite E. split; [auto|]. exists b0. split; [now left|]. intros HC. apply NU, labels_has. auto.
Qed.
End Hist.

(** Every history of partial_fit calls that raises nothing: counts, means and priors are those
    of all samples seen; a variance is that of all samples seen plus the mean of the smoothing
    terms of the batches, weighted by what each batch contributed to the class. *)
Theorem C79_history : forall (smoothing : Q) (priors : option (list Q)) (isclose1 : Q -> bool) (nf : nat) (c : list Z) (b0 : batch) (rest : list (batch * option (list Z))) (m : model),
  (0 < nf)%nat -> StronglySorted Z.lt c -> priors_bad priors isclose1 (length c) = false ->
  proper b0 -> (forall p, In p rest -> proper (fst p) /\ (snd p = None \/ snd p = Some c)) ->
  run smoothing priors isclose1 nf ((b0, Some c) :: rest) None = (Some m, None) ->
  let bs := b0 :: map fst rest in
  m_classes m = c /\
  exists eps : batch -> Q, (forall b, In b bs -> exists v, largest_variance nf b v /\ eps b == smoothing * v) /\
  forall i, (i < length c)%nat -> let ci := nth i c 0%Z in
    0 < weight (class_history ci 0 bs) /\
    m_count m i == weight (class_history ci 0 bs) /\
    (priors = None -> m_prior m i == weight (class_history ci 0 bs) / qsum (map (fun j => weight (class_history (nth j c 0%Z) 0 bs)) (seq 0 (length c)))) /\
    forall f, (f < nf)%nat ->
      m_theta m i f == wmean (class_history ci f bs) /\
      m_sigma m i f == wvar (class_history ci f bs) + qsum (map (fun b => weight (class_data ci f b) * eps b) bs) / weight (class_history ci f bs).
Proof.
  intros sm pr ic nf c b0 rest m Hnf Sc HB HP Hin E bs. pose proof (all_runs sm pr ic nf c b0 rest HP Sc HB Hin) as R. rewrite E in R.
  destruct R as ((I1 & I2 & I3) & HPr & _). split; [auto|]. exists (epsilon sm nf). split; [intros b _; now apply epsilon_spec|].
  intros i Hi ci. destruct (I3 i Hi) as (W & C & T). fold ci in W, C, T. fold bs in W, C, T. split; [exact W|]. split; [exact C|]. split.
  - intros EP. rewrite (HPr EP i), C.
    assert (ES : qsum (map (m_count m) (seq 0 (length c))) == qsum (map (fun j => weight (class_history (nth j c 0%Z) 0 bs)) (seq 0 (length c)))).
    { apply qsum_ext. intros j Hj. apply in_seq in Hj. destruct (I3 j ltac:(lia)) as (_ & Cj & _). exact Cj. }
    rewrite ES. reflexivity.
  - intros f Hf. destruct (T f) as [T1 T2]. split; [exact T1|]. rewrite T2. unfold eps_part. rewrite weight_hist.
    rewrite (qsum_ext (fun b => w_of ci b * epsilon sm nf b) (fun b => weight (class_data ci f b) * epsilon sm nf b)); [reflexivity|]. intros b _. now rewrite weight_f.
Qed.
(** Which histories raise: exactly those with a batch whose labels are not all the classes *)
Theorem C79_raises_iff : forall (smoothing : Q) (priors : option (list Q)) (isclose1 : Q -> bool) (nf : nat) (c : list Z) (b0 : batch) (rest : list (batch * option (list Z))),
  StronglySorted Z.lt c -> priors_bad priors isclose1 (length c) = false ->
  proper b0 -> (forall p, In p rest -> proper (fst p) /\ (snd p = None \/ snd p = Some c)) ->
  let r := run smoothing priors isclose1 nf ((b0, Some c) :: rest) None in
  ((forall b, In b (b0 :: map fst rest) -> has_classes c b) -> exists m, r = (Some m, None)) /\
  ((exists b, In b (b0 :: map fst rest) /\ ~ has_classes c b) -> snd r = Some ValueError).
Proof.
  intros sm pr ic nf c b0 rest Sc HB HP Hin r. pose proof (all_runs sm pr ic nf c b0 rest HP Sc HB Hin) as R. fold r in R.
  assert (K : forall b, In b (b0 :: map fst rest) -> (has_classes c b0 /\ forall p, In p rest -> has_classes c (fst p)) -> has_classes c b).
  { intros b [<-|Hb] [K1 K2]; [auto|]. apply in_map_iff in Hb as (p & <- & Hp). auto. }
  destruct r as [[m|] [x|]]; cbn [snd].
  - destruct R as (-> & b & Hb & NB). split; [intros H; exfalso; auto|auto].
  - destruct R as (_ & _ & R1 & R2). split; [eauto|]. intros (b & Hb & NB). exfalso. apply NB. apply K; auto.
  - destruct R as (-> & b & Hb & NB). split; [intros H; exfalso; auto|auto].
  - destruct R as (EX & _). discriminate EX.
Qed.
(** Without smoothing, any way to cut the samples into batches gives the parameters of fit *)
Theorem C79_batches_equal_fit : forall (priors : option (list Q)) (isclose1 : Q -> bool) (nf : nat) (c : list Z) (w : bool) (ss : list (list sample)) (m m' : model),
  (0 < nf)%nat -> StronglySorted Z.lt c -> priors_bad priors isclose1 (length c) = false -> ss <> [] ->
  (forall l, In l ss -> proper (mk_batch w l)) ->
  run 0 priors isclose1 nf (map (fun l => (mk_batch w l, Some c)) ss) None = (Some m, None) ->
  fit 0 priors isclose1 nf (mk_batch w (concat ss)) None = (Some m', None) ->
  m_classes m = c /\ m_classes m' = c /\
  forall i, (i < length c)%nat -> m_count m i == m_count m' i /\
    (priors = None -> m_prior m i == m_prior m' i) /\
    forall f, (f < nf)%nat -> m_theta m i f == m_theta m' i f /\ m_sigma m i f == m_sigma m' i f.
Proof.
  intros pr ic nf c w ss m m' Hnf Sc HB Hne HPs E E'. destruct ss as [|l0 ls]; [contradiction|]. cbn [map] in E.
  set (rest := map (fun l => (mk_batch w l, Some c)) ls) in *.
  assert (P0 : proper (mk_batch w l0)) by (apply HPs; now left).
  assert (PR : forall p, In p rest -> proper (fst p) /\ (snd p = None \/ snd p = Some c)).
  { intros p Hp. apply in_map_iff in Hp as (l & <- & Hl). cbn. split; [apply HPs; now right|auto]. }
  set (B := mk_batch w (concat (l0 :: ls))) in *.
  assert (PB : proper B).
  { split; [unfold B; cbn [b_samples concat]; destruct P0 as [N _]; cbn in N; destruct l0; [contradiction|discriminate]|].
    unfold B. cbn [b_weighted b_samples]. intros W s Hs. apply in_concat in Hs as (l & Hl & Hs). destruct (HPs l Hl) as [_ H]. cbn in H. auto. }
  pose proof (all_runs 0 pr ic nf c (mk_batch w l0) rest P0 Sc HB PR) as R. rewrite E in R. destruct R as (_ & _ & H0 & HR).
  assert (HCB : has_classes c B).
  { intros z. unfold B. cbn [b_samples]. split.
    - intros Hz. apply in_map_iff in Hz as (s & <- & Hs). apply in_concat in Hs as (l & [<-|Hl] & Hs).
      + apply H0. now apply in_map.
      + assert (Hp : In (mk_batch w l, Some c) rest) by (unfold rest; apply in_map_iff; eauto). specialize (HR _ Hp). cbn [fst] in HR. apply HR. now apply in_map.
    - intros Hz. apply H0 in Hz. cbn [b_samples] in Hz. cbn [concat]. rewrite map_app. apply in_or_app. now left. }
  assert (EU : unique (labels B) = c) by (apply labels_has; auto).
  unfold fit in E'. fold (labels B) in E'. rewrite EU in E'.
  assert (E2 : run 0 pr ic nf [(B, Some c)] None = (Some m', None)).
  { cbn [run]. unfold partial_fit. unfold partial_fit_ in *. cbv beta iota zeta in E' |- *. rewrite E'. reflexivity. }
  destruct (C79_history 0 pr ic nf c _ rest m Hnf Sc HB P0 PR E) as (C1 & e1 & V1 & K1).
  destruct (C79_history 0 pr ic nf c B [] m' Hnf Sc HB PB ltac:(intros p []) E2) as (C2 & e2 & V2 & K2). cbn [map] in V2, K2.
  assert (EH : forall z f, class_history z f (mk_batch w l0 :: map fst rest) = class_history z f [B]).
  { intros z f. unfold class_history. cbn [flat_map]. rewrite app_nil_r.
    assert (EB : forall l1 l2, class_data z f (mk_batch w (l1 ++ l2)) = class_data z f (mk_batch w l1) ++ class_data z f (mk_batch w l2)).
    { intros l1 l2. unfold class_data. cbn [b_samples b_weighted]. now rewrite filter_app, map_app. }
    unfold B, rest. cbn [concat]. rewrite EB. f_equal. rewrite map_map. cbn [fst]. clear -EB. induction ls as [|l ls IH]; cbn [map flat_map concat]; [reflexivity|]. now rewrite EB, IH. }
  assert (Z1 : forall (e : batch -> Q) bs z f, (forall b, In b bs -> exists v, largest_variance nf b v /\ e b == 0 * v) -> qsum (map (fun b => weight (class_data z f b) * e b) bs) == 0).
  { intros e bs z f H. induction bs as [|b bs IH]; [reflexivity|]. cbn [map]. rewrite qsum_cons, IH by (intros; apply H; now right).
    destruct (H b (or_introl eq_refl)) as (v & _ & ->). ring. }
  split; [auto|]. split; [auto|]. intros i Hi. destruct (K1 i Hi) as (W1 & A1 & Q1 & T1). destruct (K2 i Hi) as (W2 & A2 & Q2 & T2).
  rewrite EH in A1, Q1. split; [now rewrite A1, A2|]. split.
  { intros EP. rewrite (Q1 EP), (Q2 EP). rewrite (qsum_ext (fun j => weight (class_history (nth j c 0%Z) 0 (mk_batch w l0 :: map fst rest))) (fun j => weight (class_history (nth j c 0%Z) 0 [B]))); [reflexivity|]. intros j _. rewrite EH. reflexivity. }
  intros f Hf. destruct (T1 f Hf) as [T11 T12]. destruct (T2 f Hf) as [T21 T22]. rewrite (Z1 e1) in T12 by auto. pose proof (Z1 e2 [B] (nth i c 0%Z) f V2) as ZB. cbn [map] in ZB. rewrite ZB in T22. rewrite EH in T11, T12.
  rewrite T11, T21, T12, T22. split; [reflexivity|reflexivity].
Qed.
(** fit on an estimator that was fitted before *)
Theorem C79_refit_partial : forall (smoothing : Q) (priors : option (list Q)) (isclose1 : Q -> bool) (nf : nat) (b : batch) (m : model),
  has_classes (m_classes m) b -> StronglySorted Z.lt (m_classes m) ->
  fit smoothing priors isclose1 nf b (Some m) = fit smoothing priors isclose1 nf b None.
Proof.
  intros sm pr ic nf b m HC Sc. unfold fit, partial_fit_. fold (labels b). assert (EU : unique (labels b) = m_classes m) by (apply labels_has; auto).
  rewrite EU. replace (list_eqb (m_classes m) (m_classes m)) with true by (symmetry; now apply list_eqb_eq). reflexivity.
Qed.
(** ... to other labels: ValueError, not a new fit *)
Theorem C79_refit_refuted : forall (smoothing : Q) (priors : option (list Q)) (isclose1 : Q -> bool) (nf : nat) (b : batch) (m : model),
  ~ has_classes (m_classes m) b -> fit smoothing priors isclose1 nf b (Some m) = (Some m, Some ValueError).
Proof.
  intros sm pr ic nf b m HC. unfold fit, partial_fit_. fold (labels b).
  destruct (list_eqb (m_classes m) (unique (labels b))) eqn:E; cbn [negb]; [|reflexivity].
  apply list_eqb_eq in E. exfalso. apply HC. assert (EU : unique (labels b) = m_classes m) by auto. apply labels_has in EU. apply EU.
Qed.
(** a batch without one of the classes: ValueError, and the variances of the fitted model are
    lowered by the smoothing term of the failed call *)
Theorem C79_missing_class_refuted : forall (smoothing : Q) (priors : option (list Q)) (isclose1 : Q -> bool) (nf : nat) (b : batch) (m : model),
  proper b -> m_nf m = nf -> StronglySorted Z.lt (m_classes m) -> ~ has_classes (m_classes m) b ->
  exists m', partial_fit smoothing priors isclose1 nf b None (Some m) = (Some m', Some ValueError) /\
    forall i f, m_sigma m' i f == m_sigma m i f - epsilon smoothing nf b.
Proof.
  intros sm pr ic nf b m HP En Sc HC. rewrite pf_next by auto. destruct (finish_ok sm pr nf b (shift (- epsilon sm nf b) m) HP) as [_ F2].
  destruct F2 as (x & E & ->).
  - cbn [shift m_classes]. intros EU. apply HC. apply labels_has in EU. apply EU.
  - eexists. split; [exact E|]. intros i f. cbn [shift m_sigma]. ring.
Qed.
(** with smoothing, batches and one fit give different variances: samples 0, 0 | 0, 2 of one
    class, var_smoothing 1: 5/4 against 3/2 *)
Definition s_ (x : Q) : sample := mk_sample 7 (fun _ => x) 1.
Theorem C79_smoothing_refuted :
  let b1 := mk_batch false [s_ 0; s_ 0] in let b2 := mk_batch false [s_ 0; s_ 2] in let b := mk_batch false [s_ 0; s_ 0; s_ 0; s_ 2] in
  match run 1 None (fun _ => true) 1 [(b1, Some [7%Z]); (b2, None)] None, fit 1 None (fun _ => true) 1 b None with
  | (Some m, None), (Some m', None) => m_sigma m 0 0 == 5 # 4 /\ m_sigma m' 0 0 == 3 # 2
  | _, _ => False
  end.
Proof. vm_compute. split; reflexivity. Qed.
(** the hypotheses are met: three classes, weighted and unweighted batches *)
Definition l_ (y : Z) (x w : Q) : sample := mk_sample y (fun f => x + inject_Z (Z.of_nat f)) w.
Example C79_instance :
  let b1 := mk_batch true [l_ 2 1 (1 # 2); l_ 0 3 2; l_ 5 4 1; l_ 2 0 3] in let b2 := mk_batch false [l_ 5 1 0; l_ 0 1 0; l_ 2 7 0] in
  proper b1 /\ proper b2 /\ has_classes [0; 2; 5]%Z b1 /\ has_classes [0; 2; 5]%Z b2 /\ StronglySorted Z.lt [0; 2; 5]%Z /\
  priors_bad None (fun _ => true) 3 = false /\ snd (run (1 # 10) None (fun _ => true) 2 [(b1, Some [0; 2; 5]%Z); (b2, None)] None) = None.
Proof.
  cbv zeta. split; [split; [discriminate|intros _ s Hs; cbn in Hs; decompose [or] Hs; subst; try contradiction; reflexivity]|].
  split; [split; [discriminate|intros H; discriminate H]|]. split; [intros z; cbn; intuition|]. split; [intros z; cbn; intuition|].
  split; [repeat constructor|]. split; [reflexivity|]. vm_compute. reflexivity.
Qed.
Print Assumptions C79_history.
Print Assumptions C79_raises_iff.
Print Assumptions C79_batches_equal_fit.
Print Assumptions C79_refit_partial.
Print Assumptions C79_refit_refuted.
Print Assumptions C79_missing_class_refuted.
Print Assumptions C79_smoothing_refuted.
