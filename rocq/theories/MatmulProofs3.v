(** matmul as a whole: dispatch, finishing a matrix result, finishing a vector result. *)
From Verif Require Import Base BaseLemmas LayoutModel TensorSpec NdSpec TensorLemmas NdLemmas ShapeSpec OpsModel OpsProofs2 OpsProofs4 ShapeModel ShapeProps BinModel BinProofs BinProofs2 ReshapeModel ReshapeProofs ConcatProofs3 FactoryModel FactoryProps MatmulSpec MatmulModel MatmulProofs MatmulProofs2.
Open Scope Z_scope.

(** which layouts the branches handle, for operands of [n] dimensions split along matrix axes *)
Definition ready (P n : nat) (sa sb : option nat) (m K q : Z) (ca cb : list Z) : Prop :=
  match sa, sb with
  | None, None => True
  | Some s, None => s = (n - 2)%nat \/ (s = (n - 1)%nat /\ ca = zcounts K P)
  | None, Some t => t = (n - 1)%nat \/ (t = (n - 2)%nat /\ cb = zcounts K P)
  | Some s, Some t =>
      (s = (n - 2)%nat /\ t = (n - 2)%nat /\ ca = zcounts m P /\ cb = zcounts K P) \/
      (s = (n - 2)%nat /\ t = (n - 1)%nat /\ ca = zcounts m P /\ cb = zcounts q P) \/
      (s = (n - 1)%nat /\ t = (n - 1)%nat /\ ca = zcounts K P /\ cb = zcounts q P) \/
      (s = (n - 1)%nat /\ t = (n - 2)%nat /\ ca = zcounts K P)
  end.
Definition result_split (sa sb : option nat) : option nat := match sa with Some _ => sa | None => sb end.

Section Whole.
Context {V : Type}.
Variables (zero : V) (add mul : V -> V -> V).
Hypothesis SU : sums zero add.
Variables (bs : list Z) (m K q : Z) (P : nat).
Variables (A B : list Z -> V) (a b : dnd V) (ca cb : list Z).
Hypotheses (HP : (0 < P)%nat) (GA : d_gshape a = bs ++ [m; K]) (GB : d_gshape b = bs ++ [K; q]).
Hypotheses (RA : rep a ca A) (RB : rep b cb B) (LA : length (d_locals a) = P) (LB : length (d_locals b) = P).
Let PR := product zero add mul K A B.

Lemma dims : Forall (fun n => 0 <= n) bs /\ 0 <= m /\ 0 <= K /\ 0 <= q.
Proof.
  destruct RA as (_ & NA & _). destruct RB as (_ & NB & _). rewrite GA in NA. rewrite GB in NB. apply Forall_app in NA as [N1 N2]. apply Forall_app in NB as [_ N3].
  inversion N2 as [|? ? X1 N4]; subst. inversion N4; subst. inversion N3 as [|? ? X2 N5]; subst. inversion N5; subst. auto.
Qed.
Lemma nd_ok : ready P (length bs + 2) (d_split a) (d_split b) m K q ca cb ->
  exists o, matmul_nd zero add mul a b false = Ok o /\ good zero add mul bs m K q P A B (result_split (d_split a) (d_split b)) o.
Proof.
  destruct dims as (Hbs & Hm & HK & Hq). unfold ready, result_split.
  replace (length bs + 2 - 2)%nat with (length bs) by lia. replace (length bs + 2 - 1)%nat with (S (length bs)) by lia.
  destruct (d_split a) as [s|] eqn:EA, (d_split b) as [t|] eqn:EB.
  - intros [(-> & -> & H1 & H2)|[(-> & -> & H1 & H2)|[(-> & -> & H1 & H2)|(-> & -> & H1)]]].
    + eapply case_00; eauto.
    + eapply case_01; eauto.
    + eapply case_11; eauto.
    + eapply case_11; eauto.
  - intros [->|[-> H]]; [eapply case_0_none|eapply case_1_none]; eauto.
  - intros [->|[-> H]]; [eapply case_none_1|eapply case_none_0]; eauto.
  - intros _. eapply case_none; eauto.
Qed.

Lemma finish_ok s o : good zero add mul bs m K q P A B s o ->
  exists y cy, finish_matrix zero P o = Ok y /\ d_gshape y = bs ++ [m; q] /\ d_split y = s /\ length (d_locals y) = P /\ rep y cy PR.
Proof.
  destruct dims as (Hbs & Hm & HK & Hq). assert (NNs : Forall (fun n => 0 <= n) (bs ++ [m; q])) by (apply Forall_app; auto).
  destruct o as [y|cs k|cs k|y]; cbn [good finish_matrix].
  - intros (-> & ES & EG & EL & H). exists y, (repeat 0 P). split; [auto|]. split; [auto|]. split; [auto|]. split; [auto|]. unfold rep. rewrite ES, EG.
    split; [rewrite EL, repeat_length; auto|]. split; [auto|]. intros t Ht. now apply M2_agrees, H.
  - intros (-> & Hk & EL & H). destruct cs as [|c cs]; [cbn in EL; lia|]. cbn [hd]. destruct (H c (or_introl eq_refl)) as [SC HC].
    destruct (C55_array_split V P c (AxInt (Z.of_nat k)) (Some k)) as (y & E1 & E2 & E3 & E4); auto; [now rewrite SC| |].
    { rewrite SC, len2. cbn. unfold valid_axis, norm. split; [lia|]. f_equal. replace (Z.of_nat k <? 0) with false by (symmetry; apply Z.ltb_ge; lia). lia. }
    exists y, (balanced_counts P (bs ++ [m; q]) (Some k)). split; [auto|]. split; [congruence|]. split; [auto|]. rewrite SC in *. unfold rep in *. rewrite E2, E3 in *.
    split. { destruct E4 as (L & _). rewrite L. cbn. destruct (zcounts_ok (nth k (bs ++ [m; q]) 0) P HP) as (ZL & _); [|auto]. rewrite Forall_forall in NNs. apply NNs, nth_In. rewrite len2. lia. }
    eapply RollProofs2.represents_ext; [|exact E4]. intros idx Hi. apply in_bounds_2 in Hi as (js & i & j & -> & J1 & J2 & J3). now rewrite HC.
  - intros (-> & cnts & EL & HR). assert (LL : length cs = P) by (destruct HR as (L & _); congruence).
    destruct (C55_array_is_split V cs k PR (bs ++ [m; q]) cnts HR ltac:(lia)) as (y & bal & E & E1 & E2 & E3 & E4 & _).
    rewrite E. cbn [bind fst]. exists y, cnts. rewrite E3. auto.
  - intros (ES & EG & cnts & k & -> & EL & HR). exists y, cnts. assert (LL : length (d_locals y) = P) by (destruct HR as (L & _); congruence).
    do 4 (split; [auto|]). unfold rep. now rewrite ES, EG.
Qed.

(** the dispatch for operands of the same dimension *)
Lemma matmul_same : (2 <= P)%nat -> (forall s, d_split a = Some s -> (length bs <= s)%nat) -> (forall s, d_split b = Some s -> (length bs <= s)%nat) ->
  forall ar, matmul zero add mul a b ar = (do o <- matmul_nd zero add mul a b ar; finish_matrix zero P o).
Proof.
  intros H2 SA SB ar. unfold matmul. rewrite GA, GB, !len2, LA, Nat.max_id. replace (length bs + 2 - 2)%nat with (length bs) by lia. replace (length bs + 2 - 1)%nat with (S (length bs)) by lia.
  rewrite !first_bs, !nth_r0, !nth_r1.
  replace (eqb_idx bs bs) with true by (symmetry; now apply eqb_idx_eq). cbn [negb]. rewrite andb_false_r.
  replace (length bs + 2 =? S (length bs))%nat with false by (symmetry; apply Nat.eqb_neq; lia). cbn [andb orb negb]. rewrite Nat.eqb_refl. cbn [negb].
  replace (length bs + 2 =? 1)%nat with false by (symmetry; apply Nat.eqb_neq; lia). cbn [andb]. rewrite Z.eqb_refl. cbn [negb].
  assert (EA : match d_split a with Some s => (s <? length bs)%nat | None => false end = false).
  { destruct (d_split a); [|auto]. apply Nat.ltb_ge. auto. }
  assert (EB : match d_split b with Some s => (s <? length bs)%nat | None => false end = false).
  { destruct (d_split b); [|auto]. apply Nat.ltb_ge. auto. }
  rewrite EA, EB. cbn [andb orb]. rewrite !andb_false_r. cbn [bind]. replace (P =? 1)%nat with false by (symmetry; apply Nat.eqb_neq; lia). rewrite andb_true_r. reflexivity.
Qed.
Lemma matmul_batch s : (2 <= P)%nat -> (s < length bs)%nat -> d_split a = Some s -> d_split b = Some s ->
  forall ar, matmul zero add mul a b ar = (do o <- matmul_nd zero add mul a b ar; finish_matrix zero P o).
Proof.
  intros H2 Hs SA SB ar. unfold matmul. rewrite GA, GB, !len2, LA, Nat.max_id. replace (length bs + 2 - 2)%nat with (length bs) by lia. replace (length bs + 2 - 1)%nat with (S (length bs)) by lia.
  rewrite !first_bs, !nth_r0, !nth_r1.
  replace (eqb_idx bs bs) with true by (symmetry; now apply eqb_idx_eq). cbn [negb]. rewrite andb_false_r.
  replace (length bs + 2 =? S (length bs))%nat with false by (symmetry; apply Nat.eqb_neq; lia). cbn [andb orb negb]. rewrite Nat.eqb_refl. cbn [negb].
  replace (length bs + 2 =? 1)%nat with false by (symmetry; apply Nat.eqb_neq; lia). cbn [andb]. rewrite Z.eqb_refl. cbn [negb].
  rewrite SA, SB, Nat.eqb_refl. cbn [negb]. rewrite !andb_false_r. cbn [bind]. replace (P =? 1)%nat with false by (symmetry; apply Nat.eqb_neq; lia). rewrite andb_true_r. reflexivity.
Qed.
End Whole.

(** ** vectors *)
Section Vec.
Context {V : Type}.
Variable zero : V.
Lemma squeeze_col (t : arr V) x F : 0 <= x -> M2 t [] x 1 F -> agrees (squeeze_vec zero t) [x] (fun idx => F [] (nth 0 idx 0) 0).
Proof.
  intros Hx [E H]. cbn in E. unfold squeeze_vec. rewrite E. cbn [zprod fold_right nth]. destruct (Z.eqb_spec (x * (1 * 1)) 0) as [Z|N].
  - assert (x = 0) by lia. subst x. split; [reflexivity|]. intros idx Hi. inversion Hi; subst. lia.
  - destruct (Z.eqb_spec x 1) as [->|N1].
    + split; [reflexivity|]. intros idx Hi. inversion Hi as [|? i ? l Hi1 Hi2]; subst. inversion Hi2; subst. cbn [adat nth]. assert (i = 0) by lia. subst. apply (H [] 0 0); [constructor|lia|lia].
    + split; [reflexivity|]. intros idx Hi. inversion Hi as [|? i ? l Hi1 Hi2]; subst. inversion Hi2; subst. cbn [adat nth app]. apply (H [] i 0); [constructor|lia|lia].
Qed.
Lemma squeeze_row (t : arr V) y F : 0 <= y -> M2 t [] 1 y F -> agrees (squeeze_vec zero t) [y] (fun idx => F [] 0 (nth 0 idx 0)).
Proof.
  intros Hx [E H]. cbn in E. unfold squeeze_vec. rewrite E. cbn [zprod fold_right nth]. destruct (Z.eqb_spec (1 * (y * 1)) 0) as [Z|N].
  - assert (y = 0) by lia. subst y. split; [reflexivity|]. intros idx Hi. inversion Hi; subst. lia.
  - split; [reflexivity|]. intros idx Hi. inversion Hi as [|? i ? l Hi1 Hi2]; subst. inversion Hi2; subst. cbn [adat nth app]. apply (H [] 0 i); [constructor|lia|lia].
Qed.
Lemma squeeze_none (t : arr V) x y F G : x * y = 0 -> M2 t [] x y F -> agrees (squeeze_vec zero t) [0] G.
Proof.
  intros Z [E H]. cbn in E. unfold squeeze_vec. rewrite E. cbn [zprod fold_right]. replace (x * (y * 1)) with 0 by lia. cbn. split; [reflexivity|]. intros idx Hi. inversion Hi; subst. lia.
Qed.
End Vec.

(** counts that sum to 1 with non-negative entries: one 1, before it nothing *)
Lemma scale_sum n (l : list Z) : zsum (map (fun c => n * c) l) = n * zsum l.
Proof. unfold zsum. induction l as [|x l IH]; cbn; [lia|]. rewrite IH. lia. Qed.

Section VecRep.
Context {V : Type}.
Variables (zero : V) (G : list Z -> V) (P : nat).
Hypothesis HP : (0 < P)%nat.

Definition vec_pieces (H : Z -> V) (n : Z) (ls : list (arr V)) : Prop :=
  exists cnts, length cnts = P /\ represents (fun idx => H (nth 0 idx 0)) [n] (Some 0%nat) cnts ls.

Lemma one_at (cnts : list Z) r : Forall (fun c => 0 <= c) cnts -> zsum cnts = 1 -> (r < length cnts)%nat -> nth r cnts 0 = 0 \/ (nth r cnts 0 = 1 /\ zsum (firstn r cnts) = 0).
Proof.
  intros F S1 Hr. assert (N : 0 <= nth r cnts 0) by (rewrite Forall_forall in F; apply F, nth_In; auto).
  pose proof (zsum_firstn_S cnts r Hr) as ES. pose proof (zsum_firstn_le cnts (S r) F) as HL. pose proof (zsum_firstn_mono cnts 0 r F ltac:(lia)) as HM. cbn [firstn] in HM. unfold zsum at 1 in HM. cbn in HM. lia.
Qed.

Lemma col_pieces n k cnts ls : length cnts = P -> represents G [n; 1] (Some k) cnts ls -> vec_pieces (fun i => G [i; 0]) n (map (squeeze_vec zero) ls).
Proof.
  intros EL HR. assert (HR0 := HR). destruct HR as (L & NN & Hk & F & S1 & HRr). inversion NN as [|? ? Hn _]; subst.
  assert (FN : forall r, 0 <= nth r cnts 0).
  { intros r. destruct (Nat.lt_ge_cases r (length cnts)); [|rewrite nth_overflow; lia]. rewrite Forall_forall in F. apply F, nth_In. auto. }
  destruct k as [|[|k]]; [| |cbn in Hk; lia].
  - exists cnts. split; [auto|]. split; [now rewrite map_length|]. split; [auto|]. split; [cbn; lia|]. split; [auto|]. split; [auto|].
    intros r t Ht. rewrite nth_error_map in Ht. destruct (nth_error ls r) as [u|] eqn:Eu; [|discriminate]. cbn in Ht. injection Ht as <-.
    pose proof (rep_row G [] n 1 cnts ls r u HR0 Eu) as HM. destruct (squeeze_col zero u _ _ (FN r) HM) as [Q1 Q2]. split; [exact Q1|].
    intros idx Hi. rewrite Q2 by exact Hi. inversion Hi as [|? i ? l Hi1 Hi2]; subst. inversion Hi2; subst. reflexivity.
  - exists (map (fun c => n * c) cnts). split; [now rewrite map_length|]. split; [now rewrite !map_length|]. split; [auto|]. split; [cbn; lia|].
    split. { apply Forall_forall. intros c Hc. apply in_map_iff in Hc as (d & <- & Hd). rewrite Forall_forall in F. specialize (F d Hd). nia. }
    split; [rewrite scale_sum, S1; cbn; lia|]. intros r t Ht. rewrite nth_error_map in Ht. destruct (nth_error ls r) as [u|] eqn:Eu; [|discriminate]. cbn in Ht. injection Ht as <-.
    assert (Hr : (r < length cnts)%nat) by (rewrite <- L; apply nth_error_Some; congruence).
    pose proof (rep_col G [] n 1 cnts ls r u HR0 Eu) as HM. rewrite (nth_indep _ 0 (n * 0)) by (now rewrite map_length). rewrite (map_nth (fun c => n * c)). rewrite firstn_map, scale_sum.
    destruct (one_at cnts r F S1 Hr) as [E0|[E1 E2]].
    + rewrite E0 in HM |- *. cbn [upd]. replace (n * 0) with 0 by lia. now apply (squeeze_none zero u n 0 _ _ ltac:(lia) HM).
    + rewrite E1, E2 in HM |- *. cbn [upd]. replace (n * 1) with n by lia. destruct (squeeze_col zero u _ _ Hn HM) as [Q1 Q2]. split; [exact Q1|].
      intros idx Hi. rewrite Q2 by exact Hi. inversion Hi as [|? i ? l Hi1 Hi2]; subst. inversion Hi2; subst. cbn. unfold move_axis_idx. cbn. f_equal. f_equal; lia.
Qed.
Lemma row_pieces n k cnts ls : length cnts = P -> represents G [1; n] (Some k) cnts ls -> vec_pieces (fun j => G [0; j]) n (map (squeeze_vec zero) ls).
Proof.
  intros EL HR. assert (HR0 := HR). destruct HR as (L & NN & Hk & F & S1 & HRr). inversion NN as [|? ? _ NN2]; subst. inversion NN2 as [|? ? Hn _]; subst.
  assert (FN : forall r, 0 <= nth r cnts 0).
  { intros r. destruct (Nat.lt_ge_cases r (length cnts)); [|rewrite nth_overflow; lia]. rewrite Forall_forall in F. apply F, nth_In. auto. }
  destruct k as [|[|k]]; [| |cbn in Hk; lia].
  - exists (map (fun c => n * c) cnts). split; [now rewrite map_length|]. split; [now rewrite !map_length|]. split; [auto|]. split; [cbn; lia|].
    split. { apply Forall_forall. intros c Hc. apply in_map_iff in Hc as (d & <- & Hd). rewrite Forall_forall in F. specialize (F d Hd). nia. }
    split; [rewrite scale_sum, S1; cbn; lia|]. intros r t Ht. rewrite nth_error_map in Ht. destruct (nth_error ls r) as [u|] eqn:Eu; [|discriminate]. cbn in Ht. injection Ht as <-.
    assert (Hr : (r < length cnts)%nat) by (rewrite <- L; apply nth_error_Some; congruence).
    pose proof (rep_row G [] 1 n cnts ls r u HR0 Eu) as HM. rewrite (nth_indep _ 0 (n * 0)) by (now rewrite map_length). rewrite (map_nth (fun c => n * c)). rewrite firstn_map, scale_sum.
    destruct (one_at cnts r F S1 Hr) as [E0|[E1 E2]].
    + rewrite E0 in HM |- *. cbn [upd]. replace (n * 0) with 0 by lia. now apply (squeeze_none zero u 0 n _ _ ltac:(lia) HM).
    + rewrite E1, E2 in HM |- *. cbn [upd]. replace (n * 1) with n by lia. destruct (squeeze_row zero u _ _ Hn HM) as [Q1 Q2]. split; [exact Q1|].
      intros idx Hi. rewrite Q2 by exact Hi. inversion Hi as [|? i ? l Hi1 Hi2]; subst. inversion Hi2; subst. cbn. unfold move_axis_idx. cbn. do 2 f_equal. f_equal; lia.
  - exists cnts. split; [auto|]. split; [now rewrite map_length|]. split; [auto|]. split; [cbn; lia|]. split; [auto|]. split; [auto|].
    intros r t Ht. rewrite nth_error_map in Ht. destruct (nth_error ls r) as [u|] eqn:Eu; [|discriminate]. cbn in Ht. injection Ht as <-.
    pose proof (rep_col G [] 1 n cnts ls r u HR0 Eu) as HM. destruct (squeeze_row zero u _ _ (FN r) HM) as [Q1 Q2]. split; [exact Q1|].
    intros idx Hi. rewrite Q2 by exact Hi. inversion Hi as [|? i ? l Hi1 Hi2]; subst. inversion Hi2; subst. reflexivity.
Qed.
End VecRep.

Section FinishVec.
Context {V : Type}.
Variables (zero : V) (add mul : V -> V -> V).
Variables (m K q n : Z) (P : nat) (A B : list Z -> V).
Hypotheses (HP : (0 < P)%nat) (Hm : 0 <= m) (Hq : 0 <= q).
Let PR := product zero add mul K A B.
(** the entry of the vector *)
Variable H : Z -> V.
Hypothesis shape : (q = 1 /\ n = m /\ forall i, H i = PR [i; 0]) \/ (m = 1 /\ n = q /\ forall j, H j = PR [0; j]).

Lemma squeeze_any (t : arr V) : M2 t [] m q (fun js i j => PR (js ++ [i; j])) -> agrees (squeeze_vec zero t) [n] (fun idx => H (nth 0 idx 0)).
Proof.
  intros HM. destruct shape as [(-> & -> & E)|(-> & -> & E)].
  - destruct (squeeze_col zero t m _ Hm HM) as [Q1 Q2]. split; [auto|]. intros idx Hi. rewrite Q2, E by auto. reflexivity.
  - destruct (squeeze_row zero t q _ Hq HM) as [Q1 Q2]. split; [auto|]. intros idx Hi. rewrite Q2, E by auto. reflexivity.
Qed.
Lemma pieces_any cnts k ls : length cnts = P -> represents PR [m; q] (Some k) cnts ls -> vec_pieces P H n (map (squeeze_vec zero) ls).
Proof.
  intros EL HR. destruct shape as [(-> & -> & E)|(-> & -> & E)].
  - destruct (col_pieces zero PR P HP m k cnts ls EL HR) as (c & L & R). exists c. split; [auto|]. eapply RollProofs2.represents_ext; [|exact R]. intros. now rewrite E.
  - destruct (row_pieces zero PR P HP q k cnts ls EL HR) as (c & L & R). exists c. split; [auto|]. eapply RollProofs2.represents_ext; [|exact R]. intros. now rewrite E.
Qed.
Lemma n_nonneg : 0 <= n. Proof. destruct shape as [(_ & -> & _)|(_ & -> & _)]; auto. Qed.
Lemma finish_vec_ok s o : good zero add mul [] m K q P A B s o ->
  exists y cy, finish_vector zero P o = Ok y /\ d_gshape y = [n] /\ d_split y = match s with Some _ => Some 0%nat | None => None end /\
    length (d_locals y) = P /\ rep y cy (fun idx => H (nth 0 idx 0)).
Proof.
  pose proof n_nonneg as Hn. destruct o as [y|cs k|cs k|y]; cbn [good finish_vector].
  - intros (-> & ES & EG & EL & HM). eexists _, (repeat 0 P). split; [reflexivity|]. cbn [d_gshape d_split d_locals].
    assert (SG : ash (squeeze_vec zero (zeros zero (d_gshape y))) = [n]).
    { rewrite EG. destruct shape as [(-> & -> & _)|(-> & -> & _)].
      - apply (squeeze_col zero _ m (fun _ _ _ => zero) Hm). apply zeros_M2.
      - apply (squeeze_row zero _ q (fun _ _ _ => zero) Hq). apply zeros_M2. }
    split; [exact SG|]. split; [auto|]. split; [now rewrite map_length|]. unfold rep. cbn [d_gshape d_split d_locals]. rewrite SG. split; [now rewrite map_length, repeat_length|]. split; [auto|].
    intros t Ht. apply in_map_iff in Ht as (u & <- & Hu). apply squeeze_any, HM, Hu.
  - intros (-> & Hk & EL & HM). destruct cs as [|c cs]; [cbn in EL; lia|]. cbn [hd]. destruct (squeeze_any c (HM c (or_introl eq_refl))) as [SC HC].
    destruct (C55_array_split V P (squeeze_vec zero c) (AxInt 0) (Some 0%nat)) as (y & E1 & E2 & E3 & E4); auto; [now rewrite SC; constructor| |].
    { rewrite SC. cbn. unfold valid_axis, norm. split; [lia|]. reflexivity. }
    exists y, (balanced_counts P [n] (Some 0%nat)). split; [auto|]. split; [congruence|]. split; [auto|]. rewrite SC in *. unfold rep in *. rewrite E2, E3 in *.
    split. { destruct E4 as (L & _). rewrite L. cbn. destruct (zcounts_ok n P HP Hn) as (ZL & _). auto. }
    eapply RollProofs2.represents_ext; [|exact E4]. intros idx Hi. now apply HC.
  - intros (-> & cnts & EL & HR). destruct (pieces_any cnts k cs EL HR) as (c & L & R).
    destruct (C55_array_is_split V _ 0%nat _ [n] c R) as (y & bal & E & E1 & E2 & E3 & E4 & _). { destruct R as (L2 & _). rewrite L2. lia. }
    rewrite E. cbn [bind fst]. exists y, c. destruct R as (L2 & _). rewrite E3. do 4 (split; [auto; congruence|]). auto.
  - intros (ES & EG & cnts & k & -> & EL & HR). destruct (pieces_any cnts k _ EL HR) as (c & L & R).
    destruct (C55_array_is_split V _ 0%nat _ [n] c R) as (z & bal & E & E1 & E2 & E3 & E4 & _). { destruct R as (L2 & _). rewrite L2. lia. }
    rewrite E. cbn [bind fst]. exists z, c. destruct R as (L2 & _). rewrite E3. do 4 (split; [auto; congruence|]). auto.
Qed.
End FinishVec.
