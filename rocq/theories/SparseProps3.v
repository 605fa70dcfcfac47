(** C60 continued: a concrete element-wise operation, refused operands, numbers, data types *)
From Verif Require Import Base BaseLemmas LayoutModel LayoutProofs RedistModel RedistProofs TensorSpec NdSpec TensorLemmas NdLemmas OpsModel OpsProofs2 OpsProofs4 ShapeModel ShapeProps BinModel CsvProofs3 FactoryModel ConcatProofs3 DtypeModel DtypeProofs3 TypesModel SparseSpec SparseModel SparseProofs SparseProofs2 SparseProps SparseProps2.
From Verif Require RollProofs.
Open Scope nat_scope.

(** an operation on stored matrices that acts as [f] on the elements *)
Definition op_ex (f : Z -> Z -> Z) (a b : csx Z) : res (csx Z) :=
  if (x_major a =? x_major b) && (x_minor a =? x_minor b)
  then Ok (of_lines (x_minor a) (map (fun i => map (fun j => (j, f (entry 0%Z a i j) (entry 0%Z b i j))) (seq 0 (x_minor a))) (seq 0 (x_major a))))
  else Err RuntimeError.
Lemma find_map (F : nat -> Z) j : forall m a, a <= j < a + m ->
  find (fun p => fst p =? j) (map (fun j => (j, F j)) (seq a m)) = Some (j, F j).
Proof.
  induction m as [|m IH]; intros a H; [lia|]. cbn [seq map find fst]. destruct (Nat.eqb_spec a j); [now subst|]. apply IH. lia.
Qed.
Lemma op_ex_ok f : elementwise 0%Z f (op_ex f).
Proof.
  split.
  - intros a b Wa Wb E1 E2. unfold op_ex. rewrite E1, E2, !Nat.eqb_refl. cbn [andb]. eexists. split; [reflexivity|]. split; [|split; [|split; [reflexivity|]]].
    + apply of_lines_wf. apply Forall_forall. intros l Hl. apply in_map_iff in Hl as (i & <- & _). split.
      * rewrite map_map. cbn [fst]. rewrite map_id. apply seq_NoDup.
      * apply Forall_forall. intros p Hp. apply in_map_iff in Hp as (j & <- & Hj). apply in_seq in Hj. cbn [fst]. lia.
    + cbn [of_lines x_major]. now rewrite map_length, seq_length.
    + intros i j Hi Hj. unfold entry at 1. rewrite of_lines_line by (now rewrite map_length, seq_length).
      rewrite (@nth_map_seq _ (fun i => map (fun j => (j, f (entry 0%Z a i j) (entry 0%Z b i j))) (seq 0 (x_minor b)))) by auto.
      rewrite (find_map (fun j => f (entry 0%Z a i j) (entry 0%Z b i j))) by lia. reflexivity.
  - intros a b H. unfold op_ex. destruct (Nat.eqb_spec (x_major a) (x_major b)), (Nat.eqb_spec (x_minor a) (x_minor b)); try reflexivity. destruct H; contradiction.
Qed.

Example C60_binary_hyps : elementwise 0%Z Z.add (op_ex Z.add) /\ (0 + 0 = 0)%Z /\ stores ex_dcsx ex_glob /\ same_layout ex_dcsx ex_dcsx /\
  exists y, binary_op (op_ex Z.add) false ex_dcsx ex_dcsx = Ok y /\ map (fun j => entry 0%Z (nth 0 (s_locals y) ex_csx) 0 j) [0; 1; 2; 3] = [0; 10; 0; 14]%Z.
Proof.
  split; [apply op_ex_ok|]. split; [reflexivity|]. split; [apply ex_stores|]. split; [split; reflexivity|]. eexists. split; [vm_compute; reflexivity|reflexivity].
Qed.

Theorem C60_binary_shapes : forall (V : Type) (op : csx V -> csx V -> res (csx V)) (col : bool) (a b : dcsx V),
  s_major a <> s_major b \/ s_minor a <> s_minor b -> binary_op op col a b = Err ValueError.
Proof.
  intros V op col a b H. unfold binary_op. destruct (Nat.eqb_spec (s_major a) (s_major b)), (Nat.eqb_spec (s_minor a) (s_minor b)); try reflexivity. destruct H; contradiction.
Qed.

(** two matrices of one shape but distributed differently: some rank's torch call raises *)
Theorem C60_layouts : forall (V : Type) (zero : V) (f : V -> V -> V) (op : csx V -> csx V -> res (csx V)) (col : bool) (a b : dcsx V) (r : nat) (t u : csx V),
  elementwise zero f op -> s_split a = true -> s_split b = true ->
  Forall well_formed (s_locals a) -> Forall well_formed (s_locals b) ->
  s_major a = s_major b -> s_minor a = s_minor b ->
  nth_error (s_locals a) r = Some t -> nth_error (s_locals b) r = Some u -> x_major t <> x_major u ->
  length (x_val t) <> 0 \/ length (x_val u) <> 0 ->
  binary_op op col a b = Err RuntimeError.
Proof.
  intros V zero f op col a b r t u [HO1 HO2] Sa Sb Wa Wb EM Em Ht Hu ND NZ. unfold binary_op. rewrite EM, Em, !Nat.eqb_refl. cbn [andb negb].
  unfold distribute. rewrite Sa, Sb. cbn [negb andb bind].
  assert (Q : forall la lb r, Forall well_formed la -> Forall well_formed lb -> nth_error la r = Some t -> nth_error lb r = Some u ->
     all_ok (map (fun p => binary_local op (fst p) (snd p)) (combine la lb)) = Err RuntimeError).
  { clear -HO1 HO2 ND NZ. induction la as [|x la IH]; intros [|y lb] [|r] Wa Wb Ht Hu; try discriminate; inversion Wa; inversion Wb; subst; cbn [nth_error combine map fst snd all_ok] in *.
    - injection Ht as ->. injection Hu as ->. unfold binary_local, lnnz.
      destruct (Nat.eqb_spec (length (x_val t)) 0), (Nat.eqb_spec (length (x_val u)) 0); cbn [andb]; try (rewrite HO2 by auto; reflexivity). lia.
    - assert (E : exists e, binary_local op x y = e /\ (e = Err RuntimeError \/ exists c, e = Ok c)).
      { eexists. split; [reflexivity|]. unfold binary_local. destruct (_ && _); [eauto|]. destruct (Nat.eq_dec (x_major x) (x_major y)), (Nat.eq_dec (x_minor x) (x_minor y)); try (left; apply HO2; auto; fail).
        destruct (HO1 x y) as (c & -> & _); eauto. }
      destruct E as (e & -> & [->|(c & ->)]); [reflexivity|]. cbn [bind]. rewrite (IH lb r) by auto. reflexivity. }
  rewrite (Q _ _ r Wa Wb Ht Hu). reflexivity.
Qed.
Example C60_layouts_hyps : exists a b : dcsx Z, stores a ex_glob /\ stores b ex_glob /\ s_split a = true /\ s_split b = true /\
  binary_op (op_ex Z.add) false a b = Err RuntimeError.
Proof.
  assert (Wg : well_formed ex_glob) by apply ex_stores.
  destruct (C58_split Z 0%Z false 2 ex_glob true ltac:(lia) Wg) as (b & Eb & Sb & Hb & Lb & LAY & _).
  exists ex_dcsx, b. split; [apply ex_stores|]. split; [auto|]. split; [reflexivity|]. split; [auto|].
  vm_compute in Eb. injection Eb as <-. vm_compute. reflexivity.
Qed.

(** a number on one side: the stored elements are changed, so the result is right exactly
    when the operation maps zero to zero *)
Lemma map_vals_wf {V} (g : V -> V) (t : csx V) : well_formed t -> well_formed (Csx (x_major t) (x_minor t) (x_ptr t) (x_ind t) (map g (x_val t))) /\
  forall i, line (Csx (x_major t) (x_minor t) (x_ptr t) (x_ind t) (map g (x_val t))) i = map (fun p => (fst p, g (snd p))) (line t i).
Proof.
  intros W. set (u := Csx _ _ _ _ _).
  assert (LN : forall i, line u i = map (fun p => (fst p, g (snd p))) (line t i)).
  { intros i. unfold line, u. cbn [x_ptr x_ind x_val]. unfold sub. rewrite skipn_map, firstn_map.
    generalize (firstn (nth (S i) (x_ptr t) 0 - nth i (x_ptr t) 0) (skipn (nth i (x_ptr t) 0) (x_ind t))) as p.
    generalize (firstn (nth (S i) (x_ptr t) 0 - nth i (x_ptr t) 0) (skipn (nth i (x_ptr t) 0) (x_val t))) as q.
    induction q as [|v q IH]; intros [|k p]; cbn; auto. now rewrite IH. }
  split; [|exact LN]. destruct W as (W1 & W2 & W3 & W4 & W5 & W6). repeat split; auto; unfold u in *; cbn [x_major x_minor x_ptr x_ind x_val] in *.
  - now rewrite map_length.
  - rewrite LN, map_map. cbn [fst]. apply W6. auto.
  - rewrite LN. apply Forall_forall. intros p Hp. apply in_map_iff in Hp as (q & <- & Hq). cbn [fst]. destruct (W6 i H) as [_ F]. rewrite Forall_forall in F. auto.
Qed.
Lemma entry_map {V} (zero : V) (g : V -> V) (t u : csx V) i j : line u i = map (fun p => (fst p, g (snd p))) (line t i) ->
  entry zero u i j = match find (fun p => fst p =? j) (line t i) with Some p => g (snd p) | None => zero end.
Proof.
  unfold entry. intros ->. induction (line t i) as [|[k v] l IH]; [reflexivity|]. cbn [map find fst snd]. destruct (k =? j); [reflexivity|exact IH].
Qed.

Theorem C60_scalar : forall (V : Type) (zero : V) (g : V -> V) (col : bool) (a : dcsx V) (ga : csx V),
  g zero = zero -> stores a ga ->
  exists y, scalar_op g col a = Ok y /\ s_split y = s_split a /\ layout y = layout a /\
    result_of zero y (x_major ga) (x_minor ga) (fun i j => g (entry zero ga i j)).
Proof.
  intros V zero g col a ga G0 (Wg & NE & W & MA & MI & NZ & ST). unfold scalar_op.
  set (h := fun t : csx V => Csx (x_major t) (x_minor t) (x_ptr t) (x_ind t) (map g (x_val t))).
  assert (Hh : forall t, well_formed t -> well_formed (h t)) by (intros t Ht; now apply map_vals_wf).
  assert (EH : forall t i, well_formed t -> line (h t) i = map (fun p => (fst p, g (snd p))) (line t i)) by (intros; now apply map_vals_wf).
  assert (EE : forall u i j, (forall k, line u k = map (fun p => (fst p, g (snd p))) (line ga k)) -> entry zero u i j = g (entry zero ga i j)).
  { intros u i j HL. rewrite (entry_map zero g ga u i j) by auto. unfold entry. destruct (find _ _); auto. }
  destruct (s_split a) eqn:ES.
  - assert (STh : stacked (map h (s_locals a)) (h ga)).
    { destruct ST as (S1 & S2 & S3). split; [|split].
      - rewrite map_map. cbn. exact S1.
      - apply Forall_forall. intros t Ht. apply in_map_iff in Ht as (u & <- & Hu). rewrite Forall_forall in S2. cbn. auto.
      - assert (Q : map (map (fun p => (fst p, g (snd p)))) (flat_map (fun t => map (line t) (seq 0 (x_major t))) (s_locals a)) = map (map (fun p => (fst p, g (snd p)))) (map (line ga) (seq 0 (x_major ga)))) by (now rewrite S3).
        assert (R1 : forall ls, Forall well_formed ls -> map (map (fun p => (fst p, g (snd p)))) (flat_map (fun t => map (line t) (seq 0 (x_major t))) ls) = flat_map (fun t => map (line t) (seq 0 (x_major t))) (map h ls)).
        { induction 1 as [|t ls Wt HF IH]; [reflexivity|]. cbn [flat_map map]. rewrite map_app, IH. f_equal. rewrite map_map. change (x_major (h t)) with (x_major t). apply map_ext. intros i. symmetry. now apply EH. }
        rewrite R1 in Q by auto. rewrite Q, map_map. change (x_major (h ga)) with (x_major ga). apply map_ext. intros i. symmetry. now apply EH. }
    assert (WL : Forall well_formed (map h (s_locals a))) by (apply Forall_forall; intros t Ht; apply in_map_iff in Ht as (u & <- & Hu); apply Hh; rewrite Forall_forall in W; auto).
    assert (M0 : nth 0 (map x_minor (map h (s_locals a))) 0 = x_minor ga).
    { destruct STh as (_ & S2 & _). destruct (map h (s_locals a)) as [|t l] eqn:E; [destruct (s_locals a); [congruence|discriminate]|]. inversion S2; auto. }
    unfold sparse_is_split. rewrite Nat.eqb_refl. destruct (marks_ok (map h (s_locals a))) as [_ MK]. rewrite MK by (rewrite M0; apply STh).
    eexists. split; [reflexivity|]. cbn [s_split]. split; [auto|]. unfold layout. cbn [s_locals]. split; [rewrite map_map; reflexivity|].
    exists (h ga). split; [|split; [reflexivity|split; [reflexivity|intros i j _ _; apply EE; intros; now apply EH]]].
    split; [auto|]. split; [cbn; destruct (s_locals a); [congruence|discriminate]|]. split; [exact WL|]. cbn [s_major s_minor s_gnnz s_split].
    split; [symmetry; apply STh|]. split; [exact M0|]. split; [|exact STh]. symmetry. exact (nnz_sum _ _ WL (Hh ga Wg) STh).
  - eexists. split; [reflexivity|]. cbn [s_split]. split; [auto|]. unfold layout. cbn [s_locals]. split; [rewrite map_map; reflexivity|].
    exists (h ga). split; [|split; [reflexivity|split; [reflexivity|intros i j _ _; apply EE; intros; now apply EH]]].
    destruct (s_locals a) as [|t l] eqn:EL; [congruence|]. inversion ST as [|? ? Et HF]; subst t.
    split; [auto|]. split; [discriminate|]. split; [cbn [s_locals]; apply Forall_forall; intros t Ht; apply in_map_iff in Ht as (u & <- & Hu); apply Hh; rewrite Forall_forall in W; auto|].
    cbn [s_major s_minor s_gnnz s_split s_locals map hd]. do 3 (split; [reflexivity|]). constructor; [reflexivity|].
    apply Forall_forall. intros t Ht. apply in_map_iff in Ht as (u & <- & Hu). rewrite Forall_forall in HF. now rewrite <- (HF u Hu).
Qed.
Example C60_scalar_hyps : (0 * 3 = 0)%Z /\ stores ex_dcsx ex_glob.
Proof. split; [reflexivity|apply ex_stores]. Qed.

(** A + 2 leaves the elements that are not stored at zero *)
Theorem C60_scalar_add_refuted : exists (a y : dcsx Z) (ga : csx Z), stores a ga /\ scalar_op (fun v => v + 2)%Z false a = Ok y /\
  ~ result_of 0%Z y (x_major ga) (x_minor ga) (fun i j => entry 0 ga i j + 2)%Z.
Proof.
  exists ex_dcsx. eexists. exists ex_glob. split; [apply ex_stores|]. split; [vm_compute; reflexivity|].
  intros (g & HS & E1 & E2 & E3). specialize (E3 0 0 ltac:(cbn; lia) ltac:(cbn; lia)).
  destruct HS as (Wg & _ & _ & _ & _ & _ & ST). cbn [s_split s_locals] in ST.
  pose proof (stacked_line _ g 0 _ 0 ST eq_refl ltac:(cbn; lia)) as LN. cbn [map psum firstn] in LN. change (psum _ 0 + 0) with 0 in LN.
  unfold entry at 1 in E3. rewrite LN in E3. vm_compute in E3. discriminate.
Qed.

(** every rank that stores an element of one of the operands records the promoted type *)
Theorem C60_dtype : forall (t1 t2 : ht) (n1 n2 : nat), n1 <> 0 \/ n2 <> 0 -> binary_dtype t1 t2 (n1, n2) = promote t1 t2.
Proof. intros t1 t2 n1 n2 H. unfold binary_dtype. cbn [fst snd]. destruct (Nat.eqb_spec n1 0), (Nat.eqb_spec n2 0); try reflexivity. lia. Qed.
(** ranks without stored elements keep the type of the first operand: int64 matrix + float32
    matrix of which rank 1 stores nothing *)
Definition ex_hole : dcsx Z := Dcsx [ex_csx2; Csx 1 4 [0; 0] [] []] 1 2 4 true.
Definition ex_hole_g : csx Z := Csx 2 4 [0; 1; 1] [2] [8]%Z.
Theorem C60_dtype_refuted : exists (a b : dcsx Z) (g : csx Z) (t1 t2 : ht),
  stores a g /\ stores b g /\ same_layout a b /\
  ~ exists t, forall r x y, nth_error (s_locals a) r = Some x -> nth_error (s_locals b) r = Some y ->
      binary_dtype t1 t2 (lnnz x, lnnz y) = t.
Proof.
  exists ex_hole, ex_hole, ex_hole_g, HInt64, HFloat32.
  assert (HS : stores ex_hole ex_hole_g).
  { split; [|split; [discriminate|split; [|split; [reflexivity|split; [reflexivity|split; [reflexivity|]]]]]].
    - repeat split.
      + intros i Hi. destruct i as [|[|]]; cbn in *; lia.
      + destruct i as [|[|]]; cbn in *; try lia; repeat constructor; cbn; intuition lia.
      + destruct i as [|[|]]; cbn in *; try lia; repeat constructor; cbn; lia.
    - constructor; [apply ex_csx2_wf|]. constructor; [|constructor]. repeat split.
      + intros i Hi. destruct i as [|]; cbn in *; lia.
      + destruct i as [|]; cbn in *; try lia; repeat constructor; cbn; intuition lia.
      + destruct i as [|]; cbn in *; try lia; repeat constructor; cbn; lia.
    - split; [reflexivity|]. split; [repeat constructor|reflexivity]. }
  do 2 (split; [exact HS|]). split; [split; reflexivity|]. intros (t & H).
  pose proof (H 0 _ _ eq_refl eq_refl) as H0. pose proof (H 1 _ _ eq_refl eq_refl) as H1. rewrite <- H1 in H0. vm_compute in H0. discriminate.
Qed.
