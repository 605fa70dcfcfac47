(** C59: data, indices, indptr of a distributed sparse matrix are those of the whole matrix.
    C60: add, mul and scalar operations act element by element. *)
From Verif Require Import Base BaseLemmas LayoutModel LayoutProofs RedistModel RedistProofs TensorSpec NdSpec TensorLemmas NdLemmas OpsModel OpsProofs2 OpsProofs4 ShapeModel ShapeProps BinModel CsvProofs3 FactoryModel ConcatProofs3 DtypeModel DtypeProofs3 TypesModel SparseSpec SparseModel SparseProofs SparseProofs2 SparseProps.
From Verif Require RollProofs.
Open Scope nat_scope.

Theorem C59_views : forall (V : Type) (zero : V) (y : dcsx V) (g : csx V),
  stores y g -> (Z.of_nat (length (x_val g)) <= 2 ^ 24)%Z ->
  gdata zero y = Ok (x_val g) /\ gindices y = Ok (x_ind g) /\ gindptr y = Ok (x_ptr g).
Proof.
  intros V zero y g (Wg & NE & W & MA & MI & NZ & ST) SM. destruct (s_split y) eqn:ES.
  - destruct (views_exact zero y g ES) as (A & B & C & _); auto. unfold small. rewrite NZ. exact SM.
  - unfold gdata, gindices, gindptr, gather_nnz. rewrite ES. destruct (s_locals y) as [|t l]; [congruence|]. inversion ST; subst. auto.
Qed.

Lemma nth_error_combine_seq {A} (l : list A) : forall k r t, nth_error l r = Some t -> nth_error (combine (seq k (length l)) l) r = Some (k + r, t).
Proof.
  induction l as [|a l IH]; intros k r t H; destruct r; try discriminate; cbn [length seq combine nth_error] in *.
  - injection H as ->. now rewrite Nat.add_0_r.
  - rewrite (IH (S k) r t H). do 2 f_equal. lia.
Qed.

(** the pieces of the row pointer a DNDarray is built from, one per rank *)
Theorem C59_global_indptr : forall (V : Type) (y : dcsx V) (g : csx V),
  stores y g -> (Z.of_nat (length (x_val g)) <= 2 ^ 24)%Z ->
  if s_split y
  then exists parts, global_indptr y = Ok parts /\ concat parts = x_ptr g /\
         forall r t, nth_error (s_locals y) r = Some t ->
           length (nth r parts []) = x_major t + (if S r =? length (s_locals y) then 1 else 0)
  else global_indptr y = Err ValueError.
Proof.
  intros V y g HS SM. pose proof HS as (Wg & NE & W & MA & MI & NZ & ST). destruct (s_split y) eqn:ES.
  - assert (GP : gindptr y = Ok (x_ptr g)) by (apply indptr_exact; auto; unfold small; rewrite NZ; exact SM).
    unfold gindptr in GP. rewrite ES in GP. unfold global_indptr in *. rewrite ES in *. cbn [bind] in GP. injection GP as GP.
    eexists. split; [reflexivity|]. split; [exact GP|]. intros r t Ht. rewrite (nth_error_nth _ _ (x:=indptr_part y r t) []).
    2:{ rewrite nth_error_map. rewrite (nth_error_combine_seq (s_locals y) 0 r t Ht). reflexivity. }
    assert (r < length (s_locals y)) by (apply nth_error_Some; congruence).
    assert (LP : length (x_ptr t) = S (x_major t)) by (rewrite Forall_forall in W; apply (W t); eapply nth_error_In; eauto).
    unfold indptr_part. destruct (Nat.eqb_spec r (length (s_locals y) - 1)), (Nat.eqb_spec (S r) (length (s_locals y))); try lia.
    + rewrite map_length. lia.
    + rewrite removelast_firstn_len, firstn_length, map_length. lia.
  - unfold global_indptr. now rewrite ES.
Qed.

Definition ex_dcsx : dcsx Z := Dcsx [ex_csx; ex_csx2] 4 4 4 true.
Definition ex_glob : csx Z := Csx 4 4 [0; 2; 2; 3; 4] [1; 3; 0; 2] [5; 7; 9; 8]%Z.
Lemma ex_stores : stores ex_dcsx ex_glob.
Proof.
  split; [|split; [discriminate|split; [apply C58_is_split_hyps|split; [reflexivity|split; [reflexivity|split; [reflexivity|]]]]]].
  - repeat split.
    + intros i Hi. destruct i as [|[|[|[|]]]]; cbn in *; lia.
    + destruct i as [|[|[|[|]]]]; cbn in *; try lia; repeat constructor; cbn; intuition lia.
    + destruct i as [|[|[|[|]]]]; cbn in *; try lia; repeat constructor; cbn; lia.
  - split; [reflexivity|]. split; [repeat constructor|reflexivity].
Qed.
Example C59_views_hyps : stores ex_dcsx ex_glob /\ (Z.of_nat (length (x_val ex_glob)) <= 2 ^ 24)%Z /\
  gindptr ex_dcsx = Ok [0; 2; 2; 3; 4].
Proof. split; [apply ex_stores|]. split; [cbn; lia|reflexivity]. Qed.

(** above 2^24 stored elements the offsets, kept in float32, are wrong: the row pointer of a
    matrix with 2^24 + 2 stored elements on three ranks *)
Definition one_line (m n : nat) : csx Z := Csx 1 m [0; n] (seq 0 n) (repeat 1%Z n).
Theorem C59_views_large_refuted : exists (y : dcsx Z) (g : csx Z) (p : list nat),
  stores y g /\ Z.of_nat (length (x_val g)) = (2 ^ 24 + 2)%Z /\ gindptr y = Ok p /\ p <> x_ptr g.
Proof.
  destruct (Z_of_nat_complete 16777216 ltac:(lia)) as (N & EN'). assert (EN : Z.of_nat N = 16777216%Z) by (symmetry; exact EN'). clear EN'.
  assert (W : forall n, n <= N -> well_formed (one_line N n)).
  { intros n Hn. split; [reflexivity|]. split; [reflexivity|]. split; [|split; [|split]].
    - intros i Hi. cbn [one_line x_major] in Hi. destruct i; [cbn; lia|lia].
    - cbn [one_line x_major x_ptr x_ind nth]. now rewrite seq_length.
    - cbn [one_line x_val x_ind]. now rewrite seq_length, repeat_length.
    - intros i Hi. cbn [one_line x_major] in Hi. destruct i; [|lia].
      assert (EL : map fst (line (one_line N n) 0) = seq 0 n).
      { unfold line. cbn [one_line x_ptr x_ind x_val nth]. rewrite Nat.sub_0_r. rewrite combine_sub_fst by (now rewrite seq_length, repeat_length).
        unfold sub. cbn [skipn]. apply firstn_all2. rewrite seq_length. lia. }
      split; [rewrite EL; apply seq_NoDup|]. apply Forall_forall. intros q Hq. apply (in_map fst) in Hq. rewrite EL in Hq. apply in_seq in Hq. cbn [one_line x_minor]. lia. }
  set (ls := [one_line N N; one_line N 1; one_line N 1]).
  assert (WL : Forall well_formed ls) by (repeat constructor; apply W; lia).
  destruct (stack_exists ls N WL ltac:(repeat constructor)) as (g & Wg & ST & EM).
  assert (NZ : length (x_val g) = N + 2).
  { change (lnnz g = N + 2). rewrite (nnz_sum ls g WL Wg ST). unfold ls, lnnz. cbn [map one_line x_val]. rewrite !repeat_length. unfold list_sum. cbn [fold_right]. lia. }
  exists (Dcsx ls (N + 2) 3 N true), g, [0; N; N; N + 1]. split; [|split; [rewrite NZ; lia|split]].
  - split; [exact Wg|]. split; [discriminate|]. split; [exact WL|]. split; [symmetry; apply ST|]. split; [symmetry; exact EM|]. split; [symmetry; exact NZ|]. exact ST.
  - unfold gindptr, global_indptr. cbn [s_split bind]. f_equal. unfold ls. cbn [s_locals length seq combine map fst snd concat].
    unfold indptr_part, nnz_displ, nnz_counts. cbn [s_locals length Nat.sub Nat.eqb map firstn one_line x_ptr removelast app].
    unfold lnnz. cbn [one_line x_val]. rewrite !repeat_length, EN. change (fl32 16777216) with 16777216%Z. change (fl32 (Z.of_nat 1)) with 1%Z.
    cbn [zsum fold_right]. change (fl32 0) with 0%Z. change (fl32 (16777216 + 0)) with 16777216%Z. change (fl32 (16777216 + (1 + 0))) with 16777216%Z.
    assert (TN : Z.to_nat 16777216 = N) by (rewrite <- EN; apply Nat2Z.id). rewrite !TN. change (Z.to_nat 0) with 0. cbn [app]. repeat match goal with |- _ :: _ = _ :: _ => apply f_equal2; [lia|] end. reflexivity.
  - intros E. assert (Q : nth 2 (x_ptr g) 0 = N + 1).
    { rewrite (wf_ptr g Wg), nth_error_ptr by (rewrite lines_length; destruct ST as (-> & _); unfold ls, list_sum; cbn; lia). apply stacked_lines in ST as (_ & _ & <-).
      unfold ls, lens, lines, psum, list_sum. cbn [map concat app one_line x_major seq firstn fold_right].
      rewrite !line_length by (solve [apply W; lia|cbn; lia]). cbn [one_line x_ptr nth]. lia. }
    rewrite <- E in Q. cbn [nth] in Q. lia.
Qed.

(** * C60 *)
(** the result holds a matrix whose elements are [h] of the position *)
Definition result_of {V} (zero : V) (y : dcsx V) (n m : nat) (h : nat -> nat -> V) : Prop :=
  exists g, stores y g /\ x_major g = n /\ x_minor g = m /\ forall i j, i < n -> j < m -> entry zero g i j = h i j.

(** a + b, a * b: for every combination of distributed and replicated operands; two
    distributed operands must have the same lines per rank, a replicated one is distributed
    evenly *)
Definition same_layout {V} (a b : dcsx V) : Prop :=
  length (s_locals a) = length (s_locals b) /\
  match s_split a, s_split b with
  | true, true => layout a = layout b
  | true, false => layout a = counts_of (s_major a) (length (s_locals a))
  | false, true => layout b = counts_of (s_major b) (length (s_locals b))
  | false, false => True
  end.

Lemma no_entries {V} (zero : V) (t : csx V) i j : well_formed t -> length (x_val t) = 0 -> i < x_major t -> entry zero t i j = zero.
Proof.
  intros W E Hi. unfold entry. replace (line t i) with (@nil (nat * V)); [reflexivity|]. symmetry. apply length_zero_iff_nil.
  rewrite (nnz_lines t W) in E. pose proof (list_sum_nth (lens (lines t)) i) as Q. rewrite lens_nth, lines_nth in Q by auto. lia.
Qed.

Lemma binary_local_ok {V} (zero : V) f op (a b : csx V) : f zero zero = zero -> elementwise zero f op -> well_formed a -> well_formed b ->
  x_major a = x_major b -> x_minor a = x_minor b ->
  exists c, binary_local op a b = Ok c /\ well_formed c /\ x_major c = x_major a /\ x_minor c = x_minor a /\
    forall i j, i < x_major a -> j < x_minor a -> entry zero c i j = f (entry zero a i j) (entry zero b i j).
Proof.
  intros F0 [HO _] Wa Wb EM Em. unfold binary_local, lnnz. destruct ((length (x_val a) =? 0) && (length (x_val b) =? 0)) eqn:E; [|now apply HO].
  apply andb_true_iff in E as [E1 E2]. apply Nat.eqb_eq in E1, E2. exists a. do 4 (split; [solve [auto]|]). intros i j Hi Hj.
  rewrite !no_entries by (auto; congruence). auto.
Qed.

Lemma locals_ok {V} (zero : V) f op : f zero zero = zero -> elementwise zero f op -> forall (la lb : list (csx V)), Forall well_formed la -> Forall well_formed lb ->
  map x_major la = map x_major lb -> map x_minor la = map x_minor lb ->
  exists ls, all_ok (map (fun p => binary_local op (fst p) (snd p)) (combine la lb)) = Ok ls /\ Forall well_formed ls /\
    map x_major ls = map x_major la /\ map x_minor ls = map x_minor la /\
    forall r a b c, nth_error la r = Some a -> nth_error lb r = Some b -> nth_error ls r = Some c ->
      forall i j, i < x_major a -> j < x_minor a -> entry zero c i j = f (entry zero a i j) (entry zero b i j).
Proof.
  intros F0 HO. induction la as [|a la IH]; intros [|b lb] Wa Wb E1 E2; try discriminate.
  - exists []. repeat split; auto. intros r ? ? ? H. destruct r; discriminate.
  - inversion Wa as [|? ? Wa1 Wa2]; inversion Wb as [|? ? Wb1 Wb2]; subst. cbn [map] in E1, E2. injection E1 as E1 E1'. injection E2 as E2 E2'.
    destruct (binary_local_ok zero f op a b F0 HO Wa1 Wb1 E1 E2) as (c & Ec & Wc & C1 & C2 & C3).
    destruct (IH lb Wa2 Wb2 E1' E2') as (ls & EL & WL & L1 & L2 & L3). exists (c :: ls). cbn [combine map fst snd all_ok]. rewrite Ec. cbn [bind].
    change (all_ok (map (fun p => binary_local op (fst p) (snd p)) (combine la lb))) with (all_ok (map (fun p => binary_local op (fst p) (snd p)) (combine la lb))). rewrite EL. cbn [bind].
    split; [reflexivity|]. split; [now constructor|]. split; [cbn [map]; congruence|]. split; [cbn [map]; congruence|].
    intros [|r] u v w Hu Hv Hw; cbn [nth_error] in *; [injection Hu as <-; injection Hv as <-; injection Hw as <-; auto|eauto].
Qed.

Lemma distributed {V} (zero : V) (y : dcsx V) g col other : stores y g ->
  exists z, distribute col y other = Ok z /\ stores z g /\ s_split z = (s_split y || other)%bool /\ length (s_locals z) = length (s_locals y) /\
    (s_split y = true -> z = y) /\
    (s_split y = false -> other = true -> layout z = counts_of (x_major g) (length (s_locals y))).
Proof.
  intros HS. unfold distribute. destruct other; [|exists y; rewrite orb_false_r; split; [reflexivity|]; repeat (split; [solve [auto]|]); discriminate].
  destruct (s_split y) eqn:ES; cbn [negb andb orb]; [exists y; repeat (split; [solve [auto]|]); discriminate|].
  pose proof HS as (Wg & NE & W & MA & MI & NZ & ST). rewrite ES in ST. destruct (s_locals y) as [|t l] eqn:EL; [congruence|]. inversion ST as [|? ? Et _]; subst t.
  destruct (C58_split V zero col (length (g :: l)) g true) as (z & E1 & E2 & E3 & E4 & E5 & _); [cbn; lia|auto|].
  exists z. split; [exact E1|]. repeat (split; [solve [auto]|]). split; [discriminate|]. intros _ _. now apply E5.
Qed.

Theorem C60_binary : forall (V : Type) (zero : V) (f : V -> V -> V) (op : csx V -> csx V -> res (csx V)) (col : bool) (a b : dcsx V) (ga gb : csx V),
  elementwise zero f op -> f zero zero = zero -> stores a ga -> stores b gb ->
  s_major a = s_major b -> s_minor a = s_minor b -> same_layout a b ->
  exists y, binary_op op col a b = Ok y /\ s_split y = (s_split a || s_split b)%bool /\ length (s_locals y) = length (s_locals a) /\
    layout y = layout (if s_split a then a else if s_split b then b else a) /\
    result_of zero y (x_major ga) (x_minor ga) (fun i j => f (entry zero ga i j) (entry zero gb i j)).
Proof.
  intros V zero f op col a b ga gb HO F0 Ha Hb EM Em [LL SL]. unfold binary_op. rewrite <- EM, <- Em, !Nat.eqb_refl. cbn [andb negb].
  pose proof Ha as (Wga & NEa & Wa & MAa & MIa & NZa & STa). pose proof Hb as (Wgb & NEb & Wb & MAb & MIb & NZb & STb).
  destruct (distributed zero a ga col (s_split b) Ha) as (a' & Ea & Ha' & Sa & La & Ia & Da).
  destruct (distributed zero b gb col (s_split a) Hb) as (b' & Eb & Hb' & Sb & Lb & Ib & Db).
  rewrite Ea. cbn [bind]. rewrite Eb. cbn [bind].
  assert (LAY : layout a' = layout b' /\ layout a' = layout (if s_split a then a else if s_split b then b else a)).
  { destruct (s_split a) eqn:E1, (s_split b) eqn:E2; cbn [orb] in *.
    - rewrite Ia, Ib by auto. auto.
    - rewrite (Ia eq_refl), (Db eq_refl eq_refl). rewrite SL. split; [|reflexivity]. rewrite <- LL. f_equal; congruence.
    - rewrite (Ib eq_refl), (Da eq_refl eq_refl). rewrite SL, <- LL. split; f_equal; congruence.
    - unfold distribute in Ea, Eb. rewrite E1, E2 in *. cbn [andb] in Ea, Eb. injection Ea as <-. injection Eb as <-. cbn iota in STa, STb. split; [|reflexivity].
      unfold layout. assert (EG : x_major ga = x_major gb) by congruence. clear -STa STb LL EG. revert LL STb. generalize (s_locals b). induction STa as [|t l Et HF IH]; intros [|u k] LL STb; try discriminate; [reflexivity|].
      inversion STb; subst. cbn [map length] in *. f_equal; [congruence|]. apply IH; [lia|auto]. }
  destruct LAY as [LAY LAY2].
  destruct Ha' as (_ & NEa' & Wa' & MAa' & MIa' & NZa' & STa'). destruct Hb' as (_ & NEb' & Wb' & MAb' & MIb' & NZb' & STb').
  assert (MINa : Forall (fun t => x_minor t = x_minor ga) (s_locals a')).
  { destruct (s_split a'); [apply STa'|]. eapply Forall_impl; [|exact STa']. intros t Ht. cbn in Ht. now subst. }
  assert (MINb : Forall (fun t => x_minor t = x_minor gb) (s_locals b')).
  { destruct (s_split b'); [apply STb'|]. eapply Forall_impl; [|exact STb']. intros t Ht. cbn in Ht. now subst. }
  assert (MN : map x_minor (s_locals a') = map x_minor (s_locals b')).
  { assert (LE : length (s_locals a') = length (s_locals b')) by congruence. assert (EG : x_minor ga = x_minor gb) by congruence. clear -MINa MINb EG LE.
    revert LE MINb. generalize (s_locals b'). induction MINa as [|t l Et HF IH]; intros [|u k] LL STb; try discriminate; [reflexivity|].
    inversion STb; subst. cbn [map length] in *. f_equal; [congruence|]. apply IH; [lia|auto]. }
  destruct (locals_ok zero f op F0 HO (s_locals a') (s_locals b') Wa' Wb' LAY MN) as (ls & EL & WL & L1 & L2 & L3). rewrite EL. cbn [bind].
  eexists. split; [reflexivity|]. cbn [s_split s_locals]. split; [exact Sa|].
  assert (LLS : length ls = length (s_locals a')) by (rewrite <- (map_length x_major ls), L1; apply map_length).
  split; [congruence|]. split; [unfold layout in *; cbn [s_locals]; now rewrite L1|]. unfold result_of.
  assert (NEL : ls <> []) by (intros ->; cbn in LLS; destruct (s_locals a'); [congruence|discriminate]).
  destruct (s_split a') eqn:ES.
  - assert (ES' : s_split b' = true) by (rewrite Sb, orb_comm, <- Sa; reflexivity). rewrite ES' in STb'.
    destruct (stack_exists ls (x_minor ga) WL) as (g & Wg & ST & Mg).
    { apply Forall_forall. intros t Ht. apply (in_map x_minor) in Ht. rewrite L2 in Ht. apply in_map_iff in Ht as (u & <- & Hu). rewrite Forall_forall in MINa. now apply MINa. }
    assert (MG : x_major g = x_major ga) by (rewrite (proj1 ST), L1; symmetry; apply STa').
    exists g. split; [|split; [exact MG|split; [exact Mg|]]].
    + split; [exact Wg|]. split; [exact NEL|]. split; [exact WL|]. cbn [s_major s_minor s_gnnz s_split s_locals]. split; [congruence|]. split; [congruence|]. split; [|exact ST].
      symmetry. exact (nnz_sum ls g WL Wg ST).
    + intros i j Hi Hj. rewrite <- MG in Hi. rewrite (proj1 ST) in Hi.
      destruct (RollProofs.locate (map x_major ls) i Hi) as (r & k & Hr & Bk & EI). rewrite map_length in Hr.
      destruct (nth_error ls r) as [c|] eqn:Ec; [|apply nth_error_None in Ec; lia].
      destruct (nth_error (s_locals a') r) as [u|] eqn:Eu; [|apply nth_error_None in Eu; lia].
      destruct (nth_error (s_locals b') r) as [v|] eqn:Ev; [|apply nth_error_None in Ev; lia].
      assert (Mc : nth r (map x_major ls) 0 = x_major c) by (apply nth_error_nth; now rewrite nth_error_map, Ec).
      assert (Mu : nth r (map x_major ls) 0 = x_major u) by (rewrite L1; apply nth_error_nth; now rewrite nth_error_map, Eu).
      assert (Mv : nth r (map x_major ls) 0 = x_major v) by (rewrite L1; unfold layout in LAY; rewrite LAY; apply nth_error_nth; now rewrite nth_error_map, Ev).
      assert (Hk : k < x_major c) by lia.
      rewrite EI.
      rewrite (entry_line zero g c _ k j) by (apply stacked_line; auto).
      rewrite (entry_line zero ga u _ k j) by (rewrite L1; apply stacked_line; auto; lia).
      rewrite (entry_line zero gb v _ k j) by (rewrite L1; unfold layout in LAY; rewrite LAY; apply stacked_line; auto; lia).
      apply (L3 r u v c Eu Ev Ec k j); [lia|]. replace (x_minor u) with (x_minor ga); auto. rewrite Forall_forall in MINa. symmetry. apply MINa. eapply nth_error_In; eauto.
  - assert (ES' : s_split b' = false) by (rewrite Sb, orb_comm, <- Sa; reflexivity). rewrite ES' in STb'.
    destruct (s_locals a') as [|u la] eqn:ELa; [congruence|]. destruct (s_locals b') as [|v lb] eqn:ELb; [congruence|]. destruct ls as [|c ls']; [congruence|].
    inversion STa' as [|? ? Eu FA]; inversion STb' as [|? ? Ev FB]; subst u v.
    assert (WG : well_formed c) by (inversion WL; auto). cbn [map] in L1, L2. injection L1 as L1 L1'. injection L2 as L2 L2'.
    exists c. split; [|split; [exact L1|split; [exact L2|]]].
    + split; [exact WG|]. split; [exact NEL|]. split; [exact WL|]. cbn [s_major s_minor s_gnnz s_split s_locals hd]. split; [congruence|]. split; [congruence|]. split; [reflexivity|].
      cbn [combine map fst snd] in EL. apply all_ok_inv in EL. cbn [map] in EL. injection EL as E0 ET. constructor; [reflexivity|].
      apply Forall_forall. intros w Hw. apply (in_map (@Ok _)) in Hw. rewrite <- ET in Hw. apply in_map_iff in Hw as ([p q] & Ew & Hpq). cbn [fst snd] in Ew.
      rewrite Forall_forall in FA, FB. rewrite <- (FA p (in_combine_l _ _ _ _ Hpq)), <- (FB q (in_combine_r _ _ _ _ Hpq)) in Ew. congruence.
    + intros i j Hi Hj. apply (L3 0 ga gb c eq_refl eq_refl eq_refl); auto.
Qed.
