(** C58 (construction and conversion of sparse matrices), C59 (their global views) and
    C60 (element-wise operations on them).

    Oracles: torch's to_sparse_csr / to_sparse_csc ([converts]) and torch.add / torch.mul
    on two sparse tensors ([elementwise], SparseSpec). *)
From Verif Require Import Base BaseLemmas LayoutModel LayoutProofs RedistModel RedistProofs TensorSpec NdSpec TensorLemmas NdLemmas OpsModel OpsProofs2 OpsProofs4 ShapeModel ShapeProps BinModel BinProofs2 RollModel RollProofs2 RollProofs3 FactoryModel FactoryProps ConcatProofs3 DtypeModel DtypeProofs3 TypesModel SparseSpec SparseModel SparseProofs SparseProofs2.
Open Scope nat_scope.

(** the distributed matrix [y] holds the matrix [g]: metadata of [g], and either the ranks'
    parts are the lines of [g] in rank order, or every rank holds all of [g] *)
Definition stores {V} (y : dcsx V) (g : csx V) : Prop :=
  well_formed g /\ s_locals y <> [] /\ Forall well_formed (s_locals y) /\
  s_major y = x_major g /\ s_minor y = x_minor g /\ s_gnnz y = length (x_val g) /\
  if s_split y then stacked (s_locals y) g else Forall (eq g) (s_locals y).

(** lines per rank *)
Definition layout {V} (y : dcsx V) : list nat := map x_major (s_locals y).

(** a dense matrix turned into compressed form keeps shape and elements *)
Definition converts {V} (zero : V) (col : bool) (conv : arr V -> csx V) : Prop :=
  forall t n m, ash t = (if col then [Z.of_nat m; Z.of_nat n] else [Z.of_nat n; Z.of_nat m]) ->
    well_formed (conv t) /\ x_major (conv t) = n /\ x_minor (conv t) = m /\
    agrees (dense zero col (conv t)) (ash t) (adat t).

(** ht.sparse.sparse_csr_matrix(t, split=0) / sparse_csc_matrix(t, split=1) / split=None *)
Theorem C58_split : forall (V : Type) (zero : V) (col : bool) (P : nat) (t : csx V) (split : bool),
  0 < P -> well_formed t ->
  exists y, sparse_split col P t (if split then Some (major_axis col) else None) = Ok y /\
    s_split y = split /\ stores y t /\ length (s_locals y) = P /\
    (split = true -> layout y = counts_of (x_major t) P) /\
    rep (to_dense zero col y) (map Z.of_nat (layout y)) (adat (dense zero col t)).
Proof.
  intros V zero col P t split HP W. destruct split; unfold sparse_split.
  - rewrite Nat.eqb_refl. eexists. split; [reflexivity|]. pose proof (take_stacked t P HP W) as ST.
    assert (LY : map x_major (map (take_lines P t) (seq 0 P)) = counts_of (x_major t) P).
    { apply (@nth_ext2 _ _ _ 0); rewrite ?counts_of_length, ?map_length, ?seq_length; auto. intros r Hr. rewrite map_map.
      rewrite (@nth_map_seq _ (fun x => x_major (take_lines P t x))) by auto.
      rewrite take_lines_spec by auto. cbn [of_lines x_major]. rewrite sub_length; [auto|]. rewrite lines_length.
      pose proof (psum_le_sum (counts_of (x_major t) P) (S r)) as Q. rewrite psum_S, counts_of_sum in Q by (rewrite ?counts_of_length; lia). lia. }
    split; [reflexivity|]. split; [|split; [|split; [auto|]]]; cbn [s_locals].
    + unfold stores. cbn [s_locals s_split s_major s_minor s_gnnz]. refine (conj W (conj _ (conj _ (conj eq_refl (conj eq_refl (conj eq_refl ST)))))).
      * destruct P; [lia|]. discriminate.
      * apply Forall_forall. intros u Hu. apply in_map_iff in Hu as (r & <- & Hr). apply in_seq in Hr. apply take_lines_wf; auto; lia.
    + now rewrite map_length, seq_length.
    + pose proof (stacked_represents zero _ _ col ST) as R. unfold rep, to_dense, layout. cbn [d_gshape d_split d_locals s_locals s_split s_major s_minor].
      destruct col; exact R.
  - eexists. split; [reflexivity|]. split; [reflexivity|]. split; [|split; [|split; [discriminate|]]]; cbn [s_locals].
    + unfold stores. cbn [s_locals s_split s_major s_minor s_gnnz]. refine (conj W (conj _ (conj _ (conj eq_refl (conj eq_refl (conj eq_refl _)))))).
      * destruct P; [lia|]. discriminate.
      * apply Forall_forall. intros u Hu. apply repeat_spec in Hu. now subst.
      * apply Forall_forall. intros u Hu. apply repeat_spec in Hu. now subst.
    + apply repeat_length.
    + unfold rep, to_dense, layout. cbn [d_gshape d_split d_locals s_locals s_split s_major s_minor]. split; [now rewrite !map_length|].
      split; [destruct col; repeat constructor; lia|]. intros u Hu. apply in_map_iff in Hu as (w & <- & Hw). apply repeat_spec in Hw. subst w.
      split; [destruct col; reflexivity|]. auto.
Qed.

Definition ex_csx : csx Z := Csx 3 4 [0; 2; 2; 3] [1; 3; 0] [5; 7; 9]%Z.
Example C58_split_hyps : 0 < 2 /\ well_formed ex_csx.
Proof.
  split; [lia|]. repeat split.
  - intros i Hi. destruct i as [|[|[|]]]; cbn in *; lia.
  - destruct i as [|[|[|]]]; cbn in *; try lia; repeat constructor; cbn; intuition lia.
  - destruct i as [|[|[|]]]; cbn in *; try lia; repeat constructor; cbn; lia.
Qed.

(** any other axis is refused *)
Theorem C58_split_axis : forall (V : Type) (col : bool) (P : nat) (t : csx V) (ls : list (csx V)) (a : nat),
  a <> major_axis col ->
  sparse_split col P t (Some a) = Err ValueError /\ sparse_is_split col ls a = Err ValueError.
Proof.
  intros V col P t ls a Ha. apply Nat.eqb_neq in Ha. unfold sparse_split, sparse_is_split. now rewrite Ha.
Qed.

Lemma min_nonneg l : (fold_right Z.min 0 l <? 0)%Z = false <-> (forall z, In z l -> (0 <= z)%Z).
Proof.
  rewrite Z.ltb_ge. induction l as [|a l IH]; cbn [fold_right In]; [split; [intros _ z []|lia]|].
  split; [intros H z [->|Hz]; [lia|apply IH; auto; lia]|]. intros H. pose proof (H a (or_introl eq_refl)).
  assert (0 <= fold_right Z.min 0 l)%Z by (apply IH; intros; apply H; now right). lia.
Qed.
Lemma marks_ok {V} (ls : list (csx V)) : (fold_right Z.min 0 (map (sparse_mark ls) (seq 0 (length ls))) <? 0)%Z = false <->
  Forall (fun t => x_minor t = nth 0 (map x_minor ls) 0) ls.
Proof.
  rewrite min_nonneg. split.
  - intros H. apply Forall_forall. intros t Ht. apply (In_nth _ _ t) in Ht as (r & Hr & <-).
    assert (Q : forall k, k < length ls -> nth k (map x_minor ls) 0 = nth 0 (map x_minor ls) 0).
    { induction k as [|k IH]; intros Hk; [reflexivity|]. rewrite <- IH by lia.
      specialize (H (sparse_mark ls (S k)) ltac:(apply in_map, in_seq; lia)). unfold sparse_mark in H.
      destruct (Nat.eqb_spec (nth k (map x_minor ls) 0) (nth (S k) (map x_minor ls) 0)); [auto|]. exfalso. now apply H. }
    rewrite <- (Q r Hr). rewrite (nth_indep _ 0 (x_minor t)) by (now rewrite map_length). now rewrite map_nth.
  - intros H z Hz. apply in_map_iff in Hz as (r & <- & Hr). apply in_seq in Hr. unfold sparse_mark. destruct r as [|l]; [lia|].
    assert (Q : forall k, k < length ls -> nth k (map x_minor ls) 0 = nth 0 (map x_minor ls) 0).
    { intros k Hk. destruct ls as [|t0 ls'] eqn:E; [cbn in Hk; lia|]. rewrite <- E in *. rewrite (nth_indep _ 0 (x_minor t0)) by (now rewrite map_length).
      rewrite (map_nth x_minor ls t0 k). rewrite Forall_forall in H. apply H. now apply nth_In. }
    rewrite (Q l), (Q (S l)), Nat.eqb_refl by lia. lia.
Qed.

(** is_split: every rank contributes its own lines; parts with different line lengths are refused *)
Theorem C58_is_split : forall (V : Type) (zero : V) (col : bool) (ls : list (csx V)),
  ls <> [] -> Forall well_formed ls ->
  (Forall (fun t => x_minor t = nth 0 (map x_minor ls) 0) ls ->
     exists y g, sparse_is_split col ls (major_axis col) = Ok y /\ s_locals y = ls /\ s_split y = true /\ stores y g /\
       rep (to_dense zero col y) (map Z.of_nat (layout y)) (adat (dense zero col g))) /\
  (~ Forall (fun t => x_minor t = nth 0 (map x_minor ls) 0) ls ->
     sparse_is_split col ls (major_axis col) = Err ValueError).
Proof.
  intros V zero col ls NE W. unfold sparse_is_split. rewrite Nat.eqb_refl. split; intros M.
  - apply marks_ok in M as M'. rewrite M'. destruct (stack_exists ls _ W M) as (g & Wg & ST & EM).
    eexists. exists g. split; [reflexivity|]. cbn [s_locals s_split]. do 2 (split; [reflexivity|]). assert (ST' := ST). destruct ST as (S1 & S2 & S3).
    split.
    + unfold stores. cbn [s_locals s_split s_major s_minor s_gnnz]. refine (conj Wg (conj NE (conj W (conj (eq_sym S1) (conj (eq_sym EM) (conj _ ST')))))). unfold lnnz.
      rewrite (wf_val g Wg). apply stacked_lines in ST' as (_ & _ & E). rewrite <- E. clear -W. induction W as [|t ls Wt W IH]; [reflexivity|].
      cbn [map concat]. rewrite list_sum_cons, map_app, concat_app, app_length, <- IH. now rewrite <- (wf_val t Wt).
    + pose proof (stacked_represents zero _ _ col ST') as R. unfold rep, to_dense, layout. cbn [d_gshape d_split d_locals s_locals s_split s_major s_minor].
      rewrite <- S1, <- EM. destruct col; exact R.
  - destruct (fold_right Z.min 0 (map (sparse_mark ls) (seq 0 (length ls))) <? 0)%Z eqn:E; [reflexivity|]. apply marks_ok in E. contradiction.
Qed.

Definition ex_csx2 : csx Z := Csx 1 4 [0; 1] [2] [8]%Z.
Lemma ex_csx2_wf : well_formed ex_csx2.
Proof.
  repeat split.
  - intros i Hi. destruct i as [|]; cbn in *; lia.
  - destruct i as [|]; cbn in *; try lia; repeat constructor; cbn; intuition lia.
  - destruct i as [|]; cbn in *; try lia; repeat constructor; cbn; lia.
Qed.
Example C58_is_split_hyps : [ex_csx; ex_csx2] <> [] /\ Forall well_formed [ex_csx; ex_csx2] /\
  Forall (fun t => x_minor t = nth 0 (map x_minor [ex_csx; ex_csx2]) 0) [ex_csx; ex_csx2].
Proof. split; [discriminate|]. split; [constructor; [apply C58_split_hyps|constructor; [apply ex_csx2_wf|constructor]]|repeat constructor]. Qed.

(** DNDarray.to_sparse_csr / to_sparse_csc followed by to_dense gives the elements back,
    evenly distributed along the axis of the lines *)
Theorem C58_round_trip : forall (V : Type) (zero : V) (col : bool) (conv : arr V -> csx V) (x : dnd V) (cnts : list Z) (G : list Z -> V) (n m : Z),
  converts zero col conv -> d_gshape x = [n; m] -> rep x cnts G -> 0 < length cnts ->
  d_split x = Some (major_axis col) \/ d_split x = None ->
  exists y cnts', to_sparse zero conv col x = Ok y /\ d_split (to_dense zero col y) = d_split x /\ d_gshape (to_dense zero col y) = [n; m] /\
    (d_split x <> None -> cnts' = zcounts (nth (major_axis col) [n; m] 0%Z) (length cnts)) /\
    rep (to_dense zero col y) cnts' G.
Proof.
  intros V zero col conv x cnts G n m CV GS R HP [SP|SP].
  - unfold to_sparse. rewrite SP, GS. cbn [length Nat.eqb]. unfold rep in R. rewrite SP in R.
    destruct (balance_nd_ok zero x G cnts (major_axis col) R HP) as (y & EY & GY & SY & RY). rewrite EY. cbn [bind].
    rewrite GS in RY. set (zc := zcounts (nth (major_axis col) [n; m] 0%Z) (length cnts)) in *.
    assert (RY' := RY). destruct RY' as (LY & NN & _ & CN & SUM & AG).
    set (mi := if col then n else m). assert (Nn : (0 <= n)%Z) by (inversion NN; auto). assert (Nm : (0 <= m)%Z) by (inversion NN as [|? ? ? NN']; inversion NN'; auto).
    assert (KEY : forall r t, nth_error (d_locals y) r = Some t -> well_formed (conv t) /\ x_major (conv t) = Z.to_nat (nth r zc 0%Z) /\ x_minor (conv t) = Z.to_nat mi /\
              agrees (dense zero col (conv t)) (ash t) (adat t)).
    { intros r t Ht. destruct (AG r t Ht) as [ES _]. assert (0 <= nth r zc 0)%Z.
      { assert (r < length zc) by (rewrite <- LY; apply nth_error_Some; congruence). rewrite Forall_forall in CN. apply CN. now apply nth_In. }
      apply CV. rewrite ES. unfold mi. destruct col; cbn [major_axis upd]; rewrite !Z2Nat.id by auto; reflexivity. }
    assert (ZL : length zc = length cnts) by (unfold zc, zcounts; rewrite map_length; apply counts_of_length).
    assert (LS0 : d_locals y <> []) by (intros E0; rewrite E0 in LY; cbn in LY; lia).
    assert (W : Forall well_formed (map conv (d_locals y))).
    { apply Forall_forall. intros u Hu. apply in_map_iff in Hu as (t & <- & Ht). apply In_nth_error in Ht as (r & Hr). apply (KEY r t Hr). }
    assert (MM : forall u, In u (map conv (d_locals y)) -> x_minor u = Z.to_nat mi).
    { intros u Hu. apply in_map_iff in Hu as (t & <- & Ht). apply In_nth_error in Ht as (r & Hr). apply (KEY r t Hr). }
    assert (M0 : nth 0 (map x_minor (map conv (d_locals y))) 0 = Z.to_nat mi).
    { destruct (d_locals y) as [|t0 l0]; [congruence|]. cbn [map nth]. apply MM. now left. }
    unfold sparse_is_split. rewrite Nat.eqb_refl. destruct (marks_ok (map conv (d_locals y))) as [_ MK]. rewrite MK by (rewrite M0; apply Forall_forall; exact MM).
    eexists. exists zc. split; [reflexivity|]. unfold to_dense. cbn [s_locals s_split s_major s_minor d_split d_gshape d_locals].
    assert (EM : map x_major (map conv (d_locals y)) = map Z.to_nat zc).
    { apply (@nth_ext2 _ _ _ 0); rewrite ?map_length; auto. intros r Hr. destruct (nth_error (d_locals y) r) as [t|] eqn:Et; [|apply nth_error_None in Et; lia].
      rewrite (nth_error_nth (map x_major (map conv (d_locals y))) r (x:=x_major (conv t)) 0) by (now rewrite !nth_error_map, Et).
      rewrite (nth_indep _ 0 (Z.to_nat 0)) by (rewrite map_length; lia). rewrite map_nth. apply (KEY r t Et). }
    assert (EMS : Z.of_nat (list_sum (map x_major (map conv (d_locals y)))) = nth (major_axis col) [n; m] 0%Z).
    { rewrite EM, <- SUM. clear -CN. induction CN as [|c l Hc HF IH]; [reflexivity|]. cbn [map]. rewrite list_sum_cons. cbn [zsum fold_right]. fold (zsum l). lia. }
    rewrite EMS, M0. assert (GE : (if col then [Z.of_nat (Z.to_nat mi); nth (major_axis col) [n; m] 0%Z] else [nth (major_axis col) [n; m] 0%Z; Z.of_nat (Z.to_nat mi)]) = [n; m]).
    { unfold mi. destruct col; cbn [major_axis nth]; rewrite Z2Nat.id by auto; reflexivity. }
    rewrite GE. do 2 (split; [auto|]). split; [auto|]. unfold rep. cbn [d_split d_gshape d_locals].
    destruct RY as (R1 & R2 & R3 & R4 & R5 & R6). split; [now rewrite !map_length|]. split; [exact R2|]. split; [exact R3|]. split; [exact R4|]. split; [exact R5|].
    intros r t Ht. rewrite map_map, nth_error_map in Ht. destruct (nth_error (d_locals y) r) as [u|] eqn:Eu; [|discriminate]. injection Ht as <-.
    destruct (KEY r u Eu) as (_ & _ & _ & [K1 K2]). destruct (R6 r u Eu) as [Q1 Q2]. split; [congruence|].
    intros idx Hi. rewrite K2 by (rewrite Q1; exact Hi). apply Q2, Hi.
  - unfold to_sparse. rewrite SP, GS. cbn [length Nat.eqb]. unfold rep in R. rewrite SP in R. destruct R as (LL & NN & AG).
    rewrite GS in NN, AG.
    assert (Nn : (0 <= n)%Z) by (inversion NN; auto). assert (Nm : (0 <= m)%Z) by (inversion NN as [|? ? ? NN']; inversion NN'; auto).
    assert (KEY : forall t, In t (d_locals x) -> x_major (conv t) = Z.to_nat (if col then m else n) /\ x_minor (conv t) = Z.to_nat (if col then n else m) /\
              agrees (dense zero col (conv t)) (ash t) (adat t)).
    { intros t Ht. destruct (AG t Ht) as [ES _]. apply CV. rewrite ES. destruct col; rewrite !Z2Nat.id by auto; reflexivity. }
    eexists. exists cnts. split; [reflexivity|]. unfold to_dense. cbn [s_locals s_split s_major s_minor d_split d_gshape d_locals].
    destruct (d_locals x) as [|t0 l0] eqn:EL; [cbn in LL; lia|]. cbn [map hd].
    destruct (KEY t0 (or_introl eq_refl)) as (K1 & K2 & _). rewrite K1, K2.
    assert (GE : (if col then [Z.of_nat (Z.to_nat (if col then n else m)); Z.of_nat (Z.to_nat (if col then m else n))] else [Z.of_nat (Z.to_nat (if col then m else n)); Z.of_nat (Z.to_nat (if col then n else m))]) = [n; m]).
    { destruct col; rewrite !Z2Nat.id by auto; reflexivity. }
    rewrite GE. do 2 (split; [auto|]). split; [congruence|]. unfold rep. cbn [d_split d_gshape d_locals].
    split; [cbn [length] in *; now rewrite !map_length|]. split; [exact NN|]. intros t Ht. change (In t (map (dense zero col) (map conv (t0 :: l0)))) in Ht. rewrite map_map in Ht. apply in_map_iff in Ht as (u & <- & Hu).
    destruct (KEY u Hu) as (_ & _ & [K3 K4]). destruct (AG u Hu) as [Q1 Q2]. split; [congruence|].
    intros idx Hi. rewrite K4 by (rewrite Q1; exact Hi). apply Q2, Hi.
Qed.

(** a conversion that keeps exactly the nonzero elements *)
Definition conv_ex (col : bool) (t : arr Z) : csx Z :=
  let n := Z.to_nat (nth (major_axis col) (ash t) 0%Z) in let m := Z.to_nat (nth (1 - major_axis col) (ash t) 0%Z) in
  let F i j := adat t (if col then [Z.of_nat j; Z.of_nat i] else [Z.of_nat i; Z.of_nat j]) in
  of_lines m (map (fun i => filter (fun p => negb (snd p =? 0)%Z) (map (fun j => (j, F i j)) (seq 0 m))) (seq 0 n)).
Lemma find_filter (F : nat -> Z) j : forall m a, a <= j < a + m ->
  match find (fun p => fst p =? j) (filter (fun p => negb (snd p =? 0)%Z) (map (fun j => (j, F j)) (seq a m))) with Some p => snd p | None => 0%Z end = F j.
Proof.
  assert (NF : forall m a, j < a -> find (fun p => fst p =? j) (filter (fun p => negb (snd p =? 0)%Z) (map (fun j => (j, F j)) (seq a m))) = None).
  { induction m as [|m IH]; intros a H; [reflexivity|]. cbn [seq map filter snd]. destruct (F a =? 0)%Z; cbn [negb]; [apply IH; lia|]. cbn [find fst].
    destruct (Nat.eqb_spec a j); [lia|]. apply IH. lia. }
  induction m as [|m IH]; intros a H; [lia|]. cbn [seq map filter snd]. destruct (Nat.eq_dec a j) as [->|N].
  - destruct (Z.eqb_spec (F j) 0) as [E|E]; cbn [negb]; [rewrite NF by lia; auto|]. cbn [find fst]. now rewrite Nat.eqb_refl.
  - destruct (F a =? 0)%Z; cbn [negb]; [apply IH; lia|]. cbn [find fst]. apply Nat.eqb_neq in N. rewrite N. apply Nat.eqb_neq in N. apply IH. lia.
Qed.
Lemma conv_ex_ok col : converts 0%Z col (conv_ex col).
Proof.
  intros t n m E. unfold conv_ex.
  assert (E1 : Z.to_nat (nth (major_axis col) (ash t) 0%Z) = n) by (rewrite E; destruct col; cbn; lia).
  assert (E2 : Z.to_nat (nth (1 - major_axis col) (ash t) 0%Z) = m) by (rewrite E; destruct col; cbn; lia).
  rewrite E1, E2. set (L := map _ (seq 0 n)).
  assert (W : well_formed (of_lines m L)).
  { apply of_lines_wf. apply Forall_forall. intros l Hl. unfold L in Hl. apply in_map_iff in Hl as (i & <- & _). split.
    - match goal with |- NoDup (map fst (filter ?p (map ?h _))) => assert (Q : forall k a, NoDup (map fst (filter p (map h (seq a k)))) /\ forall x, In x (map fst (filter p (map h (seq a k)))) -> a <= x) end.
      { induction k as [|k IH]; intros a; [split; [constructor|intros x []]|]. destruct (IH (S a)) as [I1 I2]. cbn [seq map filter snd].
        match goal with |- context [if ?c then _ else _] => destruct c end; [|split; auto; intros x Hx; apply I2 in Hx; lia].
        cbn [map fst]. split; [constructor; auto; intros Hx; apply I2 in Hx; lia|]. intros x [->|Hx]; [lia|]. apply I2 in Hx. lia. }
      apply Q.
    - apply Forall_forall. intros p Hp. apply filter_In in Hp as [Hp _]. apply in_map_iff in Hp as (j & <- & Hj). apply in_seq in Hj. cbn [fst]. lia. }
  split; [exact W|]. assert (XM : x_major (of_lines m L) = n) by (cbn [of_lines x_major]; unfold L; now rewrite map_length, seq_length).
  split; [exact XM|]. split; [reflexivity|]. unfold dense. rewrite XM. change (x_minor (of_lines m L)) with m.
  assert (EN : forall i j, i < n -> j < m -> entry 0%Z (of_lines m L) i j = adat t (if col then [Z.of_nat j; Z.of_nat i] else [Z.of_nat i; Z.of_nat j])).
  { intros i j Hi Hj. unfold entry. rewrite of_lines_line by (unfold L; now rewrite map_length, seq_length). unfold L.
    rewrite (@nth_map_seq _ (fun i => filter _ _)) by auto.
    apply (find_filter (fun j => adat t (if col then [Z.of_nat j; Z.of_nat i] else [Z.of_nat i; Z.of_nat j])) j m 0). lia. }
  split; [rewrite E; destruct col; reflexivity|]. intros idx Hi. rewrite E in Hi. assert (Li := in_bounds_length _ _ Hi). apply in_bounds_nth in Hi as [_ Hi].
  destruct col; cbn [adat]; destruct idx as [|i [|j [|]]]; try (cbn in Li; lia);
    pose proof (Hi 0%nat ltac:(cbn; lia)) as B0; pose proof (Hi 1%nat ltac:(cbn; lia)) as B1; cbn [nth] in *; rewrite EN by lia; rewrite !Z2Nat.id by lia; reflexivity.
Qed.
Definition ex_dense : dnd Z :=
  mk_dnd [mk_arr [1; 2]%Z (fun idx => nth 1 idx 0%Z); mk_arr [2; 2]%Z (fun idx => (nth 0 idx 0 + 1 + nth 1 idx 0)%Z)] [3; 2]%Z (Some 0).
Example C58_round_trip_hyps : converts 0%Z false (conv_ex false) /\ d_gshape ex_dense = [3; 2]%Z /\
  rep ex_dense [1; 2]%Z (fun idx => (nth 0 idx 0 + nth 1 idx 0)%Z) /\ d_split ex_dense = Some (major_axis false) /\
  exists y, to_sparse 0%Z (conv_ex false) false ex_dense = Ok y /\ map x_ptr (s_locals y) = [[0; 1; 3]; [0; 2]].
Proof.
  split; [apply conv_ex_ok|]. split; [reflexivity|]. split; [|split; [reflexivity|]].
  - split; [reflexivity|]. split; [repeat constructor; lia|]. split; [cbn; lia|]. split; [repeat constructor; lia|]. split; [reflexivity|].
    intros r t Ht. destruct r as [|[|r]]; cbn in Ht; [| |destruct r; discriminate]; injection Ht as <-; (split; [reflexivity|]); intros idx Hi;
      assert (Li := in_bounds_length _ _ Hi); apply in_bounds_nth in Hi as [_ Hi]; destruct idx as [|i [|j [|]]]; try (cbn in Li; lia);
      pose proof (Hi 0%nat ltac:(cbn; lia)) as B0; pose proof (Hi 1%nat ltac:(cbn; lia)) as B1; cbn in *; lia.
  - eexists. split; [vm_compute; reflexivity|]. reflexivity.
Qed.

(** split along the other axis: to_sparse_csr / to_sparse_csc raise *)
Theorem C58_to_sparse_axis : forall (V : Type) (zero : V) (col : bool) (conv : arr V -> csx V) (x : dnd V) (cnts : list Z) (G : list Z -> V) (n m : Z) (s : nat),
  d_gshape x = [n; m] -> rep x cnts G -> 0 < length cnts -> d_split x = Some s -> s <> major_axis col ->
  to_sparse zero conv col x = Err ValueError.
Proof.
  intros V zero col conv x cnts G n m s GS R HP SP NA. unfold to_sparse. rewrite SP, GS. cbn [length Nat.eqb]. unfold rep in R. rewrite SP in R.
  destruct (balance_nd_ok zero x G cnts s R HP) as (y & EY & _). rewrite EY. cbn [bind]. now apply (C58_split_axis V col 1 (Csx 0 0 [] [] [])).
Qed.
