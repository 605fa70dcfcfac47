(** C61, continued: two vectors, one process, allow_resplit, rejected calls, and where the
    claim fails. *)
From Verif Require Import Base BaseLemmas LayoutModel TensorSpec NdSpec TensorLemmas NdLemmas ShapeSpec OpsModel OpsProofs2 OpsProofs4 ShapeModel ShapeProps BinModel BinProofs BinProofs2 ReshapeModel ReshapeProofs ConcatProofs3 FactoryModel FactoryProps MatmulSpec MatmulModel MatmulProofs MatmulProofs2 MatmulProofs3 MatmulProps.
Open Scope Z_scope.

(** ** two vectors *)
Lemma to_split0_ok {V} (x : dnd V) G c K : d_gshape x = [K] -> rep x c G -> (0 < length (d_locals x))%nat -> (d_split x <> None -> c = zcounts K (length (d_locals x))) ->
  d_gshape (to_split0 x) = [K] /\ d_split (to_split0 x) = Some 0%nat /\ length (d_locals (to_split0 x)) = length (d_locals x) /\ rep (to_split0 x) (zcounts K (length (d_locals x))) G.
Proof.
  intros EG R HP HC. set (P := length (d_locals x)) in *. unfold to_split0. destruct (d_split x) as [s|] eqn:ES.
  - assert (s = 0%nat) by (unfold rep in R; rewrite ES, EG in R; destruct R as (_ & _ & Hs & _); cbn in Hs; lia). subst s. rewrite <- HC by discriminate. auto.
  - cbn [d_gshape d_split d_locals]. unfold ranked_dnd. fold P. split; [auto|]. split; [auto|]. split; [now rewrite map_length, combine_length, seq_length, Nat.min_id|].
    unfold rep in *. cbn [d_gshape d_split d_locals]. rewrite ES, EG in R. rewrite EG. destruct R as (L & N & H).
    assert (HK : 0 <= K) by (inversion N; auto). destruct (zcounts_ok K P HP HK) as (ZL & ZF & ZS).
    split; [rewrite map_length, combine_length, seq_length, Nat.min_id; auto|]. split; [auto|]. split; [cbn; lia|]. split; [auto|]. split; [auto|].
    intros r t Ht. rewrite nth_error_map in Ht. destruct (nth_error (combine (seq 0 P) (d_locals x)) r) as [[r' u]|] eqn:E; [|discriminate]. cbn [option_map fst snd] in Ht. injection Ht as <-.
    apply nth_error_pairs in E as [E1 E2]. assert (Hr : (r < P)%nat) by (unfold P; apply nth_error_Some; congruence).
    rewrite (nth_error_nth' _ 0%nat) in E1 by (now rewrite seq_length). rewrite seq_nth in E1 by auto. injection E1 as <-.
    destruct (chunk_counts [K] 0 r P HP Hr) as [C1 C2]. cbn [plus]. rewrite C1, C2. cbn [nth upd]. split; [reflexivity|]. intros idx Hi. cbn [adat]. destruct (H u (nth_error_In _ _ E2)) as [_ HG]. apply HG.
    destruct (share P HP K r HK Hr) as (O1 & O2 & O3 & O4).
    inversion Hi as [|? i ? l Hi1 Hi2]; subst. inversion Hi2; subst. unfold move_axis_idx. cbn. constructor; [lia|constructor].
Qed.

Lemma allreduce_scalar {V} (zero : V) (add mul : V -> V -> V) (SU : sums zero add) P (HP : (0 < P)%nat) K (HK : 0 <= K) (f : Z -> V) (cs : list (arr V)) : length cs = P ->
  (forall r t, nth_error cs r = Some t -> ash t = [] /\ adat t [] = fold_right add zero (map (fun k => f (k + zsum (firstn r (zcounts K P)))) (zr (nth r (zcounts K P) 0)))) ->
  length (allreduce add cs) = P /\ forall t, In t (allreduce add cs) -> ash t = [] /\ adat t [] = fold_right add zero (map f (zr K)).
Proof.
  intros L H. destruct cs as [|c0 rest]; [cbn in L; lia|]. unfold allreduce. split; [now rewrite map_length|].
  intros t Ht. apply in_map_iff in Ht as (p & <- & Hp). apply In_nth_error in Hp as (rp & Hp). destruct (H rp p Hp) as [Ep _]. split; [exact Ep|]. cbn [adat].
  set (F := fun r => fold_right add zero (map (fun k => f (k + zsum (firstn r (zcounts K P)))) (zr (nth r (zcounts K P) 0)))).
  assert (EV : map (fun c => adat c []) (c0 :: rest) = map F (seq 0 P)).
  { apply (@nth_ext2 _ _ _ zero); rewrite ?map_length, ?seq_length; auto. intros r Hr. rewrite L in Hr. rewrite (@nth_map_seq _ F) by auto.
    destruct (nth_error (c0 :: rest) r) as [c|] eqn:Ec; [|apply nth_error_None in Ec; lia].
    rewrite (nth_error_nth _ r (x:=adat c [])) by (now rewrite nth_error_map, Ec). now apply (H r c Ec). }
  assert (AZ : forall x, add zero x = x) by (destruct SU as (_ & Hz & _); auto).
  assert (FL : fold_left add (map (fun c => adat c []) rest) (adat c0 []) = fold_left add (map F (seq 0 P)) zero).
  { rewrite <- EV. cbn [map fold_left]. now rewrite AZ. }
  rewrite FL. destruct (zcounts_ok K P HP HK) as (ZL & ZF & ZS).
  assert (Q : forall k, (k <= P)%nat -> fold_left add (map F (seq 0 k)) zero = fold_right add zero (map f (zr (zsum (firstn k (zcounts K P)))))).
  { induction k as [|k IH]; intros Hk; [reflexivity|]. rewrite seq_S, map_app, fold_left_app, IH by lia. cbn [plus map fold_left].
    destruct (share P HP K k HK ltac:(lia)) as (O1 & O2 & O3 & _). rewrite O3, (bsum_split zero add mul SU) by auto. reflexivity. }
  rewrite Q by lia. rewrite firstn_all2 by lia. now rewrite ZS.
Qed.

(** the dot product of two vectors (balanced, or not split): every process gets the sum;
    afterwards both operands are split along axis 0 *)
Theorem C61_vector_vector : forall (V : Type) (zero : V) (add mul : V -> V -> V) (K : Z) (P : nat) (a b : dnd V) (A B : list Z -> V) (ca cb : list Z),
  sums zero add -> (2 <= P)%nat -> length (d_locals a) = P -> length (d_locals b) = P ->
  d_gshape a = [K] -> d_gshape b = [K] -> rep a ca A -> rep b cb B ->
  (d_split a <> None -> ca = zcounts K P) -> (d_split b <> None -> cb = zcounts K P) ->
  exists y a' b', matmul_vv zero add mul a b = Ok (y, a', b') /\ matmul zero add mul a b false = Ok y /\
    d_gshape y = [] /\ d_split y = None /\ length (d_locals y) = P /\
    (forall t, In t (d_locals y) -> ash t = [] /\ adat t [] = fold_right add zero (map (fun k => mul (A [k]) (B [k])) (zr K))) /\
    d_split a' = Some 0%nat /\ rep a' (zcounts K P) A /\ d_split b' = Some 0%nat /\ rep b' (zcounts K P) B.
Proof.
  intros V zero add mul K P a b A B ca cb SU HP LA LB GA GB RA RB CA CB.
  destruct (to_split0_ok a A ca K GA RA ltac:(lia)) as (A1 & A2 & A3 & A4); [now rewrite LA|]. destruct (to_split0_ok b B cb K GB RB ltac:(lia)) as (B1 & B2 & B3 & B4); [now rewrite LB|].
  rewrite LA in *. rewrite LB in *. set (a' := to_split0 a) in *. set (b' := to_split0 b) in *.
  assert (HK : 0 <= K) by (destruct RA as (_ & N & _); rewrite GA in N; inversion N; auto).
  destruct (all_ok_list (fun p => vdot_local zero add mul (fst p) (snd p)) (fun r t => ash t = [] /\ adat t [] = fold_right add zero (map (fun k => mul (A [k + zsum (firstn r (zcounts K P))]) (B [k + zsum (firstn r (zcounts K P))])) (zr (nth r (zcounts K P) 0))))
     (combine (d_locals a') (d_locals b')) 0) as (cs & E & L & H).
  { intros r [x y] Hxy. apply nth_error_pairs in Hxy as [Hx Hy]. cbn [fst snd plus]. unfold rep in A4, B4. rewrite A1, A2 in A4. rewrite B1, B2 in B4.
    destruct A4 as (_ & _ & _ & _ & _ & HA). destruct B4 as (_ & _ & _ & _ & _ & HB). destruct (HA r x Hx) as [SX DX]. destruct (HB r y Hy) as [SY DY]. cbn [upd] in SX, SY.
    unfold vdot_local. rewrite SX, SY. cbn [nth]. rewrite Z.eqb_refl. eexists. split; [reflexivity|]. cbn [ash adat]. split; [reflexivity|]. f_equal.
    apply map_ext_in. intros k Hk. apply in_zr in Hk. rewrite DX, DY by (constructor; [lia|constructor]). reflexivity. }
  destruct (allreduce_scalar zero add mul SU P ltac:(lia) K HK (fun k => mul (A [k]) (B [k])) cs) as [AL AM].
  { rewrite L, combine_length. lia. } { exact H. }
  exists (mk_dnd (allreduce add cs) [] None), a', b'.
  assert (EV : matmul_vv zero add mul a b = Ok (mk_dnd (allreduce add cs) [] None, a', b')).
  { unfold matmul_vv. fold a' b'. rewrite E. reflexivity. }
  split; [exact EV|]. split.
  { unfold matmul. rewrite GA, GB, LA. cbn -[matmul_vv]. replace (P =? 1)%nat with false by (symmetry; apply Nat.eqb_neq; lia). rewrite EV. reflexivity. }
  cbn [d_gshape d_split d_locals]. split; [auto|]. split; [auto|]. split; [auto|]. split; [auto|]. split; [auto|]. split; [auto|]. split; auto.
Qed.
Print Assumptions C61_vector_vector.

(** ** one process: torch.matmul of the local tensors; the result is never split *)
Lemma alone {V} (x : dnd V) c G t : rep x c G -> d_locals x = [t] -> agrees t (d_gshape x) G.
Proof.
  unfold rep. intros R E. rewrite E in R. destruct (d_split x) as [s|]; destruct R as (L & N & R); [|apply R; now left].
  destruct R as (Hs & F & S1 & R). destruct c as [|c [|]]; cbn in L; try discriminate. unfold zsum in S1. cbn in S1. destruct (R 0%nat t eq_refl) as [R1 R2]. cbn [nth firstn] in R1, R2.
  assert (EU : upd (d_gshape x) s c = d_gshape x) by (apply upd_same_list; lia). rewrite EU in *. split; [auto|]. intros idx Hi. rewrite R2 by auto. f_equal.
  unfold move_axis_idx, zsum. cbn. apply upd_same_list. lia.
Qed.
Theorem C61_one_process : forall (V : Type) (zero : V) (add mul : V -> V -> V) (bs : list Z) (m K q : Z) (a b : dnd V) (A B : list Z -> V) (ca cb : list Z),
  length (d_locals a) = 1%nat -> length (d_locals b) = 1%nat ->
  d_gshape a = bs ++ [m; K] -> d_gshape b = bs ++ [K; q] -> rep a ca A -> rep b cb B ->
  (forall s, d_split a = Some s -> (length bs <= s)%nat) -> (forall s, d_split b = Some s -> (length bs <= s)%nat) ->
  exists y, matmul zero add mul a b false = Ok y /\ d_gshape y = bs ++ [m; q] /\ d_split y = None /\ rep y [0] (product zero add mul K A B).
Proof.
  intros V zero add mul bs m K q a b A B ca cb LA LB GA GB RA RB SA SB. destruct (d_locals a) as [|ta [|]] eqn:Ea; cbn in LA; try discriminate. destruct (d_locals b) as [|tb [|]] eqn:Eb; cbn in LB; try discriminate.
  pose proof (alone a ca A ta RA Ea) as HA. pose proof (alone b cb B tb RB Eb) as HB. rewrite GA in HA. rewrite GB in HB. apply M2_agrees in HA. apply M2_agrees in HB.
  assert (N : Forall (fun n => 0 <= n) (bs ++ [m; q]) /\ 0 <= K).
  { destruct RA as (_ & NA & _). destruct RB as (_ & NB & _). rewrite GA in NA. rewrite GB in NB. apply Forall_app in NA as [N1 N2]. apply Forall_app in NB as [_ N3].
    inversion N2 as [|? ? X1 N4]; subst. inversion N3 as [|? ? X2 N5]; subst. inversion N5; subst. split; [apply Forall_app; auto|auto]. }
  destruct N as [NN HK]. destruct (mm_M2 zero add mul ta tb bs m q K _ _ HK HA HB) as (c & Ec & Hc).
  exists (mk_dnd [c] (bs ++ [m; q]) None). split.
  - unfold matmul. rewrite GA, GB, !len2, Nat.max_id, Ea, Eb. replace (length bs + 2 - 2)%nat with (length bs) by lia. replace (length bs + 2 - 1)%nat with (S (length bs)) by lia.
    rewrite !first_bs, !nth_r0, !nth_r1. replace (eqb_idx bs bs) with true by (symmetry; now apply eqb_idx_eq). cbn [negb]. rewrite andb_false_r.
    replace (length bs + 2 =? S (length bs))%nat with false by (symmetry; apply Nat.eqb_neq; lia). cbn [andb orb negb]. rewrite Nat.eqb_refl. cbn [negb].
    replace (length bs + 2 =? 1)%nat with false by (symmetry; apply Nat.eqb_neq; lia). cbn [andb]. rewrite Z.eqb_refl. cbn [negb].
    assert (EA : match d_split a with Some s => (s <? length bs)%nat | None => false end = false). { destruct (d_split a); [|auto]. apply Nat.ltb_ge. auto. }
    assert (EB : match d_split b with Some s => (s <? length bs)%nat | None => false end = false). { destruct (d_split b); [|auto]. apply Nat.ltb_ge. auto. }
    rewrite EA, EB. cbn [andb orb]. rewrite !andb_false_r. cbn [bind]. rewrite Ea, Eb. cbn [length Nat.eqb combine map all_ok fst snd]. rewrite Ec. cbn [bind hd]. destruct Hc as [Sc _]. now rewrite Sc.
  - cbn [d_gshape d_split]. split; [auto|]. split; [auto|]. unfold rep. cbn [d_gshape d_split d_locals]. split; [auto|]. split; [auto|]. intros t [<-|[]]. apply M2_agrees. eapply M2_ext; [exact Hc|].
    intros js i j _ _ _. cbv beta. unfold product. rewrite len2. replace (length js + 2 - 1)%nat with (S (length js)) by lia. replace (length js + 2 - 2)%nat with (length js) by lia.
    f_equal. apply map_ext. intros k. now rewrite upd_r0, upd_r1.
Qed.
Print Assumptions C61_one_process.

(** ** allow_resplit=True, two matrices that are not split: a's rows are dealt out, the
    products of the pieces are put together, every process gets the whole product *)
Theorem C61_allow_resplit : forall (V : Type) (zero : V) (add mul : V -> V -> V) (m K q : Z) (P : nat) (a b : dnd V) (A B : list Z -> V) (ca cb : list Z),
  sums zero add -> (2 <= P)%nat -> length (d_locals a) = P -> length (d_locals b) = P ->
  d_gshape a = [m; K] -> d_gshape b = [K; q] -> rep a ca A -> rep b cb B -> d_split a = None -> d_split b = None ->
  exists y cy, matmul zero add mul a b true = Ok y /\ d_gshape y = [m; q] /\ d_split y = None /\ length (d_locals y) = P /\ rep y cy (product zero add mul K A B).
Proof.
  intros V zero add mul m K q P a b A B ca cb SU HP LA LB GA GB RA RB SA SB. assert (H0 : (0 < P)%nat) by lia.
  destruct (dims [] m K q P A B a b ca cb H0 GA GB RA RB LA LB) as (_ & Hm & HK & Hq).
  rewrite (matmul_same zero add mul [] m K q P A B a b ca H0 GA GB LA LB HP) by (intros; congruence).
  unfold matmul_nd. rewrite GA, GB, SA, SB, LA. cbn [length Nat.sub firstn nth app]. destruct (zcounts_ok m P H0 Hm) as (ZL & ZF & ZS). set (x := zcounts m P) in *.
  assert (AZ : forall v, add zero v = v) by (destruct SU as (_ & Hz & _); auto). assert (ZA : forall v, add v zero = v) by (destruct SU as (_ & _ & Hz); auto).
  set (la := map _ (ranked_dnd a)). assert (LL : length la = P) by (unfold la, ranked_dnd; rewrite map_length, combine_length, seq_length, LA, Nat.min_id; auto).
  assert (HLA : forall r t, nth_error la r = Some t -> M2 t [] (nth r x 0) K (fun js i j => A (js ++ [i + zsum (firstn r x); j]))).
  { intros r t Ht. unfold la, ranked_dnd in Ht. rewrite nth_error_map in Ht. destruct (nth_error (combine (seq 0 (length (d_locals a))) (d_locals a)) r) as [[r' u]|] eqn:E; [|discriminate]. cbn [option_map fst snd] in Ht. injection Ht as <-.
    apply nth_error_pairs in E as [E1 E2]. assert (Hr : (r < P)%nat) by (rewrite <- LA; apply nth_error_Some; congruence).
    rewrite (nth_error_nth' _ 0%nat) in E1 by (now rewrite seq_length, LA). rewrite seq_nth in E1 by (now rewrite LA). injection E1 as <-. cbn [plus].
    destruct (chunk_counts [m; K] 0 r P H0 Hr) as [C1 C2]. cbn [nth] in C1, C2. fold x in C1, C2. rewrite C1, C2. cbn [upd]. split; [reflexivity|]. intros js i j Hj Hi Hjj. destruct js as [|]; [|inversion Hj]. cbn [adat app].
    unfold rep in RA. rewrite SA, GA in RA. destruct RA as (_ & _ & HG). destruct (HG u (nth_error_In _ _ E2)) as [_ HG']. unfold move_axis_idx. cbn. apply HG'.
    destruct (share P H0 m r Hm Hr) as (O1 & O2 & O3 & O4). fold x in O1, O2, O3, O4. constructor; [lia|]. constructor; [lia|constructor]. }
  set (F := fun (r : nat) (i j : Z) => if (zsum (firstn r x) <=? i) && (i <? zsum (firstn r x) + nth r x 0) then product zero add mul K A B [i; j] else zero).
  match goal with |- context [all_ok (map ?f ?l)] => destruct (all_ok_list f (fun r t => M2 t [] m q (fun _ i j => F r i j)) l 0) as (cs & E & L & H) end.
  { intros r [r' [u v]] Hx. apply nth_error_triples in Hx as (-> & Hr & Hu & Hv). rewrite (slice_of P H0 [m; K] 0 r Hr). cbn [nth upd fst snd plus]. fold x.
    destruct (share P H0 m r Hm Hr) as (O1 & O2 & O3 & O4). fold x in O1, O2, O3, O4.
    assert (MB : M2 v [] K q (fun js i j => B (js ++ [i; j]))). { unfold rep in RB. rewrite SB, GB in RB. destruct RB as (_ & _ & HG). apply M2_agrees, HG. eapply nth_error_In; eauto. }
    destruct (mm_M2 zero add mul u v [] _ q K _ _ HK (HLA r u Hu) MB) as (h & Eh & Hh). rewrite Eh. cbn [bind].
    replace (nth r x 0) with (Z.min (zsum (firstn r x) + nth r x 0) m - zsum (firstn r x)) in Hh by lia. replace q with (q - 0) in Hh by lia.
    destruct (iadd_block_M2 zero add mul (zeros zero [m; q]) h [] m q _ _ (zsum (firstn r x)) (zsum (firstn r x) + nth r x 0) 0 q (zeros_M2 zero [] m q) ltac:(lia) ltac:(lia) ltac:(lia) ltac:(lia) Hh) as (c & Ec & Hc).
    exists c. split; [exact Ec|]. eapply M2_ext; [exact Hc|]. intros js i j Hj Hi Hjj. destruct js as [|]; [|inversion Hj]. cbv beta. unfold F.
    replace (0 <=? j) with true by (symmetry; apply Z.leb_le; lia). replace (j <? q) with true by (symmetry; apply Z.ltb_lt; lia). rewrite !andb_true_r.
    destruct ((zsum (firstn r x) <=? i) && (i <? zsum (firstn r x) + nth r x 0)) eqn:EB; [|reflexivity]. rewrite AZ. unfold product. cbn [length Nat.sub upd app]. f_equal. apply map_ext. intros k. now rewrite Z.sub_add, Z.sub_0_r. }
  rewrite E. cbn [bind finish_matrix]. rewrite !combine_length, seq_length, LL, LB, !Nat.min_id in L.
  eexists _, (repeat 0 P). split; [reflexivity|]. cbn [d_gshape d_split d_locals]. split; [auto|]. split; [auto|].
  assert (AL : length (allreduce add cs) = P). { destruct cs; [cbn in L; lia|]. unfold allreduce. now rewrite map_length. }
  split; [exact AL|]. unfold rep. cbn [d_gshape d_split d_locals]. split; [now rewrite repeat_length|]. split; [auto|].
  intros t Ht. apply (M2_agrees t [] m q). destruct cs as [|c0 rest]; [cbn in L; lia|]. unfold allreduce in Ht. apply in_map_iff in Ht as (p & <- & Hp). apply In_nth_error in Hp as (rp & Hp). destruct (H rp p Hp) as [Ep _]. split; [exact Ep|].
  intros js i j Hj Hi Hjj. cbn [adat].
  assert (EV : map (fun c => adat c (js ++ [i; j])) (c0 :: rest) = map (fun r => F r i j) (seq 0 P)).
  { apply (@nth_ext2 _ _ _ zero); rewrite ?map_length, ?seq_length; auto. intros r Hr. rewrite L in Hr. rewrite (@nth_map_seq _ (fun r => F r i j)) by auto.
    destruct (nth_error (c0 :: rest) r) as [c|] eqn:Ec; [|apply nth_error_None in Ec; lia].
    rewrite (nth_error_nth _ r (x:=adat c (js ++ [i; j]))) by (now rewrite nth_error_map, Ec). now apply (H r c Ec). }
  assert (FL : fold_left add (map (fun c => adat c (js ++ [i; j])) rest) (adat c0 (js ++ [i; j])) = fold_left add (map (fun r => F r i j) (seq 0 P)) zero).
  { rewrite <- EV. cbn [map fold_left]. now rewrite AZ. }
  rewrite FL. destruct js as [|]; [|inversion Hj]. cbn [app].
  assert (Q : forall k, (k <= P)%nat -> fold_left add (map (fun r => F r i j) (seq 0 k)) zero = if i <? zsum (firstn k x) then product zero add mul K A B [i; j] else zero).
  { induction k as [|k IH]; intros Hk. { cbn [seq map fold_left firstn]. unfold zsum. cbn. replace (i <? 0) with false by (symmetry; apply Z.ltb_ge; lia). reflexivity. }
    rewrite seq_S, map_app, fold_left_app, IH by lia. cbn [plus map fold_left].
    destruct (share P H0 m k Hm ltac:(lia)) as (O1 & O2 & O3 & _). fold x in O1, O2, O3. rewrite O3. unfold F.
    destruct (Z.ltb_spec i (zsum (firstn k x))), (Z.leb_spec (zsum (firstn k x)) i), (Z.ltb_spec i (zsum (firstn k x) + nth k x 0)); try lia; cbn [andb]; rewrite ?AZ, ?ZA; reflexivity. }
  rewrite Q by lia. rewrite firstn_all2 by lia. rewrite ZS. replace (i <? m) with true by (symmetry; apply Z.ltb_lt; lia). reflexivity.
Qed.
Print Assumptions C61_allow_resplit.
