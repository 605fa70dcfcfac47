(** C99: inner products of distributed arrays. *)
From Verif Require Import Base BaseLemmas LayoutModel LayoutProofs NdSpec TensorSpec TensorLemmas NdLemmas OpsModel OpsProofs2 OpsProofs4 OpsProps RedistModel ShapeSpec ShapeModel ShapeProps BinSpec BinModel BinProofs BinProofs2 BinProps ReshapeModel FactoryModel FactoryProps PrintSpec PrintProofs PrintProofs2 WhereProps DotSpec DotModel.
Open Scope Z_scope.

Lemma combine_map {A B C} (f : A -> B) (g : A -> C) l : combine (map f l) (map g l) = map (fun i => (f i, g i)) l.
Proof. induction l as [|x l IH]; cbn; [auto|now rewrite IH]. Qed.
Lemma in_bounds1 (n : Z) idx : in_bounds [n] idx -> exists i, idx = [i] /\ 0 <= i < n.
Proof. intros H. inversion H as [|? i ? l Hi Hl]; subst. inversion Hl; subst. eauto. Qed.
Lemma row_major1 n : row_major [n] = map (fun i => [i]) (zr n).
Proof. cbn [row_major]. generalize (zr n). intros l. induction l as [|i l IH]; [reflexivity|]. cbn. f_equal; try exact IH. Qed.

Section Dot.
Context {V : Type} (ok : V -> Prop) (zero : V) (add mul : V -> V -> V) (HM : comm_monoid ok add zero).

Lemma inner_map {I} (f g : I -> V) l : inner zero add mul (map f l) (map g l) = big add zero (map (fun i => mul (f i) (g i)) l).
Proof. unfold inner. now rewrite combine_map, map_map. Qed.
Lemma torch_dot_map {I} (f g : I -> V) l : torch_dot zero add mul (map f l) (map g l) = Ok (big add zero (map (fun i => mul (f i) (g i)) l)).
Proof. unfold torch_dot. rewrite !map_length, Nat.eqb_refl. f_equal. apply inner_map. Qed.
Lemma py_vals_all (t : arr V) n F lo hi : agrees t [n] F -> 0 <= lo -> lo <= hi -> hi <= n -> py_vals t lo hi = map (fun i => F [i]) (range lo hi).
Proof.
  intros [S0 D0] H1 H2 H3. unfold py_vals. rewrite S0. cbn [nth]. rewrite !Z.min_l by lia. apply map_ext_in. intros i Hi. apply range_in in Hi. apply D0. repeat constructor; lia.
Qed.

(** Vectors of equal length; every process of an array that is split holds a balanced share.  All processes get the same number. *)
Theorem C99_dot_partial (a b : dnd V) (ca cb : list Z) (Ga Gb : list Z -> V) (n : Z) (out : option (dnd V)) : rep a ca Ga -> rep b cb Gb ->
  d_gshape a = [n] -> d_gshape b = [n] -> let P := length (d_locals a) in (0 < P)%nat -> length (d_locals b) = P ->
  (d_split a <> None -> ca = zcounts n P) -> (d_split b <> None -> cb = zcounts n P) -> (forall i, 0 <= i < n -> ok (mul (Ga [i]) (Gb [i]))) ->
  exists rs o, dot zero add mul a b out = Ok (rs, o) /\ length rs = P /\ forall v, In v rs -> v = inner zero add mul (elements Ga [n]) (elements Gb [n]).
Proof.
  intros HA HB Sa Sb P HP HPb Ba Bb Hok. unfold rep in HA, HB. rewrite Sa in HA. rewrite Sb in HB. assert (N0 : 0 <= n) by (destruct HA as (_ & F & _); now inversion F).
  destruct (zcounts_ok n P HP N0) as (CL & CN & CS). set (c := zcounts n P) in *. set (o := fun r => zsum (firstn r c)).
  assert (OS : forall r, (r < P)%nat -> o (S r) = o r + nth r c 0) by (intros r Hr; unfold o; now rewrite zsum_firstn_S by lia).
  assert (CNr : forall r, 0 <= nth r c 0) by (intros r; destruct (Nat.lt_ge_cases r (length c)); [rewrite Forall_forall in CN; apply CN, nth_In; auto|rewrite nth_overflow; lia]).
  assert (OP : o P = n) by (unfold o; rewrite <- CL, firstn_all; exact CS).
  assert (O0 : forall r, (r <= P)%nat -> 0 <= o r) by (induction r as [|r IH]; intros Hr; [unfold o; cbn; lia|rewrite OS by lia; specialize (IH ltac:(lia)); specialize (CNr r); lia]).
  assert (ON : forall k r, (r + k = P)%nat -> o r <= n).
  { induction k as [|k IH]; intros r Hr; [rewrite <- OP; replace r with P by lia; lia|]. specialize (IH (S r) ltac:(lia)). rewrite OS in IH by lia. specialize (CNr r). lia. }
  set (h := fun i => mul (Ga [i]) (Gb [i])).
  assert (WH : inner zero add mul (elements Ga [n]) (elements Gb [n]) = big add zero (map h (zr n))) by (unfold elements; rewrite row_major1, !map_map; apply inner_map).
  rewrite WH.
  (* the part of one array that a rank uses *)
  assert (PART : forall (x : dnd V) cx G sp, represents G [n] sp cx (d_locals x) -> (sp <> None -> cx = c) -> forall r t, (r < P)%nat -> nth_error (d_locals x) r = Some t ->
     match sp with None => py_vals t (o r) (o r + nth r c 0) | Some _ => py_vals t 0 (nth r c 0) end = map (fun i => G [i]) (range (o r) (o r + nth r c 0))).
  { intros x cx G sp (_ & _ & HR) HC r t Hr Ht. destruct sp as [s|].
    - destruct HR as (Hs & _ & _ & HR). cbn in Hs. assert (s = 0%nat) by lia. subst s. rewrite (HC ltac:(discriminate)) in HR. specialize (HR r t Ht). cbn [upd] in HR.
      change (upd [n] 0 (nth r c 0)) with [nth r c 0] in HR. rewrite (py_vals_all _ _ _ _ _ HR) by (specialize (CNr r); lia). apply map_range_shift; [lia|]. intros i Hi. unfold move_axis_idx. cbn. do 2 f_equal. fold (o r). lia.
    - specialize (HR t (nth_error_In _ _ Ht)). pose proof (ON (P - S r)%nat (S r) ltac:(lia)) as Q. rewrite OS in Q by lia. specialize (CNr r). rewrite (py_vals_all _ _ _ _ _ HR) by (try apply O0; lia). reflexivity. }
  pose proof HA as (LA & _). 
  set (split := match d_split a, d_split b with None, None => false | _, _ => true end).
  destruct (all_ok_Qn (dot_local zero add mul (d_gshape a) (d_split a) (d_split b) P) (fun r v => v = if split then big add zero (map h (range (o r) (o r + nth r c 0))) else big add zero (map h (zr n)))
    (combine (seq 0 P) (combine (d_locals a) (d_locals b)))) as (ps & E & LP & Q).
  { intros r [r' [ta tb]] Hx. apply nth_error_combine in Hx as [E1 E2]. apply nth_error_combine in E2 as [E2 E3]. cbn [fst snd] in *. assert (Hr : (r < P)%nat) by (apply nth_error_Some; congruence).
    assert (r' = r) by (apply (nth_error_nth _ _ 0%nat) in E1; rewrite seq_nth in E1 by auto; lia). subst r'.
    pose proof (PART a ca Ga (d_split a) HA Ba r ta Hr E2) as QA. pose proof (PART b cb Gb (d_split b) HB Bb r tb Hr E3) as QB.
    assert (CH : forall s, (s < 1)%nat -> chunk_start (d_gshape a) s r P = o r /\ nth s (chunk_shape (d_gshape a) s r P) 0 = nth r c 0).
    { intros s Hs. assert (s = 0%nat) by lia. subst s. destruct (chunk_counts (d_gshape a) 0 r P HP Hr) as [-> ->]. rewrite Sa. cbn [nth]. split; reflexivity. }
    assert (SP : forall (x : dnd V) cx G sp s, represents G [n] sp cx (d_locals x) -> sp = Some s -> (s < 1)%nat) by (intros x cx G sp s (_ & _ & HR) ->; apply HR).
    unfold dot_local, split. cbv zeta. destruct (d_split a) as [s|] eqn:Ea.
    - destruct (CH s (SP a ca Ga _ s HA eq_refl)) as [-> ->]. rewrite QA, QB, torch_dot_map. eauto.
    - destruct (d_split b) as [s|] eqn:Eb.
      + destruct (CH s (SP b cb Gb _ s HB eq_refl)) as [-> ->]. rewrite QA, QB, torch_dot_map. eauto.
      + destruct HA as (_ & _ & HA). destruct HB as (_ & _ & HB). specialize (HA ta (nth_error_In _ _ E2)). specialize (HB tb (nth_error_In _ _ E3)).
        assert (EA : nth 0 (ash ta) 0 = n) by (destruct HA as [-> _]; reflexivity). assert (EB : nth 0 (ash tb) 0 = n) by (destruct HB as [-> _]; reflexivity). rewrite EA, EB, (py_vals_all ta n _ 0 n HA), (py_vals_all tb n _ 0 n HB) by lia. rewrite torch_dot_map, range_zr. eauto. }
  rewrite !combine_length, seq_length, HPb in LP. unfold dot. cbv zeta. fold P. rewrite E. cbn [bind]. fold split.
  assert (LL : length ps = P) by (unfold P in *; lia).
  assert (SUM : split = true -> big add zero ps = big add zero (map h (zr n))).
  { intros ES. rewrite ES in Q. assert (EP : ps = map (big add zero) (map (fun r => map h (range (o r) (o r + nth r c 0))) (seq 0 P))).
    { apply (@nth_ext2 _ _ _ zero); [now rewrite !map_length, seq_length|]. intros r Hr. rewrite map_map, (nth_map_seq (fun r => big add zero (map h (range (o r) (o r + nth r c 0))))) by lia. apply Q. now apply nth_error_nth'. }
    assert (PRE : forall k, (k <= P)%nat -> concat (map (fun r => map h (range (o r) (o r + nth r c 0))) (seq 0 k)) = map h (range 0 (o k))).
    { induction k as [|k IH]; intros Hk; [reflexivity|]. rewrite seq_S, map_app, concat_app, IH by lia. cbn [map concat Nat.add]. rewrite app_nil_r, <- map_app, range_app, OS by (specialize (CNr k); specialize (O0 k ltac:(lia)); lia). reflexivity. }
    rewrite EP, <- (big_concat V ok add zero HM).
    - rewrite PRE, OP, range_zr by lia. reflexivity.
    - apply Forall_forall. intros l Hl. apply in_map_iff in Hl as (r & <- & Hr). apply in_seq in Hr. apply Forall_forall. intros v Hv. apply in_map_iff in Hv as (i & <- & Hi). apply range_in in Hi. apply Hok.
      pose proof (ON (P - S r)%nat (S r) ltac:(lia)) as Q2. rewrite OS in Q2 by lia. specialize (O0 r ltac:(lia)). lia. }
  eexists _, out. split; [reflexivity|]. destruct split eqn:ES; cbn [andb].
  - destruct (Nat.ltb_spec 1 P).
    + split; [now rewrite map_length|]. intros v Hv. apply in_map_iff in Hv as (x & <- & _). now apply SUM.
    + split; [auto|]. intros v Hv. destruct ps as [|p [|]]; cbn in LL; try lia. destruct Hv as [<-|[]]. rewrite <- SUM by auto. cbn [big fold_right]. rewrite (Q 0%nat p eq_refl). assert (OKh : Forall ok (map h (range (o 0%nat) (o 0%nat + nth 0 c 0)))).
      { apply Forall_forall. intros v Hv. apply in_map_iff in Hv as (i & <- & Hi). apply range_in in Hi. apply Hok. pose proof (ON (P - 1)%nat 1%nat ltac:(lia)) as Q2. rewrite OS in Q2 by lia. specialize (O0 0%nat ltac:(lia)). lia. }
      symmetry. apply (op_e_r V ok add zero HM). now apply (ok_big V ok add zero HM).
  - split; [auto|]. intros v Hv. apply (In_nth _ _ zero) in Hv as (r & Hr & <-). apply (Q r). now apply nth_error_nth'.
Qed.

(** vecdot is the sum of the broadcast products along one axis (C45 and C23) *)
Theorem C99_vecdot_partial (x y : bnd V) (c1 c2 osh : list Z) (G1 G2 : list Z -> V) (axis : option Z) (k : nat) : rep (b_arr x) c1 G1 -> rep (b_arr y) c2 G2 -> flag_ok x c1 -> flag_ok y c2 ->
  let P := length (d_locals (b_arr x)) in (0 < P)%nat -> length (d_locals (b_arr y)) = P ->
  let sh1 := d_gshape (b_arr x) in let sh2 := d_gshape (b_arr y) in bcast_shape sh1 sh2 osh -> let n := length osh in
  supported P (padded n sh1) (padded n sh2) osh (shift_split n sh1 (d_split (b_arr x))) (shift_split n sh2 (d_split (b_arr y))) ->
  let prod idx := mul (G1 (bcast_idx sh1 idx)) (G2 (bcast_idx sh2 idx)) in (forall idx, in_bounds osh idx -> ok (prod idx)) ->
  match axis with Some a => valid_axis n a /\ k = norm n a | None => k = (n - 1)%nat end -> (0 < n)%nat ->
  (exists r cnts, vecdot zero add mul x y axis true = Ok r /\ r_gshape r = fill_axes [k] 1 osh /\ represents (reduce_keep add zero prod osh [k]) (r_gshape r) (r_split r) cnts (r_locals r)) /\
  ((1 < n)%nat -> exists r cnts, vecdot zero add mul x y axis false = Ok r /\ r_gshape r = drop_axes [k] osh /\ represents (reduce_drop add zero prod osh [k]) (r_gshape r) (r_split r) cnts (r_locals r)).
Proof.
  intros R1 R2 F1 F2 P HP HPP sh1 sh2 HB n HS prod Hok HK Hn.
  destruct (C45_binary_partial V V V zero zero mul x y G1 G2 c1 c2 osh R1 R2 F1 F2 HP HPP HB HS) as (u & cnts & E & Sg & _ & Ru & _). unfold rep in Ru. rewrite Sg in Ru.
  set (ax := match axis with Some a => a | None => Z.of_nat n - 1 end).
  assert (AX : axes_of n (AxInt ax) = Ok (Some [k])).
  { unfold axes_of, sanitize_axis, ax. rewrite (proj2 (Nat.eqb_neq n 0)) by lia. cbn [bind]. destruct axis as [a|].
    - destruct HK as [[H1 H2] ->]. unfold norm. destruct (Z.ltb_spec a 0); cbn [bind]; repeat (match goal with |- context [if ?b then _ else _] => destruct b eqn:?; try lia end); cbn [bind]; do 3 f_equal; lia.
    - subst k. repeat (match goal with |- context [if ?b then _ else _] => destruct b eqn:?; try lia end); cbn [bind]; do 3 f_equal; lia. }
  assert (KN : (k < n)%nat) by (destruct axis as [a|]; [destruct HK as [[H1 H2] ->]; unfold norm; destruct (a <? 0) eqn:?; lia|lia]).
  assert (ND : NoDup [k]) by (constructor; [auto|constructor]). unfold vecdot. cbv zeta. rewrite E. cbn [bind]. rewrite Sg. fold n. fold ax. split.
  - destruct (C23_reduce_keepdims_partial V ok add zero HM false osh _ _ _ _ (AxInt ax) [k] Ru Hok AX ND ltac:(discriminate)) as (r & E2 & S2 & R3 & _). exists r, cnts. split; [exact E2|]. split; [exact S2|]. rewrite S2. exact R3.
  - intros Hn1. destruct (C23_reduce_partial V ok add zero HM false osh _ _ _ _ (AxInt ax) [k] Ru Hok AX ND) as (r & E2 & S2 & R3 & _).
    + fold n. lia.
    + destruct (Nat.eq_dec k 0); [exists 1%nat|exists 0%nat]; (split; [fold n; lia|]); intros [->|[]]; lia.
    + discriminate.
    + exists r, cnts. split; [exact E2|]. split; [exact S2|]. rewrite S2. exact R3.
Qed.
End Dot.
