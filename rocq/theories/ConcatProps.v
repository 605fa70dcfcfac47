(** C35: concatenate.  The result holds the elements of the operands one after the other along
    the axis ([ConcatSpec.glue]), in the split of the operands, balanced when the axis is the
    split axis; the point-to-point exchange completes under every schedule. *)
From Verif Require Import Base BaseLemmas LayoutModel LayoutProofs NdSpec TensorSpec TensorLemmas NdLemmas OpsModel OpsProofs2 RedistModel RedistProofs SchedModel SchedProofs SchedProps ShapeSpec ShapeModel ShapeProofs ShapeProofs2 ShapeProofs3 ShapeProofs4 BinModel BinProofs BinProofs2 SlabLemmas ShapeProps RollProofs3 RollProps ReshapeModel ReshapeProofs FactoryModel FactoryProps ConcatSpec ConcatModel ConcatProofs ConcatProofs2 ConcatProofs3.
Open Scope Z_scope.

(** how the call starts when axis and shapes are fine *)
Lemma concat2_start {A} (x0 x1 : dnd A) a :
  let axis := norm (length (d_gshape x0)) a in
  valid_axis (length (d_gshape x0)) a -> cat_shapes axis (d_gshape x0) (d_gshape x1) ->
  exists az, sanitize_axis (length (d_gshape x0)) (AxInt a) = Ok (AxInt az) /\ Z.to_nat az = axis /\
    Nat.eqb (length (d_gshape x0)) (length (d_gshape x1)) = true /\ fits_left axis (d_gshape x1) (d_gshape x0) = true.
Proof.
  intros axis HV HC. destruct (sanitize_int _ a HV) as (b & E & En). exists b. split; [auto|]. split; [auto|].
  split; [apply Nat.eqb_eq; apply HC|now apply fits_cat].
Qed.
Ltac start HV HC := destruct (concat2_start _ _ _ HV HC) as (az & E1 & E2 & E3 & E4);
  unfold concat2; rewrite E1; cbn [bind]; cbv zeta; rewrite E2, E3, E4; cbn [negb].

(** * both operands split along the axis; no rank holds more than its share of the result *)
Theorem C35_both_split_axis : forall (A : Type) (dflt : A) (x0 x1 : dnd A) (G0 G1 : list Z -> A) (c0 c1 : list Z) (a : Z) (P : nat),
  let axis := norm (length (d_gshape x0)) a in
  let n0 := nth axis (d_gshape x0) 0 in let n1 := nth axis (d_gshape x1) 0 in
  valid_axis (length (d_gshape x0)) a -> cat_shapes axis (d_gshape x0) (d_gshape x1) ->
  rep x0 c0 G0 -> rep x1 c1 G1 -> length (d_locals x0) = P -> length (d_locals x1) = P -> (0 < P)%nat ->
  d_split x0 = Some axis -> d_split x1 = Some axis ->
  (forall r, (r < P)%nat -> nth r c0 0 <= nth r (zcounts (n0 + n1) P) 0 /\ nth r c1 0 <= nth r (zcounts (n0 + n1) P) 0) ->
  exists y, concat2 dflt x0 x1 (AxInt a) = Ok y /\ d_gshape y = cat_shape axis (d_gshape x0) (d_gshape x1) /\
    d_split y = Some axis /\ rep y (zcounts (n0 + n1) P) (glue axis n0 G0 G1).
Proof.
  intros A dflt x0 x1 G0 G1 c0 c1 a P axis n0 n1 HV HC R0 R1 L0 L1 HP S0 S1 HB. start HV HC. fold axis n0 n1.
  rewrite S0, S1, !Nat.eqb_refl. cbn [negb]. unfold rep in R0, R1. rewrite S0 in R0. rewrite S1 in R1. rewrite L0.
  set (c := counts_of (Z.to_nat (n0 + n1)) P). set (d0 := map (slabs axis) (d_locals x0)). set (d1 := map (slabs axis) (d_locals x1)).
  destruct (slabs_view _ _ _ _ _ R0) as (V1 & V2 & _). destruct (slabs_view _ _ _ _ _ R1) as (W1 & W2 & _). fold d0 in V1, V2. fold d1 in W1, W2. fold n0 in V2. fold n1 in W2.
  pose proof R0 as (RL0 & N0 & _). pose proof R1 as (RL1 & N1 & HX1 & _). destruct HC as (HC1 & HC2 & HC3).
  assert (Hn0 : 0 <= n0) by (rewrite Forall_forall in N0; apply N0, nth_In; auto). assert (Hn1 : 0 <= n1) by (rewrite Forall_forall in N1; apply N1, nth_In; auto).
  assert (Ld0 : length d0 = P) by (unfold d0; now rewrite map_length). assert (Ld1 : length d1 = P) by (unfold d1; now rewrite map_length).
  pose proof (concat_slabs_parts d0 d1) as CP. rewrite Ld0, Ld1, V2, W2, <- Z2Nat.inj_add in CP by auto. fold c in CP. cbv zeta in CP.
  assert (Hlen : forall cnts r, nth r (map Z.to_nat cnts) 0%nat = Z.to_nat (nth r cnts 0)) by (intros; change 0%nat with (Z.to_nat 0) at 1; apply map_nth).
  assert (HB' : forall r, (r < P)%nat -> (Z.to_nat (nth r c0 0%Z) <= nth r c 0)%nat /\ (Z.to_nat (nth r c1 0%Z) <= nth r c 0)%nat).
  { intros r Hr. specialize (HB r Hr). unfold zcounts in HB. rewrite nth_of_nat in HB. fold c in HB. lia. }
  destruct (CP eq_refl HP) as (A1 & A2 & A3 & A4 & A5 & A6 & A7 & _); clear CP; cbv zeta in *.
  { intros j Hj. rewrite <- lens_nth, V1, Hlen. apply HB'; auto. }
  { intros j Hj. rewrite <- lens_nth, W1, Hlen. apply HB'; auto. }
  assert (LC : length c = P) by apply counts_of_length.
  pose proof (front_load_ok c (lens d0)) as F. rewrite lens_length, Ld0, LC in F. specialize (F eq_refl).
  destruct (front_load c (lens d0)) as [lf tf] eqn:EF. cbn [fst snd] in *. destruct F as (_ & F2 & F3). { intros j Hj. rewrite V1, Hlen. apply HB'; lia. }
  rewrite <- glob_length, V2 in F3.
  set (f := run_trace d0 tf) in *. set (g := run_trace d1 (snd (back_load c (lens d1)))) in *.
  destruct (glue_pieces G0 G1 axis (d_gshape x0) (d_gshape x1) (lens f) (lens g) (map (unslabs dflt axis (d_gshape x0)) f) (map (unslabs dflt axis (d_gshape x1)) g) P HP) as (ls & EL & LL & RR).
  - split; auto.
  - now rewrite lens_length.
  - now rewrite lens_length.
  - intros j Hj. rewrite A5. fold n0 n1 c. apply F3. lia.
  - intros j Hj. fold n0 n1 c. specialize (A7 j Hj). rewrite <- !lens_nth in A7. rewrite A5 in A7. rewrite F3 in A7 by lia. lia.
  - eapply moved_represents; eauto. rewrite <- glob_length, A3. fold d0. auto.
  - eapply moved_represents; eauto. rewrite <- glob_length, A4. fold d1. auto.
  - fold n0 n1 in RR. rewrite EL. cbn [bind]. destruct (C55_array_is_split _ _ _ _ _ _ RR ltac:(lia)) as (y & bal & -> & Y1 & Y2 & Y3 & Y4 & _). cbn [bind fst].
    exists y. auto.
Qed.
Print Assumptions C35_both_split_axis.

(** balanced pieces satisfy the condition above *)
Lemma balanced_fits n m r P : (0 < P)%nat -> 0 <= n -> 0 <= m -> (r < P)%nat ->
  nth r (zcounts n P) 0 <= nth r (zcounts (n + m) P) 0 /\ nth r (zcounts m P) 0 <= nth r (zcounts (n + m) P) 0.
Proof.
  intros HP Hn Hm Hr. unfold zcounts. rewrite !nth_of_nat, !counts_of_nth by auto. rewrite Z2Nat.inj_add by auto. split; apply Nat2Z.inj_le; [apply clen_add; auto|].
  rewrite Nat.add_comm. apply clen_add; auto.
Qed.

(** * both operands split alike along another axis, with the same layout *)
Theorem C35_both_split_other : forall (A : Type) (dflt : A) (x0 x1 : dnd A) (G0 G1 : list Z -> A) (cnts : list Z) (a : Z) (s : nat),
  let axis := norm (length (d_gshape x0)) a in
  valid_axis (length (d_gshape x0)) a -> cat_shapes axis (d_gshape x0) (d_gshape x1) ->
  rep x0 cnts G0 -> rep x1 cnts G1 -> (0 < length (d_locals x0))%nat ->
  d_split x0 = Some s -> d_split x1 = Some s -> s <> axis ->
  exists y, concat2 dflt x0 x1 (AxInt a) = Ok y /\ d_gshape y = cat_shape axis (d_gshape x0) (d_gshape x1) /\
    d_split y = Some s /\ rep y cnts (glue axis (nth axis (d_gshape x0) 0) G0 G1).
Proof.
  intros A dflt x0 x1 G0 G1 cnts a s axis HV HC R0 R1 HP S0 S1 NE. start HV HC. fold axis.
  unfold rep in *. rewrite S0, S1 in *. rewrite Nat.eqb_refl. cbn [negb]. replace (Nat.eqb s axis) with false by (symmetry; apply Nat.eqb_neq; auto). cbn [negb].
  destruct (cats_other G0 G1 axis _ _ s cnts _ _ HC NE R0 R1) as (ls & EL & LL & RR). rewrite EL. cbn [bind].
  destruct (C55_array_is_split _ _ _ _ _ _ RR ltac:(lia)) as (y & bal & -> & Y1 & Y2 & Y3 & Y4 & _). cbn [bind fst]. exists y. auto.
Qed.
Print Assumptions C35_both_split_other.

(** * replicated operands *)
Theorem C35_both_replicated : forall (A : Type) (dflt : A) (x0 x1 : dnd A) (G0 G1 : list Z -> A) (c0 c1 : list Z) (a : Z),
  let axis := norm (length (d_gshape x0)) a in
  valid_axis (length (d_gshape x0)) a -> cat_shapes axis (d_gshape x0) (d_gshape x1) ->
  rep x0 c0 G0 -> rep x1 c1 G1 -> length (d_locals x0) = length (d_locals x1) ->
  d_split x0 = None -> d_split x1 = None ->
  exists y, concat2 dflt x0 x1 (AxInt a) = Ok y /\ d_gshape y = cat_shape axis (d_gshape x0) (d_gshape x1) /\
    d_split y = None /\ rep y c0 (glue axis (nth axis (d_gshape x0) 0) G0 G1).
Proof.
  intros A dflt x0 x1 G0 G1 c0 c1 a axis HV HC R0 R1 HL S0 S1. start HV HC. fold axis.
  unfold rep in *. rewrite S0, S1 in *. destruct (cats_none G0 G1 axis _ _ c0 c1 _ _ HC ltac:(destruct R0, R1; lia) R0 R1) as (ls & EL & LL & RR). rewrite EL. cbn [bind].
  eexists. split; [reflexivity|]. cbn [d_gshape d_split d_locals]. auto.
Qed.
Print Assumptions C35_both_replicated.

(** * one operand replicated, the other split along another axis and balanced *)
Theorem C35_one_replicated_other : forall (A : Type) (dflt : A) (x0 x1 : dnd A) (G0 G1 : list Z -> A) (c0 c1 : list Z) (a : Z) (P s : nat),
  let axis := norm (length (d_gshape x0)) a in
  valid_axis (length (d_gshape x0)) a -> cat_shapes axis (d_gshape x0) (d_gshape x1) ->
  rep x0 c0 G0 -> rep x1 c1 G1 -> length (d_locals x0) = P -> length (d_locals x1) = P -> (0 < P)%nat -> s <> axis ->
  (d_split x0 = None /\ d_split x1 = Some s /\ c1 = zcounts (nth s (d_gshape x1) 0) P \/
   d_split x1 = None /\ d_split x0 = Some s /\ c0 = zcounts (nth s (d_gshape x0) 0) P) ->
  exists y, concat2 dflt x0 x1 (AxInt a) = Ok y /\ d_gshape y = cat_shape axis (d_gshape x0) (d_gshape x1) /\
    d_split y = Some s /\ rep y (zcounts (nth s (d_gshape x0) 0) P) (glue axis (nth axis (d_gshape x0) 0) G0 G1).
Proof.
  intros A dflt x0 x1 G0 G1 c0 c1 a P s axis HV HC R0 R1 L0 L1 HP NE HS. start HV HC. fold axis. unfold rep in *.
  destruct HS as [(S0 & S1 & ->)|(S1 & S0 & ->)]; rewrite S0, S1 in *; replace (Nat.eqb s axis) with false by (symmetry; apply Nat.eqb_neq; auto); cbn [negb]; rewrite L0.
  - pose proof R1 as (_ & _ & Hs & _). pose proof HC as (HC1 & HC2 & HC3). assert (ES : nth s (d_gshape x0) 0 = nth s (d_gshape x1) 0) by (apply HC3; auto; lia).
    pose proof (take_chunk_represents G0 (d_gshape x0) s c0 _ P R0 L0 HP ltac:(lia)) as RT. rewrite ES in *.
    destruct (cats_other G0 G1 axis _ _ s _ _ _ HC NE RT R1) as (ls & EL & LL & RR). rewrite EL. cbn [bind]. rewrite map_length, combine_length, seq_length in LL.
    destruct (C55_array_is_split _ _ _ _ _ _ RR ltac:(lia)) as (y & bal & -> & Y1 & Y2 & Y3 & Y4 & _). cbn [bind fst]. exists y. auto.
  - pose proof R0 as (_ & _ & Hs & _). pose proof HC as (HC1 & HC2 & HC3). assert (ES : nth s (d_gshape x0) 0 = nth s (d_gshape x1) 0) by (apply HC3; auto; lia).
    pose proof (take_chunk_represents G1 (d_gshape x1) s c1 _ P R1 L1 HP ltac:(lia)) as RT. rewrite ES in *.
    destruct (cats_other G0 G1 axis _ _ s _ _ _ HC NE R0 RT) as (ls & EL & LL & RR). rewrite EL. cbn [bind].
    destruct (C55_array_is_split _ _ _ _ _ _ RR ltac:(lia)) as (y & bal & -> & Y1 & Y2 & Y3 & Y4 & _). cbn [bind fst]. exists y. auto.
Qed.
Print Assumptions C35_one_replicated_other.

(** * one operand replicated, the other split along the axis; no other extent is one *)
Lemma none_first_len c l : length l = length c -> (forall j, (j < length c)%nat -> (nth j l 0 <= nth j c 0)%nat) ->
  map (fun p => Z.of_nat (fst p) - Z.of_nat (snd p)) (combine c l) = map Z.of_nat (map (fun p => (fst p - snd p)%nat) (combine c l)).
Proof.
  intros HL HB. rewrite map_map. apply map_ext_in. intros [u v] Hin. apply In_nth with (d := (0%nat, 0%nat)) in Hin as (j & Hj & E). rewrite combine_length in Hj.
  rewrite combine_nth in E by auto. injection E as <- <-. cbn [fst snd]. specialize (HB j ltac:(lia)). lia.
Qed.
Lemma nth_diff (c l : list nat) j : length l = length c -> (j < length c)%nat ->
  nth j (map (fun p => (fst p - snd p)%nat) (combine c l)) 0%nat = (nth j c 0 - nth j l 0)%nat.
Proof.
  revert l j. induction c as [|u c IH]; intros [|v l] j HL Hj; try discriminate; [cbn in Hj; lia|]. destruct j as [|j]; [reflexivity|]. cbn [combine map nth]. apply IH; cbn in *; lia.
Qed.
Theorem C35_replicated_first : forall (A : Type) (dflt : A) (x0 x1 : dnd A) (G0 G1 : list Z -> A) (c0 c1 : list Z) (a : Z) (P : nat),
  let axis := norm (length (d_gshape x0)) a in
  let n0 := nth axis (d_gshape x0) 0 in let n1 := nth axis (d_gshape x1) 0 in
  valid_axis (length (d_gshape x0)) a -> cat_shapes axis (d_gshape x0) (d_gshape x1) ->
  rep x0 c0 G0 -> rep x1 c1 G1 -> length (d_locals x0) = P -> length (d_locals x1) = P -> (0 < P)%nat ->
  d_split x0 = None -> d_split x1 = Some axis ->
  (forall k, (k < length (d_gshape x0))%nat -> k <> axis -> nth k (d_gshape x0) 0 <> 1) ->
  (forall r, (r < P)%nat -> nth r c1 0 <= nth r (zcounts (n0 + n1) P) 0) ->
  exists y, concat2 dflt x0 x1 (AxInt a) = Ok y /\ d_gshape y = cat_shape axis (d_gshape x0) (d_gshape x1) /\
    d_split y = Some axis /\ rep y (zcounts (n0 + n1) P) (glue axis n0 G0 G1).
Proof.
  intros A dflt x0 x1 G0 G1 c0 c1 a P axis n0 n1 HV HC R0 R1 L0 L1 HP S0 S1 H1 HB. start HV HC. fold axis n0 n1.
  rewrite S0, S1, Nat.eqb_refl. cbn [negb]. unfold rep in *. rewrite S0 in R0. rewrite S1 in R1. rewrite L0.
  set (c := counts_of (Z.to_nat (n0 + n1)) P). set (d1 := map (slabs axis) (d_locals x1)).
  destruct (slabs_view _ _ _ _ _ R1) as (W1 & W2 & _). fold d1 in W1, W2. fold n1 in W2.
  pose proof R0 as (RL0 & N0 & _). pose proof R1 as (RL1 & N1 & HX1 & _). pose proof HC as (HC1 & HC2 & HC3).
  assert (Hn0 : 0 <= n0) by (rewrite Forall_forall in N0; apply N0, nth_In; auto). assert (Hn1 : 0 <= n1) by (rewrite Forall_forall in N1; apply N1, nth_In; auto).
  assert (Ld1 : length d1 = P) by (unfold d1; now rewrite map_length).
  assert (LC : length c = P) by apply counts_of_length. assert (SC : list_sum c = Z.to_nat (n0 + n1)) by (apply counts_of_sum; auto).
  assert (Hlen : forall cnts r, nth r (map Z.to_nat cnts) 0%nat = Z.to_nat (nth r cnts 0)) by (intros; change 0%nat with (Z.to_nat 0) at 1; apply map_nth).
  pose proof (back_load_ok c (lens d1)) as F. rewrite lens_length, Ld1, LC in F. specialize (F eq_refl).
  destruct (back_load c (lens d1)) as [lg tg]. destruct F as (F1 & F2 & F3). { intros j Hj. rewrite W1, Hlen. specialize (HB j Hj). unfold zcounts in HB. rewrite nth_of_nat in HB. fold c in HB. lia. }
  rewrite <- glob_length, W2 in F3. destruct (trace_ok_run d1 F1 eq_refl) as [T1 T2].
  assert (FL : forall j, (j < P)%nat -> (nth j c 0 - nth j lg 0)%nat = fill c (Z.to_nat n0) j).
  { intros j Hj. rewrite F3 by lia. unfold fill. pose proof (psum_S c (k:=j) ltac:(lia)). pose proof (psum_le_sum c (S j)). rewrite Z2Nat.inj_add in SC by auto. lia. }
  set (lf := map (fun p => (fst p - snd p)%nat) (combine c lg)).
  assert (Llf : length lf = P) by (unfold lf; rewrite map_length, combine_length; lia).
  assert (Nlf : forall j, (j < P)%nat -> nth j lf 0%nat = fill c (Z.to_nat n0) j).
  { intros j Hj. unfold lf. rewrite nth_diff by lia. auto. }
  assert (Sf : Z.of_nat (list_sum lf) = n0).
  { rewrite <- (psum_all lf (k:=P)) by lia. rewrite (psum_fill c (Z.to_nat n0)) by (rewrite ?LC; auto). rewrite psum_all by lia. lia. }
  unfold none_first. rewrite none_first_len by (rewrite ?LC; auto; intros j Hj; rewrite F3 by auto; lia). fold lf.
  destruct (none_pieces G0 (d_gshape x0) axis c0 (d_locals x0) lf (fun r => zsum (firstn r (map Z.of_nat lf))) (fun r => nth r (map Z.of_nat lf) 0)) as (f & Ef & Rf); auto; [lia|intros r Hr; rewrite nth_of_nat; auto|].
  rewrite Ef. cbn [bind].
  destruct (glue_pieces G0 G1 axis (d_gshape x0) (d_gshape x1) lf lg f (map (unslabs dflt axis (d_gshape x1)) (run_trace d1 tg)) P HP HC) as (ls & EL & LL & RR); auto.
  - fold n0 n1 c. intros j Hj. rewrite <- FL by auto. rewrite F3 by lia. lia.
  - rewrite <- T1. eapply moved_represents; eauto. rewrite <- glob_length, T2. auto.
  - fold n0 n1 in RR. rewrite EL. cbn [bind]. destruct (C55_array_is_split _ _ _ _ _ _ RR ltac:(lia)) as (y & bal & -> & Y1 & Y2 & Y3 & Y4 & _). cbn [bind fst].
    exists y. auto.
Qed.
Print Assumptions C35_replicated_first.

Theorem C35_replicated_second : forall (A : Type) (dflt : A) (x0 x1 : dnd A) (G0 G1 : list Z -> A) (c0 c1 : list Z) (a : Z) (P : nat),
  let axis := norm (length (d_gshape x0)) a in
  let n0 := nth axis (d_gshape x0) 0 in let n1 := nth axis (d_gshape x1) 0 in
  valid_axis (length (d_gshape x0)) a -> cat_shapes axis (d_gshape x0) (d_gshape x1) ->
  rep x0 c0 G0 -> rep x1 c1 G1 -> length (d_locals x0) = P -> length (d_locals x1) = P -> (0 < P)%nat ->
  d_split x0 = Some axis -> d_split x1 = None ->
  (forall k, (k < length (d_gshape x0))%nat -> k <> axis -> nth k (d_gshape x0) 0 <> 1) ->
  (forall r, (r < P)%nat -> nth r c0 0 <= nth r (zcounts (n0 + n1) P) 0) ->
  exists y, concat2 dflt x0 x1 (AxInt a) = Ok y /\ d_gshape y = cat_shape axis (d_gshape x0) (d_gshape x1) /\
    d_split y = Some axis /\ rep y (zcounts (n0 + n1) P) (glue axis n0 G0 G1).
Proof.
  intros A dflt x0 x1 G0 G1 c0 c1 a P axis n0 n1 HV HC R0 R1 L0 L1 HP S0 S1 H1 HB. start HV HC. fold axis n0 n1.
  rewrite S0, S1, Nat.eqb_refl. cbn [negb]. unfold rep in *. rewrite S0 in R0. rewrite S1 in R1. rewrite L0.
  set (c := counts_of (Z.to_nat (n0 + n1)) P). set (d0 := map (slabs axis) (d_locals x0)).
  destruct (slabs_view _ _ _ _ _ R0) as (W1 & W2 & _). fold d0 in W1, W2. fold n0 in W2.
  pose proof R0 as (RL0 & N0 & _). pose proof R1 as (RL1 & N1 & _). pose proof HC as (HC1 & HC2 & HC3).
  assert (Hn0 : 0 <= n0) by (rewrite Forall_forall in N0; apply N0, nth_In; auto). assert (Hn1 : 0 <= n1) by (rewrite Forall_forall in N1; apply N1, nth_In; lia).
  assert (Ld0 : length d0 = P) by (unfold d0; now rewrite map_length).
  assert (LC : length c = P) by apply counts_of_length. assert (SC : list_sum c = Z.to_nat (n0 + n1)) by (apply counts_of_sum; auto).
  assert (Hlen : forall cnts r, nth r (map Z.to_nat cnts) 0%nat = Z.to_nat (nth r cnts 0)) by (intros; change 0%nat with (Z.to_nat 0) at 1; apply map_nth).
  pose proof (front_load_ok c (lens d0)) as F. rewrite lens_length, Ld0, LC in F. specialize (F eq_refl).
  destruct (front_load c (lens d0)) as [lf tf]. destruct F as (F1 & F2 & F3). { intros j Hj. rewrite W1, Hlen. specialize (HB j Hj). unfold zcounts in HB. rewrite nth_of_nat in HB. fold c in HB. lia. }
  rewrite <- glob_length, W2 in F3. destruct (trace_ok_run d0 F1 eq_refl) as [T1 T2].
  set (lg := map (fun p => (fst p - snd p)%nat) (combine c lf)).
  assert (Llg : length lg = P) by (unfold lg; rewrite map_length, combine_length; lia).
  assert (Nlg : forall j, (j < P)%nat -> nth j lg 0%nat = (nth j c 0 - fill c (Z.to_nat n0) j)%nat).
  { intros j Hj. unfold lg. rewrite nth_diff by lia. rewrite F3 by auto. auto. }
  assert (Sg : Z.of_nat (list_sum lg) = n1).
  { rewrite <- (psum_all lg (k:=P)) by lia. rewrite (psum_rest c (Z.to_nat n0)) by (rewrite ?LC; auto). rewrite psum_all by lia. lia. }
  unfold none_second. rewrite none_first_len by (rewrite ?LC; auto; intros j Hj; rewrite F3 by auto; unfold fill; lia). fold lg.
  assert (ZS : forall r, n1 - zsum (skipn r (map Z.of_nat lg)) = zsum (firstn r (map Z.of_nat lg))).
  { intros r. assert (E : zsum (map Z.of_nat lg) = n1) by (rewrite <- (firstn_all (map Z.of_nat lg)); rewrite psum_zsum_nat, map_length; rewrite psum_all by auto; auto).
    rewrite <- (firstn_skipn r (map Z.of_nat lg)) in E. unfold zsum in *. rewrite fold_right_app in E.
    assert (FR : forall l b, fold_right Z.add b l = fold_right Z.add 0 l + b) by (induction l as [|u l IH]; intros b; cbn; [lia|rewrite IH; lia]). rewrite FR in E. lia. }
  destruct (none_pieces G1 (d_gshape x1) axis c1 (d_locals x1) lg (fun r => n1 - zsum (skipn r (map Z.of_nat lg))) (fun r => nth r (map Z.of_nat lg) 0)) as (g & Eg & Rg); auto.
  { lia. } { lia. } { intros k Hk Nk. rewrite <- HC3 by (auto; lia). apply H1; auto; lia. } { intros r Hr. rewrite nth_of_nat, ZS. auto. }
  rewrite HC1. rewrite Eg. cbn [bind].
  destruct (glue_pieces G0 G1 axis (d_gshape x0) (d_gshape x1) lf lg (map (unslabs dflt axis (d_gshape x0)) (run_trace d0 tf)) g P HP HC) as (ls & EL & LL & RR); auto.
  - rewrite <- T1. eapply moved_represents; eauto. rewrite <- glob_length, T2. auto.
  - fold n0 n1 in RR. rewrite EL. cbn [bind]. destruct (C55_array_is_split _ _ _ _ _ _ RR ltac:(lia)) as (y & bal & -> & Y1 & Y2 & Y3 & Y4 & _). cbn [bind fst].
    exists y. auto.
Qed.
Print Assumptions C35_replicated_second.

(** * balanced operands of any kind *)
Definition is_rep {A} (P : nat) (x : dnd A) (G : list Z -> A) : Prop :=
  length (d_locals x) = P /\ rep x (balanced_counts P (d_gshape x) (d_split x)) G.
(** splits [concatenate] accepts *)
Definition cat_splits (axis : nat) (sh : list Z) (s0 s1 : option nat) : Prop :=
  s0 = s1 \/ ((s0 = None \/ s1 = None) /\
              (s0 = Some axis \/ s1 = Some axis -> forall k, (k < length sh)%nat -> k <> axis -> nth k sh 0 <> 1)).
Definition first_split (s0 s1 : option nat) : option nat := match s0 with Some s => Some s | None => s1 end.

Theorem C35_balanced : forall (A : Type) (dflt : A) (x0 x1 : dnd A) (G0 G1 : list Z -> A) (a : Z) (P : nat),
  let axis := norm (length (d_gshape x0)) a in
  (0 < P)%nat -> valid_axis (length (d_gshape x0)) a -> cat_shapes axis (d_gshape x0) (d_gshape x1) ->
  is_rep P x0 G0 -> is_rep P x1 G1 -> cat_splits axis (d_gshape x0) (d_split x0) (d_split x1) ->
  exists y, concat2 dflt x0 x1 (AxInt a) = Ok y /\ d_gshape y = cat_shape axis (d_gshape x0) (d_gshape x1) /\
    d_split y = first_split (d_split x0) (d_split x1) /\ is_rep P y (glue axis (nth axis (d_gshape x0) 0) G0 G1).
Proof.
  intros A dflt x0 x1 G0 G1 a P axis HP HV HC [L0 R0] [L1 R1] HS.
  set (n0 := nth axis (d_gshape x0) 0). set (n1 := nth axis (d_gshape x1) 0).
  assert (Hn : 0 <= n0 /\ 0 <= n1).
  { destruct HC as (HC1 & HC2 & _). destruct R0 as (_ & N0 & _). destruct R1 as (_ & N1 & _). rewrite Forall_forall in *. split; [apply N0|apply N1]; apply nth_In; lia. }
  assert (FIN : forall y sp, d_gshape y = cat_shape axis (d_gshape x0) (d_gshape x1) -> d_split y = Some sp -> (sp < length (d_gshape y))%nat -> rep y (zcounts (nth sp (d_gshape y) 0) P) (glue axis n0 G0 G1) -> is_rep P y (glue axis n0 G0 G1)).
  { intros y sp Y1 Y2 Hsp Y3. assert (N : 0 <= nth sp (d_gshape y) 0) by (destruct Y3 as (_ & N & _); rewrite Forall_forall in N; apply N, nth_In; auto).
    destruct (zcounts_ok (nth sp (d_gshape y) 0) P HP N) as (LZ & _). split; [destruct Y3 as (L & _); lia|]. unfold balanced_counts. rewrite Y2. auto. }
  assert (CA : nth axis (cat_shape axis (d_gshape x0) (d_gshape x1)) 0 = n0 + n1) by (unfold cat_shape; rewrite upd_same by apply HC; auto).
  assert (LCS : length (cat_shape axis (d_gshape x0) (d_gshape x1)) = length (d_gshape x0)) by (unfold cat_shape; now rewrite upd_length).
  assert (CO : forall s, s <> axis -> nth s (cat_shape axis (d_gshape x0) (d_gshape x1)) 0 = nth s (d_gshape x0) 0) by (intros s Hs; unfold cat_shape; rewrite upd_other by auto; auto).
  assert (CE : forall s, (s < length (d_gshape x0))%nat -> s <> axis -> nth s (d_gshape x0) 0 = nth s (d_gshape x1) 0) by (intros; apply HC; auto).
  unfold balanced_counts in R0, R1. destruct (d_split x0) as [s0|] eqn:S0, (d_split x1) as [s1|] eqn:S1; cbn [first_split].
  - destruct HS as [E|[[E|E] _]]; try discriminate. injection E as <-.
    assert (Hs0 : (s0 < length (d_gshape x0))%nat) by (unfold rep in R0; rewrite S0 in R0; apply R0).
    destruct (Nat.eq_dec s0 axis) as [->|NE].
    + destruct (C35_both_split_axis A dflt x0 x1 G0 G1 _ _ a P HV HC R0 R1 L0 L1 HP S0 S1) as (y & Y0 & Y1 & Y2 & Y3).
      { intros r Hr. apply balanced_fits; auto; apply Hn. }
      fold axis in Y1, Y3. exists y. split; [auto|]. split; [auto|]. split; [auto|]. apply (FIN y axis); auto; rewrite Y1; rewrite ?LCS; auto. now rewrite CA.
    + rewrite <- CE in R1 by auto.
      destruct (C35_both_split_other A dflt x0 x1 G0 G1 _ a s0 HV HC R0 R1 ltac:(lia) S0 S1 NE) as (y & Y0 & Y1 & Y2 & Y3).
      fold axis in Y1, Y3. exists y. split; [auto|]. split; [auto|]. split; [auto|]. apply (FIN y s0); auto; rewrite Y1; rewrite ?LCS; auto. now rewrite CO.
  - destruct HS as [E|[_ H1]]; [discriminate|].
    assert (Hs0 : (s0 < length (d_gshape x0))%nat) by (unfold rep in R0; rewrite S0 in R0; apply R0).
    destruct (Nat.eq_dec s0 axis) as [->|NE].
    + destruct (C35_replicated_second A dflt x0 x1 G0 G1 _ _ a P HV HC R0 R1 L0 L1 HP S0 S1 (H1 (or_introl eq_refl))) as (y & Y0 & Y1 & Y2 & Y3).
      { intros r Hr. apply balanced_fits; auto; apply Hn. }
      fold axis in Y1, Y3. exists y. split; [auto|]. split; [auto|]. split; [auto|]. apply (FIN y axis); auto; rewrite Y1; rewrite ?LCS; auto. now rewrite CA.
    + destruct (C35_one_replicated_other A dflt x0 x1 G0 G1 _ _ a P s0 HV HC R0 R1 L0 L1 HP NE ltac:(right; auto)) as (y & Y0 & Y1 & Y2 & Y3).
      fold axis in Y1, Y3. exists y. split; [auto|]. split; [auto|]. split; [auto|]. apply (FIN y s0); auto; rewrite Y1; rewrite ?LCS; auto. now rewrite CO.
  - destruct HS as [E|[_ H1]]; [discriminate|].
    assert (Hs1 : (s1 < length (d_gshape x0))%nat) by (unfold rep in R1; rewrite S1 in R1; destruct HC as (-> & _); apply R1).
    destruct (Nat.eq_dec s1 axis) as [->|NE].
    + destruct (C35_replicated_first A dflt x0 x1 G0 G1 _ _ a P HV HC R0 R1 L0 L1 HP S0 S1 (H1 (or_intror eq_refl))) as (y & Y0 & Y1 & Y2 & Y3).
      { intros r Hr. apply balanced_fits; auto; apply Hn. }
      fold axis in Y1, Y3. exists y. split; [auto|]. split; [auto|]. split; [auto|]. apply (FIN y axis); auto; rewrite Y1; rewrite ?LCS; auto. now rewrite CA.
    + destruct (C35_one_replicated_other A dflt x0 x1 G0 G1 _ _ a P s1 HV HC R0 R1 L0 L1 HP NE ltac:(left; auto)) as (y & Y0 & Y1 & Y2 & Y3).
      fold axis in Y1, Y3. exists y. split; [auto|]. split; [auto|]. split; [auto|]. apply (FIN y s1); auto; rewrite Y1; rewrite ?LCS; auto. now rewrite CO.
  - destruct (C35_both_replicated A dflt x0 x1 G0 G1 _ _ a HV HC R0 R1 ltac:(lia) S0 S1) as (y & Y0 & Y1 & Y2 & Y3).
    exists y. split; [auto|]. split; [auto|]. split; [auto|]. unfold is_rep, balanced_counts. rewrite Y2. split; [|auto]. destruct Y3 as (L & _). rewrite repeat_length in L. auto.
Qed.
Print Assumptions C35_balanced.

(** * any number of balanced operands in the same split *)
Lemma glue_assoc {A} axis n0 n1 (G0 G1 G2 : list Z -> A) idx : 0 <= n1 -> (axis < length idx)%nat ->
  glue axis (n0 + n1) (glue axis n0 G0 G1) G2 idx = glue axis n0 G0 (glue axis n1 G1 G2) idx.
Proof.
  intros Hn Hx. unfold glue. rewrite upd_same by auto. rewrite upd_upd_same. destruct (Z.ltb_spec (nth axis idx 0) n0).
  - replace (_ <? n0 + n1) with true by lia. auto.
  - destruct (Z.ltb_spec (nth axis idx 0) (n0 + n1)).
    + replace (_ <? n1) with true by lia. auto.
    + replace (_ <? n1) with false by lia. do 2 f_equal. lia.
Qed.
Lemma glue_all_ext {A} axis n (G G' : list Z -> A) rest idx : 
  (nth axis idx 0 < n \/ rest = [] -> G idx = G' idx) -> glue_all axis n G rest idx = glue_all axis n G' rest idx.
Proof. destruct rest as [|[m H] rest]; cbn [glue_all]; intros E; [apply E; auto|]. unfold glue. destruct (Z.ltb_spec (nth axis idx 0) n); auto. Qed.
Lemma glue_all_step {A} axis n0 n1 (G0 G1 : list Z -> A) rest idx : 0 <= n1 -> (axis < length idx)%nat ->
  glue_all axis (n0 + n1) (glue axis n0 G0 G1) rest idx = glue_all axis n0 G0 ((n1, G1) :: rest) idx.
Proof. intros H1 H2. destruct rest as [|[m H] rest]; [reflexivity|]. cbn [glue_all]. apply glue_assoc; auto. Qed.

Theorem C35_many : forall (A : Type) (dflt : A) (x0 : dnd A) (G0 : list Z -> A) (rest : list (dnd A * (list Z -> A))) (a : Z) (P : nat),
  let axis := norm (length (d_gshape x0)) a in
  (0 < P)%nat -> valid_axis (length (d_gshape x0)) a -> is_rep P x0 G0 -> rest <> [] ->
  (forall x G, In (x, G) rest -> is_rep P x G /\ d_split x = d_split x0 /\ cat_shapes axis (d_gshape x0) (d_gshape x)) ->
  let ext := fun x => nth axis (d_gshape x) 0 in
  exists y, concatenate dflt (x0 :: map fst rest) (AxInt a) = Ok y /\
    d_gshape y = upd (d_gshape x0) axis (zsum (map ext (x0 :: map fst rest))) /\ d_split y = d_split x0 /\
    is_rep P y (glue_all axis (ext x0) G0 (map (fun p => (ext (fst p), snd p)) rest)).
Proof.
  intros A dflt x0 G0 rest a P axis HP HV HR0 HN HA ext. destruct rest as [|[x1 G1] rest]; [contradiction|]. clear HN. cbn [map fst snd concatenate].
  revert x0 G0 x1 G1 axis HV HR0 HA ext. induction rest as [|[x2 G2] rest IH]; intros.
  - cbn [map fold_left glue_all]. destruct (HA x1 G1 ltac:(left; auto)) as (B1 & B2 & B3).
    destruct (C35_balanced A dflt x0 x1 G0 G1 a P HP HV B3 HR0 B1 ltac:(left; auto)) as (y & Y0 & Y1 & Y2 & Y3). exists y. split; [auto|]. rewrite B2 in Y2.
    split; [rewrite Y1; unfold cat_shape, zsum, ext; cbn; f_equal; fold axis; lia|]. split; [rewrite Y2; destruct (d_split x0); auto|]. auto.
  - destruct (HA x1 G1 ltac:(left; auto)) as (B1 & B2 & B3).
    destruct (C35_balanced A dflt x0 x1 G0 G1 a P HP HV B3 HR0 B1 ltac:(left; auto)) as (y & Y0 & Y1 & Y2 & Y3). fold axis in Y1, Y3, B3. rewrite B2 in Y2.
    assert (LY : length (d_gshape y) = length (d_gshape x0)) by (rewrite Y1; unfold cat_shape; now rewrite upd_length).
    assert (EY : nth axis (d_gshape y) 0 = ext x0 + ext x1) by (rewrite Y1; unfold cat_shape; rewrite upd_same by apply B3; auto).
    assert (N1 : 0 <= ext x1) by (destruct B1 as [_ (_ & N & _)]; rewrite Forall_forall in N; apply N, nth_In; destruct B3 as (<- & ? & _); auto).
    specialize (IH y (glue axis (ext x0) G0 G1) x2 G2). rewrite LY in IH. fold axis in IH.
    destruct IH as (z & Z0 & Z1 & Z2 & Z3); auto.
    { intros x G Hin. destruct (HA x G ltac:(right; auto)) as (D1 & D2 & D3). split; [auto|]. split; [rewrite Y2, D2; destruct (d_split x0); auto|].
      destruct B3 as (B31 & B32 & B33). destruct D3 as (D31 & D32 & D33). split; [lia|]. split; [lia|]. intros k Hk Nk. rewrite Y1. unfold cat_shape. rewrite upd_other by auto. apply D33; auto; lia. }
    exists z. cbn [map fst snd fold_left] in *. rewrite Y0. cbn [bind]. split; [exact Z0|].
    split; [|split].
    + rewrite Z1. assert (EU : forall v, upd (d_gshape y) axis v = upd (d_gshape x0) axis v) by (intros v; rewrite Y1; unfold cat_shape; apply upd_upd_same). rewrite EU. f_equal. unfold zsum. cbn [map fold_right]. rewrite EY. unfold ext. lia.
    + rewrite Z2, Y2. destruct (d_split x0); auto.
    + destruct Z3 as [ZL ZR]. split; [auto|]. unfold rep in *. rewrite EY in ZR. eapply RollProofs2.represents_ext; [|exact ZR].
      intros idx Hi. symmetry. rewrite <- glue_all_step by (auto; apply in_bounds_length in Hi; rewrite Hi, Z1, upd_length, LY; apply B3). reflexivity.
Qed.
Print Assumptions C35_many.

(** * what is rejected *)
Theorem C35_rejects : forall (A : Type) (dflt : A) (x0 x1 : dnd A) (a : Z),
  let axis := norm (length (d_gshape x0)) a in
  valid_axis (length (d_gshape x0)) a ->
  (~ cat_shapes axis (d_gshape x0) (d_gshape x1) -> concat2 dflt x0 x1 (AxInt a) = Err ValueError) /\
  (forall s0 s1, cat_shapes axis (d_gshape x0) (d_gshape x1) -> d_split x0 = Some s0 -> d_split x1 = Some s1 -> s0 <> s1 ->
     concat2 dflt x0 x1 (AxInt a) = Err RuntimeError).
Proof.
  intros A dflt x0 x1 a axis HV. split.
  - intros HN. destruct (sanitize_int _ a HV) as (b & E & En). unfold concat2. rewrite E. cbn [bind]. cbv zeta. rewrite En. fold axis.
    destruct (Nat.eqb_spec (length (d_gshape x0)) (length (d_gshape x1))) as [EL|NL]; [|reflexivity]. cbn [negb].
    destruct (fits_left axis (d_gshape x1) (d_gshape x0)) eqn:EF; [|reflexivity]. exfalso. apply HN. apply fits_left_iff in EF as [_ EF]. split; [auto|]. split; [|auto].
    unfold axis, norm. unfold valid_axis in HV. destruct (Z.ltb_spec a 0); lia.
  - intros s0 s1 HC S0 S1 NE. start HV HC. rewrite S0, S1. replace (Nat.eqb s0 s1) with false by (symmetry; apply Nat.eqb_neq; auto). reflexivity.
Qed.
Print Assumptions C35_rejects.

(** * the exchange as a message passing program.  State of a rank: its slabs of both operands.
    Isend directly followed by Wait is a blocking send (L636-644, L680-688); the tags are
    receiver + size + sender.  All ranks compute the same plan from the two shape maps. *)
Open Scope nat_scope.
Definition side_event {A} (P : nat) (first : bool) (x : xfer) : @event (list A * list A) (list A) :=
  let e := @xfer_event A x in
  Event (x_snd x) (x_rcv x) (x_rcv x + P + x_snd x)
    (fun s => if first then let '(m, k) := e_send e (fst s) in (m, (k, snd s)) else let '(m, k) := e_send e (snd s) in (m, (fst s, k)))
    (fun r m => if first then (e_recv e (fst r) m, snd r) else (fst r, e_recv e (snd r) m)).
Definition concat_plan {A} (P : nat) (c l0 l1 : list nat) : list (@event (list A * list A) (list A)) :=
  map (side_event P true) (snd (front_load c l0)) ++ map (side_event P false) (snd (back_load c l1)).

Lemma combine_upd1 {A B} (f : list A) (g : list B) i v w : length f = length g -> nth_error g i = Some w ->
  combine (upd f i v) g = upd (combine f g) i (v, w).
Proof.
  revert g i. induction f as [|a f IH]; intros [|b g] [|i] HL E; try discriminate; cbn in *; auto; [congruence|]. f_equal. apply IH; auto.
Qed.
Lemma combine_upd2 {A B} (f : list A) (g : list B) i v w : length f = length g -> nth_error f i = Some w ->
  combine f (upd g i v) = upd (combine f g) i (w, v).
Proof.
  revert g i. induction f as [|a f IH]; intros [|b g] [|i] HL E; try discriminate; cbn in *; auto; [congruence|]. f_equal. apply IH; auto.
Qed.
Lemma nth_error_comb {A B} (f : list A) (g : list B) i a b : nth_error f i = Some a -> nth_error g i = Some b -> nth_error (combine f g) i = Some (a, b).
Proof. revert g i. induction f as [|x f IH]; intros [|y g] [|i] H1 H2; try discriminate; cbn in *; [congruence|]. auto. Qed.

Lemma side_exec {A} P first (f g : dist A) x : length f = P -> length g = P -> x_snd x < P -> x_rcv x < P -> x_snd x <> x_rcv x ->
  exec1 (combine f g) (side_event P first x) = if first then combine (shuffle f x) g else combine f (shuffle g x).
Proof.
  intros Lf Lg H1 H2 H3.
  assert (X1 : nth_error f (x_snd x) <> None /\ nth_error f (x_rcv x) <> None /\ nth_error g (x_snd x) <> None /\ nth_error g (x_rcv x) <> None) by (rewrite !nth_error_Some; lia).
  destruct (nth_error f (x_snd x)) as [fa|] eqn:E1, (nth_error f (x_rcv x)) as [fb|] eqn:E2, (nth_error g (x_snd x)) as [ga|] eqn:E3, (nth_error g (x_rcv x)) as [gb|] eqn:E4; try tauto.
  unfold exec1. unfold side_event at 1 2. cbn [e_src e_dst]. rewrite (nth_error_comb _ _ _ _ _ E1 E3), (nth_error_comb _ _ _ _ _ E2 E4).
  destruct first.
  - rewrite <- xfer_event_exec by lia. unfold exec1. cbn [xfer_event e_src e_dst]. rewrite E1, E2.
    rewrite (combine_upd1 (upd f _ _) g (x_rcv x) _ gb) by (rewrite ?upd_length; auto; lia). rewrite (combine_upd1 f g (x_snd x) _ ga) by (auto; lia).
    unfold side_event. cbn [e_src e_dst e_send e_recv xfer_event]. cbn [fst snd]. destruct (x_snd x <? x_rcv x); reflexivity.
  - rewrite <- xfer_event_exec by lia. unfold exec1. cbn [xfer_event e_src e_dst]. rewrite E3, E4.
    rewrite (combine_upd2 f (upd g _ _) (x_rcv x) _ fb) by (rewrite ?upd_length; auto; lia). rewrite (combine_upd2 f g (x_snd x) _ fa) by (auto; lia).
    unfold side_event. cbn [e_src e_dst e_send e_recv xfer_event]. cbn [fst snd]. destruct (x_snd x <? x_rcv x); reflexivity.
Qed.
Lemma side_exec_all {A} P first tr : forall (f g : dist A), length f = P -> length g = P -> xfers_in_range P tr ->
  exec (combine f g) (map (side_event P first) tr) = if first then combine (run_trace f tr) g else combine f (run_trace g tr).
Proof.
  unfold exec, run_trace. induction tr as [|x tr IH]; intros f g Lf Lg H; [destruct first; reflexivity|]. cbn [map fold_left].
  destruct (H x ltac:(left; auto)) as (H1 & H2 & H3). rewrite side_exec by auto.
  assert (H' : xfers_in_range P tr) by (intros y Hy; apply H; right; auto).
  destruct first; rewrite IH; auto; now rewrite shuffle_length.
Qed.

Theorem C35_schedule : forall (A : Type) (d0 d1 : dist A) (P : nat),
  length d0 = P -> length d1 = P -> 0 < P ->
  let c := counts_of (length (glob d0) + length (glob d1)) P in
  (forall j, j < P -> length (nth j d0 []) <= nth j c 0 /\ length (nth j d1 []) <= nth j c 0) ->
  forall n cf, steps n (initial P (concat_plan P c (lens d0) (lens d1)) (combine d0 d1)) cf ->
    (final cf \/ exists cf', step_recv cf cf' \/ step_sync cf cf') /\
    n <= 2 * length (@concat_plan A P c (lens d0) (lens d1)) /\
    (final cf -> net cf = [] /\ glob (map (fun p => fst p ++ snd p) (st cf)) = glob d0 ++ glob d1 /\
                 lens (map (fun p => fst p ++ snd p) (st cf)) = c).
Proof.
  intros A d0 d1 P L0 L1 HP c HB n cf ST.
  pose proof (concat_slabs_parts d0 d1) as CP. rewrite L0, L1 in CP. specialize (CP eq_refl HP). cbv zeta in CP. fold c in CP.
  destruct CP as (A1 & A2 & A3 & A4 & A5 & A6 & A7 & A8); [intros; apply HB; auto|intros; apply HB; auto|].
  assert (LC : length c = P) by apply counts_of_length.
  pose proof (front_load_ok c (lens d0)) as F. rewrite lens_length, LC, L0 in F. specialize (F eq_refl).
  pose proof (back_load_ok c (lens d1)) as B. rewrite lens_length, LC, L1 in B. specialize (B eq_refl).
  unfold concat_plan in *. destruct (front_load c (lens d0)) as [lf tf]. destruct (back_load c (lens d1)) as [lg tg]. cbn [fst snd] in *.
  destruct F as (F1 & _). { intros j Hj. rewrite lens_nth. apply HB; auto. } destruct B as (B1 & _). { intros j Hj. rewrite lens_nth. apply HB; auto. }
  pose proof (trace_ok_range F1) as RF. rewrite lens_length, L0 in RF. pose proof (trace_ok_range B1) as RB. rewrite lens_length, L1 in RB.
  set (G := map (side_event P true) tf ++ map (side_event P false) tg) in *.
  assert (PK : plan_ok P G).
  { intros e He. apply in_app_iff in He as [He|He]; apply in_map_iff in He as (x & <- & Hx); cbn; [apply RF|apply RB]; auto. }
  assert (LS : length (combine d0 d1) = P) by (rewrite combine_length; lia).
  split; [eapply sched_no_deadlock; eauto|]. split; [eapply sched_terminates; eauto|]. intros FI.
  destruct (@sched_deterministic _ _ P G (combine d0 d1) n cf PK LS ST FI) as [E1 E2]. split; [auto|]. rewrite E1. unfold G, exec. rewrite fold_left_app.
  fold (exec (combine d0 d1) (map (side_event P true) tf)). rewrite side_exec_all by auto. fold (exec (combine (run_trace d0 tf) d1) (map (side_event P false) tg)). rewrite side_exec_all by auto.
  split; [exact A8|]. apply (@nth_ext2 _ _ _ 0); [rewrite lens_length, map_length, combine_length; lia|]. intros j Hj. rewrite lens_length, map_length, combine_length in Hj.
  rewrite lens_nth, nth_glue by lia. rewrite app_length. apply A7. lia.
Qed.
Print Assumptions C35_schedule.

(** * findings *)
Open Scope Z_scope.
Definition vec (P : nat) (lens : list Z) (base : Z) : dnd Z :=
  mk_dnd (map (fun r => mk_arr [nth r lens 0] (fun i => base + zsum (firstn r lens) + nth 0 i 0)) (seq 0 P)) [zsum lens] (Some 0%nat).
Lemma vec_rep lens base : Forall (fun c => 0 <= c) lens -> rep (vec (length lens) lens base) lens (fun i => base + nth 0 i 0).
Proof.
  intros H. unfold rep, vec. cbn [d_gshape d_split d_locals]. split; [now rewrite map_length, seq_length|].
  assert (0 <= zsum lens) by (induction H; unfold zsum in *; cbn in *; lia).
  split; [constructor; auto|]. split; [cbn; lia|]. split; [auto|]. split; [reflexivity|]. intros r t Ht.
  rewrite nth_error_map in Ht. destruct (nth_error (seq 0 (length lens)) r) as [r'|] eqn:E; [|discriminate]. injection Ht as <-.
  assert (Hr : (r < length lens)%nat) by (rewrite <- (seq_length (length lens) 0); apply nth_error_Some; congruence).
  rewrite (nth_error_nth' _ 0%nat) in E by (rewrite seq_length; auto). rewrite seq_nth in E by auto. injection E as <-. cbn [Nat.add].
  split; [reflexivity|]. intros idx Hi. cbn [adat]. unfold move_axis_idx. apply in_bounds_length in Hi. destruct idx as [|i [|]]; try discriminate. cbn. lia.
Qed.
Definition flat1 (t : arr Z) : list Z := map (fun i => adat t [Z.of_nat i]) (seq 0 (Z.to_nat (nth 0 (ash t) 0))).

(** an operand with more rows on a rank than the rank's share of the result: rows silently change order *)
Theorem C35_unbalanced_refuted : exists (x0 x1 : dnd Z) c0 c1,
  rep x0 c0 (fun i => nth 0 i 0) /\ rep x1 c1 (fun i => 100 + nth 0 i 0) /\
  exists y, concat2 0 x0 x1 (AxInt 0) = Ok y /\
    concat (map flat1 (d_locals y)) <> [0;1;2;3;4;5;6;7;8;100;101;102] /\ length (concat (map flat1 (d_locals y))) = 12%nat.
Proof.
  exists (vec 3 [5;3;1] 0), (vec 3 [1;1;1] 100), [5;3;1], [1;1;1].
  split; [|split].
  - exact (vec_rep [5;3;1] 0 ltac:(repeat constructor; lia)).
  - exact (vec_rep [1;1;1] 100 ltac:(repeat constructor; lia)).
  - eexists. split; [vm_compute; reflexivity|]. vm_compute. split; [discriminate|reflexivity].
Qed.
Print Assumptions C35_unbalanced_refuted.

(** a replicated operand with another extent of one: RuntimeError although NumPy concatenates *)
Theorem C35_squeeze_refuted : exists (x0 x1 : dnd Z) c1,
  rep x0 [0;0] (fun i => nth 0 i 0) /\ rep x1 c1 (fun i => nth 0 i 0) /\
  cat_shapes 0 (d_gshape x0) (d_gshape x1) /\ concat2 0 x0 x1 (AxInt 0) = Err RuntimeError.
Proof.
  exists (mk_dnd [mk_arr [4;1] (fun i => nth 0 i 0); mk_arr [4;1] (fun i => nth 0 i 0)] [4;1] None),
         (mk_dnd [mk_arr [1;1] (fun i => nth 0 i 0); mk_arr [1;1] (fun i => 1 + nth 0 i 0)] [2;1] (Some 0%nat)), [1;1].
  split; [|split; [|split]].
  - split; [reflexivity|]. split; [repeat constructor; lia|]. intros t [<-|[<-|[]]]; split; auto.
  - split; [reflexivity|]. split; [repeat constructor; lia|]. split; [cbn; lia|]. split; [repeat constructor; lia|]. split; [reflexivity|].
    intros [|[|r]] t Ht; cbn [nth_error d_locals] in Ht; try (destruct r; discriminate); injection Ht as Ht; rewrite <- Ht; (split; [reflexivity|]); intros idx Hi; apply in_bounds_length in Hi; destruct idx as [|i [|j [|]]]; try discriminate; unfold move_axis_idx, zsum; cbn -[Z.add]; first [lia|transitivity (1 + i); [reflexivity|lia]].
  - split; [reflexivity|]. split; [cbn; lia|]. intros [|[|k]] H1 H2; cbn in *; auto; lia.
  - vm_compute. reflexivity.
Qed.
Print Assumptions C35_squeeze_refuted.

(** * instances *)
Example C35_example : exists y, concatenate 0 [vec 3 [2;2;1] 0; vec 3 [1;0;0] 50; vec 3 [2;1;1] 100] (AxInt (-1)) = Ok y /\
  map flat1 (d_locals y) = [[0;1;2;3]; [4;50;100]; [101;102;103]].
Proof. eexists. split; [vm_compute; reflexivity|]. vm_compute. reflexivity. Qed.
Example C35_example_hyp : is_rep 3 (vec 3 [2;2;1] 0) (fun i => 0 + nth 0 i 0) /\ is_rep 3 (vec 3 [2;1;1] 100) (fun i => 100 + nth 0 i 0).
Proof. split; (split; [reflexivity|]); [exact (vec_rep [2;2;1] 0 ltac:(repeat constructor; lia))|exact (vec_rep [2;1;1] 100 ltac:(repeat constructor; lia))]. Qed.
