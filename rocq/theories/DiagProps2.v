(** C41, continued: diag and diagonal; what goes wrong for unbalanced arrays. *)
From Verif Require Import Base BaseLemmas LayoutModel LayoutProofs NdSpec TensorSpec TensorLemmas NdLemmas OpsModel OpsProofs2 OpsProofs4 RedistModel RedistProofs ShapeSpec ShapeModel ShapeProofs ShapeProofs2 ShapeProofs3 ShapeProofs4 ShapeProofs5 BinModel BinProofs BinProofs2 ShapeProps RollProofs3 RollProps ReshapeModel ReshapeProofs FactoryModel FactoryProps ConcatSpec ConcatModel ConcatProofs ConcatProofs2 ConcatProofs3 ConcatProps DiagSpec DiagModel DiagProps.
Open Scope Z_scope.

Lemma balance_nd_id {A} (dflt : A) (x : dnd A) P G : is_rep P x G -> balance_nd dflt x = Ok x.
Proof.
  intros [HL HR]. unfold balance_nd. unfold rep in HR. destruct (d_split x) as [s|] eqn:Es; [|reflexivity]. cbn [balanced_counts] in HR.
  unfold lcounts. rewrite (local_counts _ _ _ _ _ HR). rewrite HL. replace (eqb_idx _ _) with true; [reflexivity|]. symmetry. now apply eqb_idx_eq.
Qed.

Theorem C41_diag : forall (A : Type) (zero : A) (junk : list Z -> A) (a : dnd A) (offset n : Z) (P : nat) (G : list Z -> A),
  (0 < P)%nat -> is_rep P a G -> d_gshape a = [n] ->
  exists y H, diag zero junk a offset = Ok y /\ d_gshape y = [n + Z.abs offset; n + Z.abs offset] /\ d_split y = d_split a /\
    is_rep P y H /\ diag_spec zero offset G H.
Proof.
  intros A zero junk a offset n P G HP HA HN. unfold diag. rewrite HN. cbn [nth]. set (N := n + Z.abs offset).
  assert (Hn : 0 <= n) by (destruct HA as [_ (_ & F & _)]; rewrite HN in F; now inversion F).
  assert (HS : d_split a = None \/ d_split a = Some 0%nat).
  { destruct (d_split a) as [s|] eqn:Es; [right|auto]. destruct HA as [_ HR]. unfold rep in HR. rewrite Es, HN in HR. destruct HR as (_ & _ & Hs & _). cbn in Hs. f_equal. lia. }
  pose proof HA as [HL _]. rewrite HL. set (pad := mk_dnd (repeat (mk_arr [Z.abs offset] junk) P) [Z.abs offset] None).
  assert (RP : is_rep P pad junk).
  { split; [cbn; now rewrite repeat_length|]. split; [cbn; now rewrite !repeat_length|]. split; [repeat constructor; lia|]. cbn [pad d_split d_locals]. intros t Ht. apply repeat_spec in Ht. subst t. split; auto. }
  assert (B : exists b GB, (if 0 <? offset then concat2 zero a pad (AxInt 0) else if offset <? 0 then concat2 zero pad a (AxInt 0) else Ok a) = Ok b /\
     d_gshape b = [N] /\ d_split b = d_split a /\ is_rep P b GB /\
     (forall i, 0 <= i < N -> (0 <= offset -> i < n -> GB [i] = G [i]) /\ (offset < 0 -> - offset <= i -> GB [i] = G [i + offset]))).
  { destruct (Z.ltb_spec 0 offset); [|destruct (Z.ltb_spec offset 0)].
    - destruct (C35_balanced A zero a pad G junk 0 P HP) as (b & Y0 & Y1 & Y2 & Y3); auto; rewrite ?HN; cbn [length].
      + unfold valid_axis; lia.
      + split; [reflexivity|]. split; [unfold norm; cbn; lia|]. unfold norm; cbn. lia.
      + right. split; [right; reflexivity|]. intros _ k Hk Nk. unfold norm in Nk. cbn in *. lia.
      + rewrite HN in *. change (norm (length [n]) 0) with 0%nat in *. cbn [nth] in *. exists b, (glue 0 n G junk). split; [auto|]. split; [rewrite Y1; unfold cat_shape, N; cbn [nth upd pad d_gshape]; reflexivity|].
        split; [rewrite Y2; cbn [pad d_split]; destruct (d_split a); reflexivity|]. split; [auto|]. intros i Hi. split; [|lia]. intros _ Hin. unfold glue. cbn [nth]. replace (i <? n) with true by lia. auto.
    - destruct (C35_balanced A zero pad a junk G 0 P HP) as (b & Y0 & Y1 & Y2 & Y3); auto; rewrite ?HN; cbn [length pad d_gshape d_split].
      + unfold valid_axis; lia.
      + split; [reflexivity|]. split; [unfold norm; cbn; lia|]. unfold norm; cbn. lia.
      + right. split; [left; reflexivity|]. intros _ k Hk Nk. unfold norm in Nk. cbn in *. lia.
      + cbn [pad d_gshape d_split] in *. change (norm (length [Z.abs offset]) 0) with 0%nat in *. rewrite HN in Y1. exists b, (glue 0 (Z.abs offset) junk G). split; [auto|]. split; [rewrite Y1; unfold cat_shape, N; cbn [nth upd]; f_equal; lia|].
        split; [rewrite Y2; reflexivity|]. split; [auto|]. intros i Hi. split; [lia|]. intros _ Hin. unfold glue. cbn [nth upd]. replace (i <? Z.abs offset) with false by lia. do 2 f_equal. lia.
    - exists a, G. split; [auto|]. split; [rewrite HN; unfold N; f_equal; lia|]. split; [auto|]. split; [auto|]. intros i Hi. split; [auto|lia]. }
  destruct B as (b & GB & -> & B1 & B2 & B3 & B4). cbn [bind]. rewrite (balance_nd_id zero b P GB B3). cbn [bind]. pose proof B3 as [BL BR].
  set (H := fun idx : list Z => if nth 1 idx 0 - nth 0 idx 0 =? offset then G [if offset <? 0 then nth 1 idx 0 else nth 0 idx 0] else zero).
  assert (HSP : diag_spec zero offset G H) by (intros i j; reflexivity).
  assert (NN : 0 <= N) by (unfold N; lia).
  (* one rank *)
  assert (LOC : forall off l0 t, 0 <= off -> 0 <= l0 -> off + l0 <= N -> agrees t [l0] (fun idx => GB [nth 0 idx 0 + off]) ->
    exists y, diag_local zero N off l0 offset t = Ok y /\ agrees y [l0; N] (fun idx => H [nth 0 idx 0 + off; nth 1 idx 0])).
  { intros off l0 t O1 O2 O3 [S0 D0]. unfold diag_local. rewrite S0. cbn [nth].
    set (lo := if offset <? 0 then Z.max 0 (Z.min (Z.abs offset - off) l0) else 0). set (hi := if 0 <? offset then Z.min l0 (Z.max (N - off - offset) 0) else l0).
    replace ((lo <? hi) && _) with false.
    2:{ symmetry. apply not_true_iff_false. intros E. apply andb_true_iff in E as [E1 E2]. rewrite !orb_true_iff in E2. unfold lo, hi, N in *.
        destruct (Z.ltb_spec offset 0), (Z.ltb_spec 0 offset); try lia. }
    eexists. split; [reflexivity|]. split; [reflexivity|]. intros idx Hi. cbn [adat]. assert (LI := in_bounds_length _ _ Hi). destruct idx as [|i [|j [|]]]; try discriminate.
    inversion Hi as [|? ? ? ? Hi0 Hi1]; subst. inversion Hi1 as [|? ? ? ? Hj _]; subst. cbn [nth]. unfold H. cbn [nth].
    destruct (Z.eqb_spec j (i + off + offset)) as [E|E].
    - replace (j - (i + off) =? offset) with true by lia. replace ((lo <=? i) && (i <? hi) && true) with true.
      2:{ symmetry. rewrite !andb_true_iff. unfold lo, hi, N in *. destruct (Z.ltb_spec offset 0), (Z.ltb_spec 0 offset); lia. }
      rewrite D0 by (constructor; [lia|constructor]). cbn [nth]. destruct (B4 (i + off) ltac:(lia)) as [B41 B42]. destruct (Z.ltb_spec offset 0).
      + rewrite B42 by lia. do 2 f_equal. lia.
      + apply B41; [lia|]. unfold N in *. lia.
    - rewrite andb_false_r. replace (j - (i + off) =? offset) with false by lia. auto. }
  unfold rep in BR. rewrite B1, B2 in *. destruct HS as [HS|HS]; rewrite HS in *.
  - cbn [balanced_counts chunk_off chunk_lsh nth] in *. destruct BR as (L & NNs & Q).
    destruct (all_ok_Qn (fun p : nat * arr A => diag_local zero N 0 N offset (snd p)) (fun r y => agrees y [N; N] H) (ranked (d_locals b))) as (ls & E & LL & QQ).
    + intros r p Hp. apply ranked_nth in Hp as (Hp1 & Hp2 & Hp3). apply nth_error_In in Hp2. destruct (Q _ Hp2) as [S0 D0].
      destruct (LOC 0 N (snd p)) as (y & Ey & Sy & Dy); auto; try lia.
      { split; auto. intros idx Hi. rewrite D0 by auto. apply in_bounds_length in Hi. destruct idx as [|i [|]]; try discriminate. cbn [nth]. now rewrite Z.add_0_r. }
      exists y. split; [auto|]. split; [auto|]. intros idx Hi. rewrite Dy by auto. apply in_bounds_length in Hi. destruct idx as [|i [|j [|]]]; try discriminate. cbn [nth]. now rewrite Z.add_0_r.
    + rewrite E. cbn [bind]. eexists _, H. split; [reflexivity|]. cbn [d_gshape d_split]. split; [auto|]. split; [auto|]. split; [|auto]. rewrite ranked_length in LL. split; [cbn [d_locals]; lia|].
      unfold rep. cbn [d_gshape d_split d_locals balanced_counts]. split; [rewrite repeat_length; lia|]. split; [repeat constructor; auto|]. intros t Ht. apply In_nth_error in Ht as [r Ht]. eauto.
  - cbn [balanced_counts chunk_off chunk_lsh] in *. destruct BR as (L & NNs & Hs & C & SM & Q). cbn [nth] in *. set (c := zcounts N P) in *.
    destruct (all_ok_Qn (fun p : nat * arr A => diag_local zero N (chunk_start [N; N] 0 (fst p) P) (nth 0 (chunk_shape [N; N] 0 (fst p) P) 0) offset (snd p))
      (fun r y => agrees y (upd [N; N] 0 (nth r c 0)) (fun idx => H (move_axis_idx 0 (zsum (firstn r c)) idx))) (ranked (d_locals b))) as (ls & E & LL & QQ).
    + intros r p Hp. apply ranked_nth in Hp as (Hp1 & Hp2 & Hp3). destruct (Q _ _ Hp2) as [S0 D0]. rewrite Hp1. destruct (chunk_counts [N; N] 0 r P HP ltac:(lia)) as [-> ->]. cbn [nth upd] in *. fold c.
      assert (Z0 : 0 <= zsum (firstn r c)) by (rewrite <- (Z.add_0_l (zsum _)); change 0 with (zsum (firstn 0 c)) at 1; pose proof (zsum_firstn_mono c 0 r C ltac:(lia)); cbn [firstn] in *; unfold zsum in *; cbn in *; lia).
      assert (Z1 : zsum (firstn r c) + nth r c 0 <= N) by (rewrite <- SM; rewrite <- zsum_firstn_S by (rewrite <- L; lia); apply zsum_firstn_le; auto).
      destruct (LOC (zsum (firstn r c)) (nth r c 0) (snd p)) as (y & Ey & Sy & Dy); auto.
      { rewrite Forall_forall in C. apply C, nth_In. rewrite <- L. lia. }
      { split; auto. intros idx Hi. rewrite D0 by auto. apply in_bounds_length in Hi. destruct idx as [|i [|]]; try discriminate. reflexivity. }
      exists y. split; [auto|]. split; [auto|]. intros idx Hi. rewrite Dy by auto. apply in_bounds_length in Hi. destruct idx as [|i [|j [|]]]; try discriminate. reflexivity.
    + rewrite E. cbn [bind]. rewrite ranked_length in LL.
      assert (RR : represents H [N; N] (Some 0%nat) c ls) by (split; [lia|]; split; [repeat constructor; auto|]; split; [cbn; lia|]; auto).
      destruct (C55_array_is_split _ _ _ _ _ _ RR ltac:(lia)) as (y & bal & -> & Y1 & Y2 & Y3 & Y4 & _). cbn [bind fst]. exists y, H. split; [auto|]. split; [auto|]. split; [auto|]. split; [|auto].
      split; [rewrite Y3; lia|]. unfold balanced_counts. rewrite Y2, Y1. cbn [nth]. exact Y4.
Qed.
Print Assumptions C41_diag.
