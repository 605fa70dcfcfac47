(** C41: diagonal, for every array; what goes wrong for unbalanced arrays. *)
From Verif Require Import Base BaseLemmas LayoutModel LayoutProofs NdSpec TensorSpec TensorLemmas NdLemmas OpsModel OpsProofs2 OpsProofs4 RedistModel RedistProofs ShapeSpec ShapeModel ShapeProofs ShapeProofs2 ShapeProofs3 ShapeProofs4 ShapeProofs5 ShapeProofs6 BinModel BinProofs BinProofs2 ShapeProps RollProofs3 RollProps ReshapeModel ReshapeProofs FactoryModel FactoryProps ConcatSpec ConcatModel ConcatProofs ConcatProofs2 ConcatProofs3 ConcatProps DiagSpec DiagModel DiagProps DiagProofs DiagProps2.
Open Scope Z_scope.

(** counts given by a start function *)
Definition step_counts (f : nat -> Z) (P : nat) : list Z := map (fun r => f (S r) - f r) (seq 0 P).
Lemma step_counts_length f P : length (step_counts f P) = P.
Proof. unfold step_counts. now rewrite map_length, seq_length. Qed.
Lemma step_counts_nth f P r : (r < P)%nat -> nth r (step_counts f P) 0 = f (S r) - f r.
Proof. intros H. unfold step_counts. now rewrite (@nth_map_seq _ (fun r => f (S r) - f r)). Qed.
Lemma step_counts_firstn f P r : (r <= P)%nat -> zsum (firstn r (step_counts f P)) = f r - f 0%nat.
Proof.
  induction r as [|r IH]; intros H; [cbn; unfold zsum; cbn; lia|]. rewrite zsum_firstn_S by (rewrite step_counts_length; lia). rewrite IH by lia. rewrite step_counts_nth by lia. lia.
Qed.

Lemma drop_Forall {A} (Q : A -> Prop) axes l : Forall Q l -> Forall Q (drop_axes axes l).
Proof. unfold drop_axes. generalize 0%nat. induction l as [|x l IH]; intros i H; cbn [drop_from]; [constructor|]. inversion H; subst. destruct (existsb (Nat.eqb i) axes); [auto|constructor; auto]. Qed.

(** the piece of a diagonal that lies in rows [o, o+c) *)
Lemma diag_piece_len n1 n2 off o c : 0 <= c -> 0 <= o -> o + c <= n1 ->
  diag_len c n2 (off + o) = Z.max 0 (Z.min (diag_len n1 n2 off) (o + c - Z.max 0 (- off))) - Z.max 0 (Z.min (diag_len n1 n2 off) (o - Z.max 0 (- off))).
Proof. unfold diag_len. lia. Qed.
Lemma diag_piece_pos n1 n2 off o c p : 0 <= c -> 0 <= o -> o + c <= n1 ->
  0 <= p < Z.max 0 (Z.min (diag_len n1 n2 off) (o + c - Z.max 0 (- off))) - Z.max 0 (Z.min (diag_len n1 n2 off) (o - Z.max 0 (- off))) ->
  p + Z.max 0 (- (off + o)) + o = p + Z.max 0 (Z.min (diag_len n1 n2 off) (o - Z.max 0 (- off))) + Z.max 0 (- off) /\
  p + Z.max 0 (off + o) = p + Z.max 0 (Z.min (diag_len n1 n2 off) (o - Z.max 0 (- off))) + Z.max 0 off.
Proof. unfold diag_len. lia. Qed.
Lemma diag_len_sym n1 n2 off : diag_len n1 n2 off = diag_len n2 n1 (- off).
Proof. unfold diag_len. lia. Qed.
Lemma diag_piece_len2 n1 n2 off o c : 0 <= c -> 0 <= o -> o + c <= n2 ->
  diag_len n1 c (off - o) = Z.max 0 (Z.min (diag_len n1 n2 off) (o + c - Z.max 0 off)) - Z.max 0 (Z.min (diag_len n1 n2 off) (o - Z.max 0 off)).
Proof. intros. rewrite (diag_len_sym n1 c), (diag_len_sym n1 n2). replace (- (off - o)) with (- off + o) by lia. rewrite (diag_piece_len n2 n1 (- off) o c) by auto. now rewrite Z.opp_involutive. Qed.
Lemma diag_piece_pos2 n1 n2 off o c p : 0 <= c -> 0 <= o -> o + c <= n2 ->
  0 <= p < Z.max 0 (Z.min (diag_len n1 n2 off) (o + c - Z.max 0 off)) - Z.max 0 (Z.min (diag_len n1 n2 off) (o - Z.max 0 off)) ->
  p + Z.max 0 (- (off - o)) = p + Z.max 0 (Z.min (diag_len n1 n2 off) (o - Z.max 0 off)) + Z.max 0 (- off) /\
  p + Z.max 0 (off - o) + o = p + Z.max 0 (Z.min (diag_len n1 n2 off) (o - Z.max 0 off)) + Z.max 0 off.
Proof.
  intros H1 H2 H3. rewrite (diag_len_sym n1 n2). intros H4. destruct (diag_piece_pos n2 n1 (- off) o c p) as [E1 E2]; auto; rewrite ?Z.opp_involutive in *; auto.
  replace (- (off - o)) with (- off + o) by lia. replace (off - o) with (- (- off + o)) by lia. auto.
Qed.

Definition diag_split (nd d1 d2 : nat) (sp : option nat) : option nat :=
  match sp with
  | None => None
  | Some s => if Nat.eqb s d1 || Nat.eqb s d2 then Some (nd - 2)%nat else Some (length (drop_axes [d1; d2] (seq 0 s)))
  end.

Theorem C41_diagonal : forall (A : Type) (a : dnd A) (offset dim1 dim2 : Z) (P : nat) (cnts : list Z) (G : list Z -> A),
  let nd := length (d_gshape a) in let d1 := norm nd dim1 in let d2 := norm nd dim2 in
  (0 < P)%nat -> length (d_locals a) = P -> rep a cnts G ->
  valid_axis nd dim1 -> valid_axis nd dim2 -> d1 <> d2 ->
  (d_split a = Some d1 \/ d_split a = Some d2 -> cnts = balanced_counts P (d_gshape a) (d_split a)) ->
  exists y cnts' H, diagonal a offset dim1 dim2 = Ok y /\
    d_gshape y = drop_axes [d1; d2] (d_gshape a) ++ [diag_len (nth d1 (d_gshape a) 0) (nth d2 (d_gshape a) 0) offset] /\
    d_split y = diag_split nd d1 d2 (d_split a) /\ length (d_locals y) = P /\ rep y cnts' H /\
    forall full, in_bounds (d_gshape a) full -> nth d2 full 0 - nth d1 full 0 = offset ->
      H (drop_axes [d1; d2] full ++ [Z.min (nth d1 full 0) (nth d2 full 0)]) = G full.
Proof.
  intros A a offset dim1 dim2 P cnts G nd d1 d2 HP HL HR V1 V2 HN HB.
  assert (N0 : (0 < nd)%nat) by (unfold valid_axis in V1; lia).
  assert (D1 : (d1 < nd)%nat) by (unfold d1, norm, valid_axis in *; destruct (Z.ltb_spec dim1 0); lia).
  assert (D2 : (d2 < nd)%nat) by (unfold d2, norm, valid_axis in *; destruct (Z.ltb_spec dim2 0); lia).
  set (gsh := d_gshape a) in *. set (axes := [d1; d2]) in *. set (n1 := nth d1 gsh 0). set (n2 := nth d2 gsh 0). set (L := diag_len n1 n2 offset).
  set (H := fun idx : list Z => G (place nd d1 d2 (nth (nd - 2) idx 0 + Z.max 0 (- offset)) (nth (nd - 2) idx 0 + Z.max 0 offset) idx)).
  assert (HH : forall full, in_bounds gsh full -> nth d2 full 0 - nth d1 full 0 = offset -> H (drop_axes axes full ++ [Z.min (nth d1 full 0) (nth d2 full 0)]) = G full).
  { intros full Hf Ho. unfold H. assert (LF : length full = nd) by (apply in_bounds_length in Hf; auto). rewrite app_nth2 by (rewrite (drop_len nd d1 d2); auto).
    unfold axes. rewrite (drop_len nd d1 d2) by auto. rewrite Nat.sub_diag. cbn [nth]. f_equal.
    replace (Z.min _ _ + Z.max 0 (- offset)) with (nth d1 full 0) by lia. replace (Z.min _ _ + Z.max 0 offset) with (nth d2 full 0) by lia. apply place_drop; auto. }
  assert (NNg : Forall (fun n => 0 <= n) gsh) by apply HR.
  assert (LEN : length (drop_axes axes gsh ++ [L]) = (nd - 1)%nat) by (rewrite app_length; unfold axes; rewrite (drop_len nd d1 d2) by auto; cbn [length]; lia).
  assert (NNd : Forall (fun n => 0 <= n) (drop_axes axes gsh ++ [L])).
  { apply Forall_app. split; [|constructor; [unfold L, diag_len; lia|constructor]]. apply drop_Forall; auto. }
  unfold diagonal. fold gsh. fold nd. rewrite norm_axes_ok; [|left; discriminate| |auto]. 2:{ intros q [<-|[<-|[]]]; auto. }
  cbn [bind map]. fold d1 d2. destruct (Nat.eqb_spec d1 d2) as [E|_]; [lia|]. unfold rep in HR. fold gsh in HR. destruct (d_split a) as [s|] eqn:Es.
  2:{ destruct HR as (LC & _ & Q). set (ls := map (torch_diagonal offset d1 d2) (d_locals a)).
      assert (AG : forall t, In t ls -> agrees t (drop_axes axes gsh ++ [L]) H).
      { intros t Ht. apply in_map_iff in Ht as (t0 & <- & Ht). apply (torch_diagonal_agrees nd d1 d2 D1 D2 HN); auto. }
      assert (GS : match ls with t :: _ => ash t | [] => [] end = drop_axes axes gsh ++ [L]).
      { destruct ls as [|t l] eqn:El; [apply (f_equal (@length _)) in El; unfold ls in El; rewrite map_length in El; cbn in El; lia|]. apply AG. left; auto. }
      exists (mk_dnd ls (drop_axes axes gsh ++ [L]) None), cnts, H. split; [cbn zeta; rewrite GS; reflexivity|]. cbn [d_gshape d_split d_locals]. split; [auto|]. split; [auto|]. split; [unfold ls; now rewrite map_length|]. split; [|auto].
      unfold rep. cbn [d_gshape d_split d_locals]. split; [unfold ls; now rewrite map_length|]. split; auto. }
  destruct HR as (LC & _ & Hs & C & SM & Q). fold nd in Hs.
  set (offs := fun r => if Nat.eqb s d1 then offset + my_off a r else if Nat.eqb s d2 then offset - my_off a r else offset).
  set (sp := if (s <? Nat.min d1 d2)%nat then s else if (Nat.min d1 d2 <? s)%nat && (s <? Nat.max d1 d2)%nat then (s - 1)%nat else if (Nat.max d1 d2 <? s)%nat then (s - 2)%nat else (nd - 1 - 1)%nat).
  assert (SP : Some sp = diag_split nd d1 d2 (Some s)).
  { unfold diag_split, sp. rewrite drop_below_length, seq_length. rewrite below_pair by auto.
    destruct (Nat.eqb_spec s d1), (Nat.eqb_spec s d2), (Nat.ltb_spec s (Nat.min d1 d2)), (Nat.ltb_spec (Nat.min d1 d2) s), (Nat.ltb_spec s (Nat.max d1 d2)), (Nat.ltb_spec (Nat.max d1 d2) s), (Nat.ltb_spec d1 s), (Nat.ltb_spec d2 s); cbn [orb andb]; try lia; f_equal; lia. }
  cbn zeta. set (ls := map (fun p : nat * arr A => torch_diagonal (offs (fst p)) d1 d2 (snd p)) (ranked (d_locals a))).
  assert (LLS : length ls = P) by (unfold ls; now rewrite map_length, ranked_length).
  assert (FIN : forall cnts', represents H (drop_axes axes gsh ++ [L]) (Some sp) cnts' ls ->
    exists y cnts' H0, (do y <- array_is_split ls sp; Ok (fst y)) = Ok y /\ d_gshape y = drop_axes axes gsh ++ [L] /\ d_split y = diag_split nd d1 d2 (Some s) /\ length (d_locals y) = P /\ rep y cnts' H0 /\
    forall full, in_bounds gsh full -> nth d2 full 0 - nth d1 full 0 = offset -> H0 (drop_axes axes full ++ [Z.min (nth d1 full 0) (nth d2 full 0)]) = G full).
  { intros cnts' RR. destruct (C55_array_is_split _ _ _ _ _ _ RR ltac:(lia)) as (y & bal & -> & Y1 & Y2 & Y3 & Y4 & _). cbn [bind fst]. exists y, cnts', H.
    split; [auto|]. split; [auto|]. split; [rewrite <- SP; auto|]. split; [rewrite Y3; auto|]. split; auto. }
  destruct (Nat.eq_dec s d1) as [E1|NE1]; [|destruct (Nat.eq_dec s d2) as [E2|NE2]].
  - (* split along dim1 *)
    assert (CB : cnts = zcounts n1 P) by (rewrite HB by (left; congruence); cbn [balanced_counts]; now rewrite E1).
    set (o := fun r => zsum (firstn r cnts)). set (m := Z.max 0 (- offset)). set (st := fun r => Z.max 0 (Z.min L (o r - m))).
    assert (SN : sp = (nd - 2)%nat) by (unfold diag_split in SP; subst s; rewrite Nat.eqb_refl in SP; cbn [orb] in SP; congruence).
    assert (O0 : o 0%nat = 0) by reflexivity. assert (OP : o P = n1) by (unfold o; rewrite firstn_all2 by lia; rewrite SM; unfold n1; congruence).
    assert (N1 : 0 <= n1) by (rewrite Forall_forall in NNg; apply NNg, nth_In; auto).
    assert (OS : forall r, (r < P)%nat -> o (S r) = o r + nth r cnts 0 /\ 0 <= nth r cnts 0 /\ 0 <= o r /\ o (S r) <= n1).
    { intros r Hr. unfold o. rewrite zsum_firstn_S by lia. split; [auto|]. split; [rewrite Forall_forall in C; apply C, nth_In; lia|]. split.
      - pose proof (zsum_firstn_mono cnts 0 r C ltac:(lia)) as M. exact M.
      - rewrite <- zsum_firstn_S by lia. unfold n1. rewrite <- E1, <- SM. apply zsum_firstn_le; auto. }
    apply (FIN (step_counts st P)). split; [rewrite step_counts_length; auto|]. split; [auto|]. rewrite LEN. split; [rewrite SN; lia|].
    assert (ST0 : st 0%nat = 0) by (unfold st; rewrite O0; unfold m; lia).
    split; [|split].
    + apply Forall_forall. intros x Hx. apply (In_nth _ _ 0) in Hx as (r & Hr & <-). rewrite step_counts_length in Hr. rewrite step_counts_nth by auto. destruct (OS r Hr) as (O1 & O2 & O3 & O4). unfold st. lia.
    + rewrite <- (firstn_all (step_counts st P)), step_counts_length, step_counts_firstn by lia. rewrite ST0. unfold st. rewrite OP, SN. rewrite app_nth2 by (unfold axes; rewrite (drop_len nd d1 d2); auto). unfold axes. rewrite (drop_len nd d1 d2) by auto. rewrite Nat.sub_diag. cbn [nth]. unfold L, diag_len, m. lia.
    + intros r y Hy. apply ranked_map in Hy as (t & Ht & -> & Hr). cbn [fst snd]. rewrite HL in Hr. rewrite step_counts_nth, step_counts_firstn by lia. rewrite ST0, Z.sub_0_r.
      destruct (OS r Hr) as (O1 & O2 & O3 & O4). unfold offs. rewrite (proj2 (Nat.eqb_eq s d1) E1). rewrite (my_off_balanced a P s r HL Hr Es). fold gsh. rewrite E1. fold n1. rewrite <- CB. fold (o r).
      specialize (Q r t Ht). rewrite E1 in Q. assert (LU : length (upd gsh d1 (nth r cnts 0)) = nd) by (rewrite upd_length; reflexivity).
      assert (AG := torch_diagonal_agrees nd d1 d2 D1 D2 HN t _ _ (offset + o r) LU Q).
      rewrite (drop_upd_in nd d1 d2 D1 D2 HN) in AG by auto. rewrite upd_same in AG by auto. rewrite upd_other in AG by auto. fold n2 in AG. fold (o r) in AG.
      assert (EL : diag_len (nth r cnts 0) n2 (offset + o r) = st (S r) - st r).
      { unfold st. rewrite O1. apply diag_piece_len; lia. }
      rewrite EL in AG. destruct AG as [S0 D0]. split.
      * rewrite S0. rewrite SN. symmetry. fold axes. replace (nd - 2)%nat with (length (drop_axes axes gsh) + 0)%nat by (unfold axes; rewrite (drop_len nd d1 d2) by auto; lia).
        clear. induction (drop_axes axes gsh) as [|z l IH]; cbn [length Nat.add upd app] in *; [reflexivity|]. now rewrite IH.
      * intros idx Hi. assert (UE : upd (drop_axes axes gsh ++ [L]) sp (st (S r) - st r) = drop_axes axes gsh ++ [st (S r) - st r]).
        { rewrite SN. replace (nd - 2)%nat with (length (drop_axes axes gsh) + 0)%nat by (unfold axes; rewrite (drop_len nd d1 d2) by auto; lia).
          clear. induction (drop_axes axes gsh) as [|z l IH]; cbn [length Nat.add upd app] in *; [reflexivity|]. now rewrite IH. }
        rewrite UE in Hi. rewrite D0 by auto. rewrite place_move1 by auto. unfold H. rewrite SN.
        assert (LI := in_bounds_length _ _ Hi). rewrite app_length in LI. unfold axes in LI. rewrite (drop_len nd d1 d2) in LI by auto. cbn [length] in LI.
        assert (PB : 0 <= nth (nd - 2) idx 0 < st (S r) - st r).
        { apply in_bounds_nth in Hi as [_ Hb]. specialize (Hb (nd - 2)%nat). rewrite app_length in Hb. unfold axes in Hb. rewrite (drop_len nd d1 d2) in Hb by auto. cbn [length] in Hb. specialize (Hb ltac:(lia)).
          rewrite app_nth2 in Hb by (rewrite (drop_len nd d1 d2) by auto; auto). rewrite (drop_len nd d1 d2) in Hb by auto. rewrite Nat.sub_diag in Hb. exact Hb. }
        unfold move_axis_idx. rewrite upd_same by lia. rewrite place_last by (auto; lia). set (p := nth (nd - 2) idx 0) in *.
        unfold st in PB. rewrite O1 in PB. destruct (diag_piece_pos n1 n2 offset (o r) (nth r cnts 0) p) as [PE1 PE2]; [lia|lia|lia|exact PB|]. rewrite PE1, PE2. reflexivity.
  - (* split along dim2 *)
    assert (CB : cnts = zcounts n2 P) by (rewrite HB by (right; congruence); cbn [balanced_counts]; now rewrite E2).
    set (o := fun r => zsum (firstn r cnts)). set (m := Z.max 0 offset). set (st := fun r => Z.max 0 (Z.min L (o r - m))).
    assert (SN : sp = (nd - 2)%nat) by (unfold diag_split in SP; subst s; rewrite Nat.eqb_refl, orb_true_r in SP; congruence).
    assert (O0 : o 0%nat = 0) by reflexivity. assert (OP : o P = n2) by (unfold o; rewrite firstn_all2 by lia; rewrite SM; unfold n2; congruence).
    assert (N1 : 0 <= n2) by (rewrite Forall_forall in NNg; apply NNg, nth_In; auto).
    assert (OS : forall r, (r < P)%nat -> o (S r) = o r + nth r cnts 0 /\ 0 <= nth r cnts 0 /\ 0 <= o r /\ o (S r) <= n2).
    { intros r Hr. unfold o. rewrite zsum_firstn_S by lia. split; [auto|]. split; [rewrite Forall_forall in C; apply C, nth_In; lia|]. split.
      - pose proof (zsum_firstn_mono cnts 0 r C ltac:(lia)) as M. exact M.
      - rewrite <- zsum_firstn_S by lia. unfold n2. rewrite <- E2, <- SM. apply zsum_firstn_le; auto. }
    apply (FIN (step_counts st P)). split; [rewrite step_counts_length; auto|]. split; [auto|]. rewrite LEN. split; [rewrite SN; lia|].
    assert (ST0 : st 0%nat = 0) by (unfold st; rewrite O0; unfold m; lia).
    split; [|split].
    + apply Forall_forall. intros x Hx. apply (In_nth _ _ 0) in Hx as (r & Hr & <-). rewrite step_counts_length in Hr. rewrite step_counts_nth by auto. destruct (OS r Hr) as (O1 & O2 & O3 & O4). unfold st. lia.
    + rewrite <- (firstn_all (step_counts st P)), step_counts_length, step_counts_firstn by lia. rewrite ST0. unfold st. rewrite OP, SN. rewrite app_nth2 by (unfold axes; rewrite (drop_len nd d1 d2); auto). unfold axes. rewrite (drop_len nd d1 d2) by auto. rewrite Nat.sub_diag. cbn [nth]. unfold L, diag_len, m. lia.
    + intros r y Hy. apply ranked_map in Hy as (t & Ht & -> & Hr). cbn [fst snd]. rewrite HL in Hr. rewrite step_counts_nth, step_counts_firstn by lia. rewrite ST0, Z.sub_0_r.
      destruct (OS r Hr) as (O1 & O2 & O3 & O4). unfold offs. rewrite (proj2 (Nat.eqb_neq s d1) NE1), (proj2 (Nat.eqb_eq s d2) E2). rewrite (my_off_balanced a P s r HL Hr Es). fold gsh. rewrite E2. fold n2. rewrite <- CB. fold (o r).
      specialize (Q r t Ht). rewrite E2 in Q. assert (LU : length (upd gsh d2 (nth r cnts 0)) = nd) by (rewrite upd_length; reflexivity).
      assert (AG := torch_diagonal_agrees nd d1 d2 D1 D2 HN t _ _ (offset - o r) LU Q).
      rewrite (drop_upd_in nd d1 d2 D1 D2 HN) in AG by auto. rewrite upd_same in AG by auto. rewrite upd_other in AG by auto. fold n1 in AG. fold (o r) in AG.
      assert (EL : diag_len n1 (nth r cnts 0) (offset - o r) = st (S r) - st r).
      { unfold st. rewrite O1. apply diag_piece_len2; lia. }
      rewrite EL in AG. destruct AG as [S0 D0].
      assert (UE : upd (drop_axes axes gsh ++ [L]) sp (st (S r) - st r) = drop_axes axes gsh ++ [st (S r) - st r]).
      { rewrite SN. replace (nd - 2)%nat with (length (drop_axes axes gsh) + 0)%nat by (unfold axes; rewrite (drop_len nd d1 d2) by auto; lia).
        clear. induction (drop_axes axes gsh) as [|z l IH]; cbn [length Nat.add upd app] in *; [reflexivity|]. now rewrite IH. }
      rewrite UE. split; [exact S0|].
      intros idx Hi. rewrite D0 by auto. rewrite place_move2 by auto. unfold H. rewrite SN.
      assert (LI := in_bounds_length _ _ Hi). rewrite app_length in LI. unfold axes in LI. rewrite (drop_len nd d1 d2) in LI by auto. cbn [length] in LI.
      assert (PB : 0 <= nth (nd - 2) idx 0 < st (S r) - st r).
      { apply in_bounds_nth in Hi as [_ Hb]. specialize (Hb (nd - 2)%nat). rewrite app_length in Hb. unfold axes in Hb. rewrite (drop_len nd d1 d2) in Hb by auto. cbn [length] in Hb. specialize (Hb ltac:(lia)).
        rewrite app_nth2 in Hb by (rewrite (drop_len nd d1 d2) by auto; auto). rewrite (drop_len nd d1 d2) in Hb by auto. rewrite Nat.sub_diag in Hb. exact Hb. }
      unfold move_axis_idx. rewrite upd_same by lia. rewrite place_last by (auto; lia). set (p := nth (nd - 2) idx 0) in *.
      unfold st in PB. rewrite O1 in PB. destruct (diag_piece_pos2 n1 n2 offset (o r) (nth r cnts 0) p) as [PE1 PE2]; [lia|lia|lia|exact PB|]. rewrite PE1, PE2. reflexivity.
  - (* split along another axis *)
    assert (SN : sp = below axes s).
    { unfold diag_split in SP. rewrite (proj2 (Nat.eqb_neq s d1) NE1), (proj2 (Nat.eqb_neq s d2) NE2) in SP. cbn [orb] in SP. rewrite drop_below_length, seq_length in SP. change (Some sp = Some (below axes s)) in SP. congruence. }
    pose proof (below_bound nd d1 d2 D1 D2 HN s Hs NE1 NE2) as BB. fold axes in BB.
    assert (BE : nth sp (drop_axes axes gsh ++ [L]) 0 = nth s gsh 0).
    { rewrite SN, app_nth1 by (unfold axes; rewrite (drop_len nd d1 d2); auto). apply nth_below; [auto|]. apply memb_pair; auto. }
    apply (FIN cnts). split; [lia|]. split; [auto|]. rewrite LEN. split; [lia|]. split; [auto|]. split; [rewrite BE; auto|].
    intros r y Hy. apply ranked_map in Hy as (t & Ht & -> & Hr). cbn [fst snd]. unfold offs. rewrite (proj2 (Nat.eqb_neq s d1) NE1), (proj2 (Nat.eqb_neq s d2) NE2).
    assert (LU : length (upd gsh s (nth r cnts 0)) = nd) by (rewrite upd_length; reflexivity).
    assert (AG := torch_diagonal_agrees nd d1 d2 D1 D2 HN t _ _ offset LU (Q r t Ht)).
    rewrite (drop_upd_out nd d1 d2 D1 D2 HN) in AG by auto. rewrite !upd_other in AG by auto. fold n1 n2 L axes in AG. destruct AG as [S0 D0].
    assert (UE : upd (drop_axes axes gsh ++ [L]) sp (nth r cnts 0) = upd (drop_axes axes gsh) (below axes s) (nth r cnts 0) ++ [L]).
    { rewrite SN. assert (BL : (below axes s < length (drop_axes axes gsh))%nat) by (unfold axes at 2; rewrite (drop_len nd d1 d2); auto). revert BL. generalize (below axes s). generalize (drop_axes axes gsh). clear.
      induction l as [|z l IH]; intros k Hk; cbn [length] in Hk; [lia|]. destruct k; cbn [upd app]; [auto|]. now rewrite IH by lia. }
    rewrite UE. split; [exact S0|]. intros idx Hi. rewrite D0 by auto. assert (LI := in_bounds_length _ _ Hi). rewrite app_length, upd_length in LI. unfold axes in LI. rewrite (drop_len nd d1 d2) in LI by auto. cbn [length] in LI.
    rewrite place_move by (auto; lia). fold axes. unfold H. rewrite <- SN. f_equal. f_equal; unfold move_axis_idx; rewrite upd_other by lia; auto.
Qed.
Print Assumptions C41_diagonal.

Theorem C41_diagonal_same_axis_rejected : forall (A : Type) (a : dnd A) (offset dim1 dim2 : Z),
  valid_axis (length (d_gshape a)) dim1 -> valid_axis (length (d_gshape a)) dim2 ->
  norm (length (d_gshape a)) dim1 = norm (length (d_gshape a)) dim2 -> diagonal a offset dim1 dim2 = Err ValueError.
Proof.
  intros A a offset dim1 dim2 V1 V2 E. unfold diagonal. rewrite norm_axes_ok; [|left; discriminate| |unfold valid_axis in V1; lia]. 2:{ intros q [<-|[<-|[]]]; auto. }
  cbn [bind map]. rewrite E, Nat.eqb_refl. reflexivity.
Qed.
Theorem C41_fill_diagonal_dims_rejected : forall (A : Type) (v : A) (x : dnd A), length (d_gshape x) <> 2%nat -> fill_diagonal v x = Err ValueError.
Proof. intros A v x H. unfold fill_diagonal. apply Nat.eqb_neq in H. now rewrite H. Qed.

(** a 2x2 matrix whose rows all live on rank 1 *)
Definition lopG (idx : list Z) : Z := 10 * nth 0 idx 0 + nth 1 idx 0 + 1.
Definition lop : dnd Z := mk_dnd [mk_arr [0; 2] (fun _ => 0); mk_arr [2; 2] lopG] [2; 2] (Some 0%nat).
Lemma lop_rep : rep lop [0; 2] lopG.
Proof.
  split; [reflexivity|]. split; [repeat constructor; lia|]. split; [cbn; lia|]. split; [repeat constructor; lia|]. split; [reflexivity|].
  intros [|[|r]] t Ht; unfold lop in Ht; cbn [d_locals nth_error] in Ht; try discriminate; [| |destruct r; discriminate]; injection Ht as <-; (split; [reflexivity|]); intros idx Hi.
  - exfalso. inversion Hi as [|? ? ? ? Hx _]. cbn in Hx. lia.
  - cbn [adat]. unfold lopG, move_axis_idx. change (zsum (firstn 1 [0; 2])) with 0. assert (LI := in_bounds_length _ _ Hi). destruct idx as [|i [|j [|]]]; try discriminate. cbn [nth upd adat]. lia.
Qed.
(** tril, diagonal and fill_diagonal take the offset of the balanced layout, so an array
    with another layout gets wrong results *)
Theorem C41_tri_unbalanced_refuted : ~ (forall (A : Type) (zero : A) (lower : bool) (m : dnd A) (k : Z) (cnts : list Z) (G : list Z -> A),
  rep m cnts G -> (2 <= length (d_gshape m))%nat ->
  exists y H, tri_op zero lower m k = Ok y /\ rep y cnts H /\ forall idx, in_bounds (d_gshape m) idx ->
    let i := nth (length (d_gshape m) - 2) idx 0 in let j := nth (length (d_gshape m) - 1) idx 0 in
    (in_triangle lower k i j -> H idx = G idx) /\ (~ in_triangle lower k i j -> H idx = zero)).
Proof.
  intros F. destruct (F Z 0 true lop 0 [0; 2] lopG lop_rep ltac:(cbn; lia)) as (y & H & E & R & T). cbn in E. injection E as <-.
  destruct R as (_ & _ & _ & _ & _ & Q). cbn [d_gshape d_locals] in *. specialize (Q 1%nat _ eq_refl). destruct Q as [_ D]. specialize (D [0; 1] ltac:(repeat constructor; cbn; lia)).
  destruct (T [0; 1] ltac:(repeat constructor; cbn; lia)) as [_ T2]. cbn in T2. assert (HZ : H [0; 1] = 0) by (apply T2; unfold in_triangle; lia).
  unfold move_axis_idx in D. cbn in D. rewrite HZ in D. discriminate.
Qed.
Theorem C41_fill_diagonal_unbalanced_refuted : ~ (forall (A : Type) (v : A) (x : dnd A) (cnts : list Z) (G : list Z -> A),
  rep x cnts G -> length (d_gshape x) = 2%nat ->
  exists y H, fill_diagonal v x = Ok y /\ rep y cnts H /\ forall i j, in_bounds (d_gshape x) [i; j] -> H [i; j] = if i =? j then v else G [i; j]).
Proof.
  intros F. destruct (F Z 0 lop [0; 2] lopG lop_rep eq_refl) as (y & H & E & R & T). cbn in E. injection E as <-.
  destruct R as (_ & _ & _ & _ & _ & Q). cbn [d_gshape d_locals] in *. specialize (Q 1%nat _ eq_refl). destruct Q as [_ D]. specialize (D [0; 0] ltac:(repeat constructor; cbn; lia)).
  specialize (T 0 0 ltac:(repeat constructor; cbn; lia)). cbn in T. unfold move_axis_idx in D. cbn in D. rewrite T in D. discriminate.
Qed.

(** the hypotheses are met: a 4x3 array split on axis 0 over 3 ranks *)
Definition tallF (o : Z) (idx : list Z) : Z := 10 * (nth 0 idx 0 + o) + nth 1 idx 0.
Definition tall : dnd Z := mk_dnd [mk_arr [2; 3] (tallF 0); mk_arr [1; 3] (tallF 2); mk_arr [1; 3] (tallF 3)] [4; 3] (Some 0%nat).
Lemma tall_rep : is_rep 3 tall (fun idx => 10 * nth 0 idx 0 + nth 1 idx 0).
Proof.
  split; [reflexivity|]. split; [reflexivity|]. split; [repeat constructor; lia|]. split; [cbn; lia|]. split; [apply zcounts_ok; cbn; lia|]. split; [reflexivity|].
  intros r t Ht. destruct r as [|[|[|r]]]; unfold tall in Ht; cbn [d_locals nth_error] in Ht; try discriminate; [| | |destruct r; discriminate]; injection Ht as <-; (split; [reflexivity|]); intros idx Hi;
  assert (LI := in_bounds_length _ _ Hi); destruct idx as [|i [|j [|]]]; try discriminate; inversion Hi as [|? ? ? ? Hi0 _]; cbn in Hi0; unfold move_axis_idx; match goal with |- context [zsum ?l] => let v := eval vm_compute in (zsum l) in change (zsum l) with v end; cbn [adat]; unfold tallF; cbn [nth upd]; lia.
Qed.
Example C41_tri_eval : exists y, tri_op 0 true tall (-1) = Ok y /\ map (fun t => map (adat t) (row_major (ash t))) (d_locals y) = [[0; 0; 0; 10; 0; 0]; [20; 21; 0]; [30; 31; 32]].
Proof. eexists. split; [reflexivity|]. vm_compute. reflexivity. Qed.
Example C41_diagonal_eval : exists y, diagonal tall (-1) 0 1 = Ok y /\ d_gshape y = [3] /\ map (fun t => map (adat t) (row_major (ash t))) (d_locals y) = [[10]; [21]; [32]].
Proof. eexists. split; [reflexivity|]. split; [reflexivity|]. vm_compute. reflexivity. Qed.
Example C41_diagonal_hyps : exists y cnts' H, diagonal tall (-1) 0 1 = Ok y /\ rep y cnts' H /\ H [0] = 10.
Proof.
  destruct (C41_diagonal Z tall (-1) 0 1 3 (zcounts 4 3) (fun idx => 10 * nth 0 idx 0 + nth 1 idx 0)) as (y & c & H & E1 & _ & _ & _ & E2 & E3); try (vm_compute; reflexivity).
  - lia.
  - apply tall_rep.
  - unfold valid_axis; cbn; lia.
  - unfold valid_axis; cbn; lia.
  - cbn; lia.
  - exists y, c, H. split; [auto|]. split; [auto|]. specialize (E3 [1; 0] ltac:(repeat constructor; cbn; lia) eq_refl). exact E3.
Qed.
Example C41_fill_eval : exists y, fill_diagonal 7 tall = Ok y /\ map (fun t => map (adat t) (row_major (ash t))) (d_locals y) = [[7; 1; 2; 10; 7; 12]; [20; 21; 7]; [30; 31; 32]].
Proof. eexists. split; [reflexivity|]. vm_compute. reflexivity. Qed.
