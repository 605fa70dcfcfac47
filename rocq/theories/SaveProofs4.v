(** Proofs for C47, part 4: the model's writes for every split of 1-D and 2-D arrays. *)
From Coq Require Import QArith Qminmax.
From Verif Require Import Base BaseLemmas LayoutModel NdSpec TensorSpec TensorLemmas OpsModel OpsProofs4 ShapeModel ShapeProps ShapeProofs4 CsvSpec SaveSpec SaveModel SaveProofs SaveProofs2 SaveProofs3.
Open Scope nat_scope.

Lemma in_bounds2 a b i j : i < a -> j < b -> in_bounds [Z.of_nat a; Z.of_nat b] [Z.of_nat i; Z.of_nat j].
Proof. intros. repeat constructor; cbn; lia. Qed.
Lemma in_bounds1 a i : i < a -> in_bounds [Z.of_nat a] [Z.of_nat i].
Proof. intros. repeat constructor; cbn; lia. Qed.

Section Dims.
Variables (V : Type) (lg : Q -> Z) (enc : list nat -> list nat) (nt : numtype V) (x : dnd V) (hs : option (list (list nat))) (sep : nat) (lo hi : Q) (W n c : nat) (cnts : list Z) (G : list Z -> V).
Hypothesis HEnc : forall l, length (enc l) = length l.
Hypothesis Hlo : extreme Qmin nt x = Ok lo.
Hypothesis Hhi : extreme Qmax nt x = Ok hi.
Hypothesis HWi : item_size (nt_kind nt) (sign_width lo) (pre_point_digits lg lo hi) = Z.of_nat W.
Hypothesis HP : 0 < length (d_locals x).
Hypothesis HR : rep x cnts G.
Hypothesis Hc : 0 < c.
Let A2 i j := G [Z.of_nat i; Z.of_nat j].
Let text2 := E V (fld V nt W) sep n c A2 (head_bytes enc (hlines hs)).
Let A1 i (j : nat) := G [Z.of_nat i].
Let text1 := E V (fld V nt W) sep n 1 A1 (head_bytes enc (hlines hs)).

Lemma rw_ext (f g : V -> list nat) s nl z t o : (forall v, f v = g v) -> row_writes f s nl z t o = row_writes g s nl z t o.
Proof.
  intros H. unfold row_writes. destruct (ash t) as [|a [|b [|? ?]]]; auto.
  - apply map_ext. intros i. now rewrite H.
  - destruct (b =? 0)%Z; auto. apply map_ext. intros i. do 2 f_equal. f_equal. apply map_ext. intros j. apply H.
Qed.
Lemma fmt_fld v : fmt_pad (fmt_width (nt_kind nt) (sign_width lo) (pre_point_digits lg lo hi)) (nt_text nt v) = fld V nt W v.
Proof. rewrite (width_same V lg nt lo hi W HWi), HWi. apply (fmt_justify V lg enc nt lo hi W HEnc). Qed.

(** slabs along the split axis, as natural numbers *)
Lemma slab s : d_split x = Some s -> forall N, nth s (d_gshape x) 0%Z = Z.of_nat N ->
  (forall r t, nth_error (d_locals x) r = Some t -> (0 <= nth r cnts 0)%Z /\ (0 <= zsum (firstn r cnts))%Z /\
     Z.to_nat (zsum (firstn r cnts)) + Z.to_nat (nth r cnts 0%Z) <= N /\
     ((zsum (firstn r cnts) + nth r cnts 0 = Z.of_nat N)%Z <-> Z.to_nat (zsum (firstn r cnts)) + Z.to_nat (nth r cnts 0%Z) = N)) /\
  (forall i, i < N -> exists r t, nth_error (d_locals x) r = Some t /\ Z.to_nat (zsum (firstn r cnts)) <= i < Z.to_nat (zsum (firstn r cnts)) + Z.to_nat (nth r cnts 0%Z)).
Proof.
  intros HS N HN. assert (HR' := HR). unfold rep in HR'. rewrite HS in HR'. destruct HR' as (L & _ & _ & CN & SM & _). rewrite HN in SM. split.
  - intros r t Hr. assert (Lr : r < length cnts) by (rewrite <- L; apply nth_error_Some; congruence).
    assert (N0 : (0 <= nth r cnts 0)%Z) by (rewrite Forall_forall in CN; apply CN, nth_In; auto).
    assert (Z0 : (0 <= zsum (firstn r cnts))%Z) by (apply zsum_nonneg, Forall_firstn'; auto).
    assert (S1 := zsum_firstn_S cnts r Lr). assert (S2 := zsum_firstn_le cnts (S r) CN). lia.
  - intros i Hi. destruct (zsum_find cnts (Z.of_nat i) CN ltac:(lia)) as (r & Lr & H).
    destruct (nth_error (d_locals x) r) as [t|] eqn:Er; [|apply nth_error_None in Er; lia]. exists r, t. split; auto.
    assert (Z0 : (0 <= zsum (firstn r cnts))%Z) by (apply zsum_nonneg, Forall_firstn'; auto). lia.
Qed.

Lemma save_2d : d_gshape x = [Z.of_nat n; Z.of_nat c] -> d_split x = None \/ d_split x = Some 0 \/ d_split x = Some 1 ->
  (forall i j, i < n -> j < c -> length (nt_text nt (A2 i j)) <= W) ->
  exists out, save_csv lg enc nt x (twice hs) [sep] = Ok out /\ forall old f, outcome old out f -> f = text2 ++ skipn (length text2) old.
Proof.
  intros HG HS HF. assert (HR' := HR). unfold rep in HR'. rewrite HG in HR'.
  set (dz a r := zsum (firstn r (map (fun t => nth a (ash t) 0%Z) (d_locals x)))).
  assert (RW : (Z.of_nat c * (Z.of_nat W + 1))%Z = Z.of_nat (c * (W + 1))) by lia.
  destruct HS as [HS|[HS|HS]].
  - (* None *) rewrite HS in HR'. destruct HR' as (L & _ & AG).
    apply (save_all V lg enc nt x hs sep lo hi W n c HEnc A2 HF Hc (fun t => t) (fun r => r =? 0) (fun _ => 0) (fun _ => n) (fun _ => 0) (fun _ => c)).
    + intros r t Hr _. destruct (AG t (nth_error_In _ _ Hr)) as [S1 D1]. split; [exact S1|]. split; [lia|]. split; [lia|].
      intros i j Hi Hj. apply D1. apply in_bounds2; auto.
    + intros i j Hi Hj. destruct (nth_error (d_locals x) 0) as [t|] eqn:E0; [|apply nth_error_None in E0; lia]. exists 0, t. repeat split; auto; lia.
    + exact HP.
    + unfold save_csv. rewrite HS, HG, Hlo, Hhi. cbn [bind length]. rewrite HWi, RW, (displacement enc hs HEnc).
      match goal with |- (if forallb _ ?a then _ else _) = (if forallb _ ?b then _ else _) => replace b with a; [reflexivity|] end.
      apply map_ext_in. intros [r t] Hr. unfold rank_writes. cbn [fst snd]. f_equal.
      destruct (Nat.eqb_spec r 0); [|reflexivity]. rewrite (rw_ext _ (fld V nt W)) by exact fmt_fld. f_equal; [now rewrite Nat.eqb_refl|lia].
  - (* Some 0 *) destruct (slab 0 HS n) as [SL CV]; [now rewrite HG|]. rewrite HS in HR'. assert (HR2 := HR'). destruct HR' as (L & _ & _ & CN & SM & AG). assert (LC := local_counts _ _ _ _ _ HR2).
    apply (save_all V lg enc nt x hs sep lo hi W n c HEnc A2 HF Hc (fun t => t) (fun r => true) (fun r => Z.to_nat (zsum (firstn r cnts))) (fun r => Z.to_nat (nth r cnts 0%Z)) (fun _ => 0) (fun _ => c)).
    + intros r t Hr _. destruct (SL r t Hr) as (N0 & Z0 & B & _). destruct (AG r t Hr) as [S1 D1]. cbn [upd] in S1, D1.
      split; [rewrite S1; f_equal; lia|]. split; [exact B|]. split; [lia|]. intros i j Hi Hj. rewrite D1.
      * unfold A2, move_axis_idx. cbn [upd nth]. do 3 f_equal. lia.
      * repeat constructor; cbn; lia.
    + intros i j Hi Hj. destruct (CV i Hi) as (r & t & Hr & B). exists r, t. repeat split; auto; lia.
    + exact HP.
    + unfold save_csv. rewrite HS, HG, Hlo, Hhi. cbn [bind length]. rewrite HWi, RW, (displacement enc hs HEnc). rewrite LC.
      match goal with |- (if forallb _ ?a then _ else _) = (if forallb _ ?b then _ else _) => replace b with a; [reflexivity|] end.
      apply map_ext_in. intros [r t] Hr. apply in_combine_seq in Hr as [_ Hr]. rewrite Nat.sub_0_r in Hr. destruct (SL r t Hr) as (N0 & Z0 & B & _).
      unfold rank_writes. cbn [fst snd]. f_equal. rewrite (rw_ext _ (fld V nt W)) by exact fmt_fld. f_equal; [now rewrite Nat.eqb_refl|].
      rewrite !Nat2Z.inj_add, !Nat2Z.inj_mul, Z2Nat.id by lia. lia.
  - (* Some 1 *) destruct (slab 1 HS c) as [SL CV]; [now rewrite HG|]. rewrite HS in HR'. assert (HR2 := HR'). destruct HR' as (L & _ & _ & CN & SM & AG). assert (LC := local_counts _ _ _ _ _ HR2).
    apply (save_all V lg enc nt x hs sep lo hi W n c HEnc A2 HF Hc (fun t => t) (fun r => true) (fun _ => 0) (fun _ => n) (fun r => Z.to_nat (zsum (firstn r cnts))) (fun r => Z.to_nat (nth r cnts 0%Z))).
    + intros r t Hr _. destruct (SL r t Hr) as (N0 & Z0 & B & _). destruct (AG r t Hr) as [S1 D1]. cbn [upd] in S1, D1.
      split; [rewrite S1; f_equal; f_equal; lia|]. split; [lia|]. split; [exact B|]. intros i j Hi Hj. rewrite D1.
      * unfold A2, move_axis_idx. cbn [upd nth]. do 3 f_equal; try lia.
      * repeat constructor; cbn; lia.
    + intros i j Hi Hj. destruct (CV j Hj) as (r & t & Hr & B). exists r, t. repeat split; auto; lia.
    + exact HP.
    + unfold save_csv. rewrite HS, HG, Hlo, Hhi. cbn [bind length]. rewrite HWi, RW, (displacement enc hs HEnc). rewrite LC.
      match goal with |- (if forallb _ ?a then _ else _) = (if forallb _ ?b then _ else _) => replace b with a; [reflexivity|] end.
      apply map_ext_in. intros [r t] Hr. apply in_combine_seq in Hr as [_ Hr]. rewrite Nat.sub_0_r in Hr. destruct (SL r t Hr) as (N0 & Z0 & B & EQ).
      unfold rank_writes. cbn [fst snd]. f_equal. rewrite (rw_ext _ (fld V nt W)) by exact fmt_fld. f_equal.
      * destruct (AG r t Hr) as [S1 _]. rewrite S1. cbn [upd nth]. 
        destruct (Nat.eqb_spec (Z.to_nat (zsum (firstn r cnts)) + Z.to_nat (nth r cnts 0%Z)) c), (Z.eqb_spec (zsum (firstn r cnts) + nth r cnts 0%Z) (Z.of_nat c)); auto; tauto.
      * rewrite !Nat2Z.inj_add, !Nat2Z.inj_mul, Z2Nat.id by lia. lia.
Qed.

Definition as2 (t : arr V) : arr V := mk_arr [nth 0 (ash t) 0%Z; 1%Z] (fun idx => adat t [nth 0 idx 0%Z]).
Lemma rw_as2 f s z t o m : ash t = [m] -> row_writes f s true z t o = row_writes f s (0 + 1 =? 1) z (as2 t) o.
Proof. intros H. unfold row_writes. rewrite H. cbn [as2 ash nth]. rewrite H. cbn [nth]. reflexivity. Qed.
Lemma save_1d : d_gshape x = [Z.of_nat n] -> d_split x = None \/ d_split x = Some 0 ->
  (forall i, i < n -> length (nt_text nt (G [Z.of_nat i])) <= W) ->
  exists out, save_csv lg enc nt x (twice hs) [sep] = Ok out /\ forall old f, outcome old out f -> f = text1 ++ skipn (length text1) old.
Proof.
  intros HG HS HF. assert (HR' := HR). unfold rep in HR'. rewrite HG in HR'.
  assert (HF' : forall i j, i < n -> j < 1 -> length (nt_text nt (A1 i j)) <= W) by (intros; apply HF; auto).
  assert (RW : (Z.of_nat W + 1)%Z = Z.of_nat (1 * (W + 1))) by lia.
  destruct HS as [HS|HS].
  - rewrite HS in HR'. destruct HR' as (L & _ & AG).
    apply (save_all V lg enc nt x hs sep lo hi W n 1 HEnc A1 HF' ltac:(lia) as2 (fun r => r =? 0) (fun _ => 0) (fun _ => n) (fun _ => 0) (fun _ => 1)).
    + intros r t Hr _. destruct (AG t (nth_error_In _ _ Hr)) as [S1 D1]. split; [unfold as2; cbn [ash]; rewrite S1; reflexivity|]. split; [lia|]. split; [lia|].
      intros i j Hi Hj. cbn [as2 adat nth]. apply D1. apply in_bounds1; auto.
    + intros i j Hi Hj. destruct (nth_error (d_locals x) 0) as [t|] eqn:E0; [|apply nth_error_None in E0; lia]. exists 0, t. repeat split; auto; lia.
    + exact HP.
    + unfold save_csv. rewrite HS, HG, Hlo, Hhi. cbn [bind length]. rewrite HWi, RW, (displacement enc hs HEnc).
      match goal with |- (if forallb _ ?a then _ else _) = (if forallb _ ?b then _ else _) => replace b with a; [reflexivity|] end.
      apply map_ext_in. intros [r t] Hr. apply in_combine_seq in Hr as [_ Hr]. rewrite Nat.sub_0_r in Hr. unfold rank_writes. cbn [fst snd]. f_equal.
      destruct (AG t (nth_error_In _ _ Hr)) as [S1 _].
      destruct (Nat.eqb_spec r 0); [|reflexivity]. rewrite (rw_ext _ (fld V nt W)) by exact fmt_fld. rewrite (rw_as2 _ _ _ _ _ _ S1). f_equal. lia.
  - destruct (slab 0 HS n) as [SL CV]; [now rewrite HG|]. rewrite HS in HR'. assert (HR2 := HR'). destruct HR' as (L & _ & _ & CN & SM & AG). assert (LC := local_counts _ _ _ _ _ HR2).
    apply (save_all V lg enc nt x hs sep lo hi W n 1 HEnc A1 HF' ltac:(lia) as2 (fun r => true) (fun r => Z.to_nat (zsum (firstn r cnts))) (fun r => Z.to_nat (nth r cnts 0%Z)) (fun _ => 0) (fun _ => 1)).
    + intros r t Hr _. destruct (SL r t Hr) as (N0 & Z0 & B & _). destruct (AG r t Hr) as [S1 D1]. cbn [upd] in S1, D1.
      split; [unfold as2; cbn [ash]; rewrite S1; cbn [nth]; f_equal; lia|]. split; [exact B|]. split; [lia|]. intros i j Hi Hj. cbn [as2 adat nth]. rewrite D1.
      * unfold A1, move_axis_idx. cbn [upd nth]. do 2 f_equal. lia.
      * repeat constructor; cbn; lia.
    + intros i j Hi Hj. destruct (CV i Hi) as (r & t & Hr & B). exists r, t. repeat split; auto; lia.
    + exact HP.
    + unfold save_csv. rewrite HS, HG, Hlo, Hhi. cbn [bind length]. rewrite HWi, RW, (displacement enc hs HEnc). rewrite LC.
      match goal with |- (if forallb _ ?a then _ else _) = (if forallb _ ?b then _ else _) => replace b with a; [reflexivity|] end.
      apply map_ext_in. intros [r t] Hr. apply in_combine_seq in Hr as [_ Hr]. rewrite Nat.sub_0_r in Hr. destruct (SL r t Hr) as (N0 & Z0 & B & _).
      destruct (AG r t Hr) as [S1 _]. cbn [upd] in S1.
      unfold rank_writes. cbn [fst snd]. f_equal. rewrite (rw_ext _ (fld V nt W)) by exact fmt_fld. rewrite (rw_as2 _ _ _ _ _ _ S1). f_equal.
      rewrite !Nat2Z.inj_add, !Nat2Z.inj_mul, Z2Nat.id by lia. lia.
Qed.
End Dims.
