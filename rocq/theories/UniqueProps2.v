From Verif Require Import Base BaseLemmas LayoutModel LayoutProofs NdSpec TensorSpec NdLemmas TensorLemmas OpsModel OpsProofs4 RollModel RedistModel HaloModel ShapeModel ShapeSpec ShapeProofs ShapeProofs4 ShapeProps BinModel BinProofs2 ReshapeModel ReshapeProofs FactoryModel FactoryProps ConcatModel ConcatProps DiagModel DiagProps SplitProps UnfoldModel UnfoldProofs UniqueModel UniqueSpec UniqueProps.
Open Scope Z_scope.

Lemma bounds1 sh ax idx : in_bounds (upd sh ax 1) idx -> (ax < length sh)%nat -> upd idx ax 0 = idx.
Proof. intros H HA. assert (L := in_bounds_length _ _ H). rewrite upd_length in L. apply in_bounds_upd_shape in H as (_ & B & _); [|auto]. apply upd_same_list. lia. Qed.

Section S.
Context {V : Type} (dv : V) (reps : list (list V) -> list nat).
Hypothesis HU : keeps_unique reps.
Variables (gsh : list Z) (ax : nat) (G : list Z -> V).
Hypothesis HA : (ax < length gsh)%nat.
Let n := nth ax gsh 0.
(** [f] is slice i of G *)
Definition sl (f : list Z -> V) (i : Z) : Prop := forall idx j, in_bounds (upd gsh ax 1) idx -> f (upd idx ax j) = G (upd idx ax i).
Lemma sl_key f f' i : sl f i -> (exists i', sl f' i') -> skey gsh ax f' = skey gsh ax f -> sl f' i.
Proof.
  intros H (i' & H') E idx j Hi. rewrite (H' idx j Hi). rewrite <- (H' idx 0 Hi), <- (H idx 0 Hi). rewrite (bounds1 gsh ax) by auto.
  unfold skey in E. assert (X : forall l, map f' l = map f l -> forall i, In i l -> f' i = f i). { induction l as [|a l IH]; intros EE b Hb; [destruct Hb|]. cbn in EE. injection EE as E1 E2. destruct Hb as [->|Hb]; auto. }
  apply (X _ E). now apply in_row_major.
Qed.
Lemma sl_key_eq f f' i : sl f i -> sl f' i -> skey gsh ax f = skey gsh ax f'.
Proof. intros H H'. unfold skey. apply map_ext_in. intros idx Hi. apply in_row_major in Hi. rewrite <- (bounds1 gsh ax idx) by auto. now rewrite H, H'. Qed.
Lemma pick_slices FS : (forall f, In f FS -> exists i, 0 <= i < n /\ sl f i) -> (forall i, 0 <= i < n -> exists f, In f FS /\ sl f i) ->
  let SL := pick reps (fun _ => dv) (skey gsh ax) FS in
  (forall f, In f SL -> exists i, 0 <= i < n /\ sl f i) /\ (forall i, 0 <= i < n -> exists f, In f SL /\ sl f i) /\
  distinct_slices G gsh ax (Z.of_nat (length SL)) (adat (of_slabs dv gsh ax SL)).
Proof.
  intros H1 H2 SL. destruct (pick_spec reps HU (fun _ => dv) (skey gsh ax) FS) as (P1 & P2 & P3). fold SL in P1, P2, P3.
  assert (Q1 : forall f, In f SL -> exists i, 0 <= i < n /\ sl f i) by (intros f Hf; apply H1, P1, Hf).
  assert (Q2 : forall i, 0 <= i < n -> exists f, In f SL /\ sl f i).
  { intros i Hi. destruct (H2 i Hi) as (f & Hf & Sf). destruct (P3 f Hf) as (f' & Hf' & E). exists f'. split; [auto|]. apply (sl_key f); auto. destruct (Q1 f' Hf') as (i' & _ & S'). eauto. }
  split; [auto|]. split; [auto|]. fold n. unfold of_slabs. cbn [adat].
  assert (NT : forall idx j, in_bounds (upd gsh ax 1) idx -> nth ax (upd idx ax j) 0 = j) by (intros idx j Hi; apply upd_same; assert (L := in_bounds_length _ _ Hi); rewrite upd_length in L; lia).
  split; [|split].
  - intros j Hj. destruct (Q1 (nth (Z.to_nat j) SL (fun _ => dv))) as (i & Hi & Si); [apply nth_In; lia|]. exists i. split; [auto|]. intros idx Hb. rewrite NT by auto. now apply Si.
  - intros i Hi. destruct (Q2 i Hi) as (f & Hf & Sf). apply (In_nth _ _ (fun _ => dv)) in Hf as (j & Hj & Ef). exists (Z.of_nat j). split; [lia|]. intros idx Hb. rewrite NT by auto. rewrite Nat2Z.id, Ef. now apply Sf.
  - intros j j' Hj Hj' E. apply Z2Nat.inj; try lia. rewrite NoDup_nth with (d := skey gsh ax (fun _ => dv)) in P2. rewrite map_length in P2. apply P2; try lia. rewrite !(map_nth (skey gsh ax)).
    destruct (Q1 (nth (Z.to_nat j) SL (fun _ => dv))) as (i & _ & Si); [apply nth_In; lia|]. destruct (Q1 (nth (Z.to_nat j') SL (fun _ => dv))) as (i' & _ & Si'); [apply nth_In; lia|].
    apply (sl_key_eq _ _ i); [auto|]. intros idx q Hb. rewrite (Si' idx q Hb). specialize (E idx Hb). cbv beta in E. rewrite !NT in E by auto. rewrite Si, Si' in E by auto. auto.
Qed.
End S.

Lemma slab_sl {V} (t : arr V) gsh ax c o (G : list Z -> V) f : (ax < length gsh)%nat -> agrees t (upd gsh ax c) (fun idx => G (move_axis_idx ax o idx)) -> In f (slabs ax t) -> exists i, 0 <= i < c /\ sl gsh ax G f (o + i).
Proof.
  intros HA [E D] Hf. unfold slabs in Hf. apply in_map_iff in Hf as (i & <- & Hi). apply in_zr in Hi. rewrite E, upd_same in Hi by auto. exists i. split; [auto|]. intros idx j Hb. rewrite upd_upd_same. assert (L := in_bounds_length _ _ Hb). rewrite upd_length in L. rewrite D.
  - unfold move_axis_idx. rewrite upd_same by lia. rewrite upd_upd_same. f_equal. f_equal. lia.
  - apply in_bounds_upd_shape in Hb as (_ & _ & Hb); [|auto]. apply in_bounds_upd_shape; [auto|]. rewrite upd_length, upd_same by lia. split; [auto|]. split; [auto|]. intros k Hk N. rewrite upd_other by auto. auto.
Qed.
Lemma slab_at {V} (t : arr V) gsh ax c o (G : list Z -> V) i : (ax < length gsh)%nat -> agrees t (upd gsh ax c) (fun idx => G (move_axis_idx ax o idx)) -> 0 <= i < c -> exists f, In f (slabs ax t) /\ sl gsh ax G f (o + i).
Proof.
  intros HA AG Hi. assert (H : In (fun idx => adat t (upd idx ax i)) (slabs ax t)). { unfold slabs. apply in_map_iff. exists i. split; [auto|]. apply in_zr. destruct AG as [-> _]. now rewrite upd_same. }
  eexists. split; [exact H|]. destruct AG as [E D]. intros idx j Hb. rewrite upd_upd_same. assert (L := in_bounds_length _ _ Hb). rewrite upd_length in L. rewrite D.
  - unfold move_axis_idx. rewrite upd_same by lia. rewrite upd_upd_same. f_equal. f_equal. lia.
  - apply in_bounds_upd_shape in Hb as (_ & _ & Hb); [|auto]. apply in_bounds_upd_shape; [auto|]. rewrite upd_length, upd_same by lia. split; [auto|]. split; [auto|]. intros k Hk N. rewrite upd_other by auto. auto.
Qed.
Lemma nth_pick {B} (l : list B) R q d : (q < length R)%nat -> nth q (map (fun p => nth p l d) R) d = nth (nth q R 0%nat) l d.
Proof. intros H. rewrite (nth_indep _ d (nth 0 l d)) by (now rewrite map_length). now rewrite (map_nth (fun p => nth p l d) R 0%nat q). Qed.
Lemma move0 ax idx : (ax < length idx)%nat -> move_axis_idx ax 0 idx = idx.
Proof. intros. unfold move_axis_idx. rewrite Z.add_0_r. now apply upd_same_list. Qed.

(** unique(x, axis): every distinct slice along the axis exactly once, when x is not
    distributed or the axis is the split axis (given as a non-negative number) *)
Theorem C38_unique_axis : forall (V : Type) (dv : V) (reps : list (list V) -> list nat) (x : dnd V) (G : list Z -> V) (cnts : list Z) (axis : Z),
  let ax := norm (length (d_gshape x)) axis in
  keeps_unique reps -> rep x cnts G -> (0 < length cnts)%nat -> valid_axis (length (d_gshape x)) axis ->
  (d_split x <> None -> (1 < length cnts)%nat -> d_split x = Some (Z.to_nat axis) /\ 0 <= axis) ->
  exists y k Y, unique_axis dv reps x axis = Ok y /\ d_gshape y = upd (d_gshape x) ax k /\
    d_split y = (if (1 <? length cnts)%nat then d_split x else None) /\
    rep y (balanced_counts (length cnts) (d_gshape y) (d_split y)) Y /\
    distinct_slices G (d_gshape x) ax k Y.
Proof.
  intros V dv reps x G cnts axis ax HU HR HP VA HS. assert (LC : length (d_locals x) = length cnts) by apply HR. assert (NN : Forall (fun n => 0 <= n) (d_gshape x)) by apply HR.
  assert (HA : (ax < length (d_gshape x))%nat) by (unfold ax, norm, valid_axis in *; destruct (Z.ltb_spec axis 0); lia). set (n := nth ax (d_gshape x) 0).
  assert (N0 : 0 <= n) by (unfold n; rewrite Forall_forall in NN; apply NN, nth_In; auto).
  assert (NK : forall k, 0 <= k -> Forall (fun n => 0 <= n) (upd (d_gshape x) ax k)).
  { intros k Hk. apply Forall_forall. intros m Hm. apply (In_nth _ _ 0) in Hm as (q & Hq & <-). rewrite upd_length in Hq. destruct (Nat.eq_dec q ax) as [->|N]; [rewrite upd_same; auto|]. rewrite upd_other by auto. rewrite Forall_forall in NN. apply NN, nth_In. auto. }
  assert (LOC : undistributed x = true -> exists k Y, let us t := of_slabs dv (ash t) ax (u_slices dv reps ax t) in
     ash (us (hd (mk_arr (d_gshape x) (fun _ => dv)) (d_locals x))) = upd (d_gshape x) ax k /\ 0 <= k /\ (forall t, In t (d_locals x) -> agrees (us t) (upd (d_gshape x) ax k) Y) /\ distinct_slices G (d_gshape x) ax k Y).
  { intros UD. set (SG := map (fun i idx => G (upd idx ax i)) (zr n)). set (SL := pick reps (fun _ => dv) (skey (d_gshape x) ax) SG).
    assert (AG : forall t, In t (d_locals x) -> agrees t (d_gshape x) G).
    { intros t Ht. unfold rep in HR. unfold undistributed in UD. destruct (d_split x) as [s|].
      - destruct HR as (_ & _ & Hs & CN & SM & Q). destruct (d_locals x) as [|t0 [|]]; try (cbn in UD; discriminate). destruct Ht as [->|[]]. destruct cnts as [|c [|]]; try (cbn in LC; discriminate). destruct (Q 0%nat t eq_refl) as [E D]. cbn [nth firstn] in *. change (zsum []) with 0 in D. change (zsum [c]) with (c + 0) in SM.
        assert (EE : upd (d_gshape x) s c = d_gshape x) by (apply upd_same_list; lia). rewrite EE in *. split; [auto|]. intros idx Hi. rewrite D by auto. rewrite move0; [auto|]. assert (L := in_bounds_length _ _ Hi). lia.
      - destruct HR as (_ & _ & Q). auto. }
    assert (US : forall t, In t (d_locals x) -> agrees (of_slabs dv (ash t) ax (u_slices dv reps ax t)) (upd (d_gshape x) ax (Z.of_nat (length SL))) (adat (of_slabs dv (d_gshape x) ax SL))).
    { intros t Ht. destruct (AG t Ht) as [E D]. assert (LS : length (slabs ax t) = length SG) by (unfold slabs, SG; rewrite !map_length, E; auto).
      assert (NS : forall p idx, (p < length SG)%nat -> in_bounds (upd (d_gshape x) ax 1) idx -> forall q, nth p (slabs ax t) (fun _ => dv) (upd idx ax q) = nth p SG (fun _ => dv) (upd idx ax q)).
      { intros p idx Hp Hb q. unfold slabs, SG in *. unfold zr in *. rewrite !map_map in *. rewrite E in *. fold n. rewrite !map_length, seq_length in Hp. rewrite !(@nth_map_seq) by auto. rewrite !upd_upd_same. apply D.
        assert (L := in_bounds_length _ _ Hb). rewrite upd_length in L. apply in_bounds_upd_shape in Hb as (_ & _ & Hb); [|auto]. apply in_bounds_nth. rewrite upd_length. split; [auto|]. intros k Hk. destruct (Nat.eq_dec k ax) as [->|N]; [rewrite upd_same by lia; fold n; lia|rewrite upd_other by auto; auto]. }
      assert (KE : map (skey (ash t) ax) (slabs ax t) = map (skey (d_gshape x) ax) SG).
      { rewrite E. apply (@nth_ext2 _ _ _ (skey (d_gshape x) ax (fun _ => dv))); [now rewrite !map_length|]. intros p Hp. rewrite map_length, LS in Hp. rewrite !(map_nth (skey (d_gshape x) ax)). unfold skey. apply map_ext_in. intros idx Hi. apply in_row_major in Hi. rewrite <- (bounds1 _ ax idx Hi HA). apply NS; auto. }
      assert (LU : length (u_slices dv reps ax t) = length SL) by (unfold u_slices, SL, pick; rewrite !map_length, KE; auto).
      split; [cbn [of_slabs ash]; now rewrite LU, E|]. intros idx Hi. unfold of_slabs. cbn [adat]. assert (L := in_bounds_length _ _ Hi). rewrite upd_length in L. apply in_bounds_upd_shape in Hi as (_ & B & B2); [|auto].
      unfold u_slices, SL, pick in *. rewrite KE in *. rewrite ?map_length in B. set (R := reps (map (skey (d_gshape x) ax) SG)) in *. destruct (HU (map (skey (d_gshape x) ax) SG)) as (RB & _). rewrite map_length in RB.
      set (q := Z.to_nat (nth ax idx 0)). assert (Hq : (q < length R)%nat) by (unfold q; lia).
      rewrite !(nth_pick _ R) by auto.

      assert (HI : in_bounds (upd (d_gshape x) ax 1) (upd idx ax 0)) by (apply in_bounds_upd_shape; auto; rewrite upd_length, upd_same by lia; split; [auto|split; [lia|]]; intros k Hk N; rewrite upd_other by auto; auto).
      assert (X := NS (nth q R 0%nat) _ (RB _ (nth_In R 0%nat Hq)) HI (nth ax idx 0)). rewrite upd_upd_same in X. rewrite (upd_same_list idx ax) in X by lia. exact X. }
    destruct (pick_slices dv reps HU (d_gshape x) ax G HA SG) as (_ & _ & DS).
    { intros f Hf. unfold SG in Hf. apply in_map_iff in Hf as (i & <- & Hi). apply in_zr in Hi. exists i. split; [auto|]. intros idx j _. now rewrite upd_upd_same. }
    { intros i Hi. exists (fun idx => G (upd idx ax i)). split; [unfold SG; apply in_map_iff; exists i; split; [auto|now apply in_zr]|]. intros idx j _. now rewrite upd_upd_same. }
    fold SL in DS. exists (Z.of_nat (length SL)), (adat (of_slabs dv (d_gshape x) ax SL)). cbv zeta. split; [|split; [lia|split; auto]].
    destruct (d_locals x) as [|t0 l0]; [cbn in LC; lia|]. cbn [hd]. apply (US t0). left; auto. }
  assert (FIN : undistributed x = true -> forall sp, (match sp with Some _ => False | None => True end) -> exists y k Y, (let us t := of_slabs dv (ash t) ax (u_slices dv reps ax t) in Ok (mk_dnd (map us (d_locals x)) (ash (us (hd (mk_arr (d_gshape x) (fun _ => dv)) (d_locals x)))) None)) = Ok y /\ d_gshape y = upd (d_gshape x) ax k /\ d_split y = sp /\ rep y (balanced_counts (length cnts) (d_gshape y) (d_split y)) Y /\ distinct_slices G (d_gshape x) ax k Y).
  { intros UD [|] Hsp; [destruct Hsp|]. destruct (LOC UD) as (k & Y & A & K0 & B & C). eexists _, k, Y. split; [reflexivity|]. cbn [d_gshape d_split]. split; [exact A|]. split; [auto|]. split; [|exact C]. unfold rep. cbn [d_gshape d_split d_locals balanced_counts]. cbv zeta in A. rewrite A. split; [now rewrite map_length, repeat_length|]. split; [auto|]. intros t Ht. apply in_map_iff in Ht as (u & <- & Hu). auto. }
  unfold unique_axis. fold ax. destruct (d_split x) as [s|] eqn:ES.
  - destruct (undistributed x) eqn:EU.
    + unfold undistributed in EU. rewrite ES in EU. replace (1 <? length cnts)%nat with false by lia. apply FIN; auto.
    + unfold undistributed in EU. rewrite ES in EU. assert (L1 : (1 < length cnts)%nat) by lia. destruct (HS ltac:(discriminate) L1) as [EA A0]. injection EA as ->. assert (EX : ax = Z.to_nat axis) by (unfold ax, norm; replace (axis <? 0) with false by lia; auto). rewrite <- EX in *. replace (axis =? Z.of_nat ax) with true by lia. replace (1 <? length cnts)%nat with true by lia.
      set (FS := concat (map (lres_slices dv reps ax ax) (d_locals x))). set (SL := pick reps (fun _ => dv) (skey (d_gshape x) ax) FS).
      unfold rep in HR. rewrite ES in HR. destruct HR as (_ & _ & _ & CN & SM & Q).
      destruct (pick_slices dv reps HU (d_gshape x) ax G HA FS) as (_ & _ & DS).
      { intros f Hf. unfold FS in Hf. apply in_concat in Hf as (l & Hl & Hf). apply in_map_iff in Hl as (t & <- & Ht). unfold lres_slices in Hf. destruct (nth ax (ash t) 0 =? 0); [destruct Hf|]. apply (pick_spec reps HU) in Hf. apply In_nth_error in Ht as (r & Ht).
        assert (Hr : (r < length cnts)%nat) by (rewrite <- LC; apply nth_error_Some; congruence).
        destruct (slab_sl t _ ax _ _ G f HA (Q r t Ht) Hf) as (i & Hi & Si). exists (zsum (firstn r cnts) + i). split; [|auto]. assert (0 <= zsum (firstn r cnts)) by (apply zsum_nonneg, Forall_firstn', CN). assert (X : zsum (firstn (S r) cnts) <= zsum cnts) by (apply zsum_firstn_le; auto). rewrite zsum_firstn_S in X by auto. lia. }
      { intros i Hi. rewrite <- SM in Hi. destruct (zsum_find cnts i CN Hi) as (r & Hr & Br). destruct (nth_error (d_locals x) r) as [t|] eqn:Et; [|apply nth_error_None in Et; lia].
        assert (AGt := Q r t Et). destruct (slab_at t _ ax _ _ G (i - zsum (firstn r cnts)) HA AGt ltac:(lia)) as (f & Hf & Sf). replace (zsum (firstn r cnts) + (i - zsum (firstn r cnts))) with i in Sf by lia.
        destruct (pick_spec reps HU (fun _ => dv) (skey (ash t) ax) (slabs ax t)) as (P1 & _ & P3). destruct (P3 f Hf) as (f' & Hf' & E). exists f'. split.
        - unfold FS. apply in_concat. exists (lres_slices dv reps ax ax t). split; [apply in_map, (nth_error_In _ _ Et)|]. unfold lres_slices. destruct AGt as [ET _]. rewrite ET, upd_same by auto. replace (nth r cnts 0 =? 0) with false by lia. exact Hf'.
        - apply (sl_key _ ax G HA f); auto.
          + destruct (slab_sl t _ ax _ _ G f' HA AGt (P1 f' Hf')) as (i' & _ & S'). eauto.
          + destruct AGt as [ET _]. unfold skey in *. rewrite ET in E. rewrite upd_upd_same in E. exact E. }
      fold SL in DS.
      destruct (C55_array_split V (length (d_locals x)) (of_slabs dv (d_gshape x) ax SL) (AxInt (Z.of_nat ax)) (Some ax)) as (y & A & B & C & D); [lia|cbn [of_slabs ash]; apply NK; lia| |].
      { cbn [asked_split of_slabs ash]. rewrite upd_length. split; [unfold valid_axis; lia|]. unfold norm. replace (Z.of_nat ax <? 0) with false by lia. now rewrite Nat2Z.id. }
      exists y, (Z.of_nat (length SL)), (adat (of_slabs dv (d_gshape x) ax SL)). split; [exact A|]. split; [exact B|]. split; [exact C|]. split; [|exact DS]. rewrite C, B, <- LC. exact D.
  - replace (if (1 <? length cnts)%nat then None else None) with (@None nat) by (destruct (1 <? length cnts)%nat; auto). apply FIN; [unfold undistributed; now rewrite ES|auto].
Qed.
