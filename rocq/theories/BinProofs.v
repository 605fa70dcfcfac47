(** Binary operations: local broadcasting, slabs, alignment of operands. *)
From Verif Require Import Base ShapeSpec BaseLemmas LayoutModel LayoutProofs NdSpec TensorSpec TensorLemmas NdLemmas OpsModel OpsProofs2 OpsProofs3 OpsProofs4 OpsProofs5 OpsProofs6 RedistModel RedistProofs ShapeModel ShapeProofs ShapeProofs2 ShapeProofs3 ShapeProofs4 ShapeProofs5 ShapeProofs6 BinSpec BinModel.
Open Scope Z_scope.

Lemma zsum_le l p : Forall (fun n => 0 <= n) l -> (p < length l)%nat ->
  0 <= zsum (firstn p l) /\ zsum (firstn p l) + nth p l 0 <= zsum l /\ 0 <= nth p l 0.
Proof.
  intros H Hp. pose proof (zsum_firstn_le l (S p) H) as H1. rewrite zsum_firstn_S in H1 by auto.
  pose proof (zsum_firstn_mono l 0 p H ltac:(lia)) as H2. change (zsum (firstn 0 l)) with 0 in H2.
  rewrite Forall_forall in H. split; [auto|]. split; [auto|]. apply H, nth_In; auto.
Qed.
Lemma bdim_ok a b o : bdim a b = Ok o <-> bcast_dim a b o.
Proof.
  unfold bdim, bcast_dim. destruct (Z.eqb_spec a b); [|destruct (Z.eqb_spec a 1); [|destruct (Z.eqb_spec b 1)]];
  split; intros H; try (injection H as <-); try discriminate; try (f_equal; lia); try lia.
Qed.
Lemma bshape_ok s1 : forall s2 o, bshape s1 s2 = Ok o <->
  length s1 = length o /\ length s2 = length o /\ forall i, (i < length o)%nat -> bcast_dim (nth i s1 0) (nth i s2 0) (nth i o 0).
Proof.
  induction s1 as [|a s1 IH]; intros [|b s2] o; simpl.
  - split; [intros H; injection H as <-; simpl; repeat split; lia|]. intros (H & _). destruct o; [auto|discriminate].
  - split; [discriminate|]. intros (H & H2 & _). destruct o; discriminate.
  - split; [discriminate|]. intros (H & H2 & _). destruct o; discriminate.
  - split.
    + destruct (bdim a b) as [c|] eqn:E; [|discriminate]. destruct (bshape s1 s2) as [os|] eqn:E2; [|discriminate].
      cbn. intros H; injection H as <-. apply IH in E2 as (L1 & L2 & H). simpl. split; [lia|split; [lia|]].
      intros [|i] Hi; [now apply bdim_ok|apply H; lia].
    + intros (L1 & L2 & H). destruct o as [|c o]; [discriminate|]. simpl in *.
      pose proof (H 0%nat ltac:(lia)) as H0. apply bdim_ok in H0. rewrite H0. cbn.
      replace (bshape s1 s2) with (Ok o); [auto|]. symmetry. apply IH. split; [lia|split; [lia|]].
      intros i Hi. apply (H (S i)). lia.
Qed.
Lemma bclamp_clamp sh : forall idx, bclamp sh idx = clamp sh idx.
Proof. induction sh as [|n sh IH]; intros [|i idx]; simpl; auto; now rewrite IH. Qed.
Lemma clamp_length sh : forall idx, length sh = length idx -> length (clamp sh idx) = length idx.
Proof. induction sh as [|n sh IH]; intros [|i idx] H; simpl in *; try lia; auto. Qed.
Lemma clamp_nth sh : forall idx i, length sh = length idx -> (i < length sh)%nat ->
  nth i (clamp sh idx) 0 = if nth i sh 0 =? 1 then 0 else nth i idx 0.
Proof. induction sh as [|n sh IH]; intros [|j idx] [|i] H Hi; simpl in *; try lia; auto. apply IH; lia. Qed.

(** the local operand [t] supplies the values of the broadcast of [G] at the slab range
    [o, o+c) of axis [s] *)
Definition aligned {A} (t : arr A) (gsh : list Z) (G : list Z -> A) (s : nat) (c o : Z) (e : Z) : Prop :=
  ash t = upd gsh s e /\ (e = c \/ e = 1) /\
  forall idx, length idx = length gsh ->
    (forall i, (i < length gsh)%nat -> i <> s -> nth i gsh 0 = 1 \/ 0 <= nth i idx 0 < nth i gsh 0) ->
    0 <= nth s idx 0 < c ->
    adat t (clamp (ash t) idx) = G (clamp gsh (upd idx s (nth s idx 0 + o))).

Lemma bop_aligned {A B C} (f : A -> B -> C) t1 t2 gsh1 gsh2 osh G1 G2 s c o e1 e2 :
  bshape gsh1 gsh2 = Ok osh -> (s < length osh)%nat ->
  aligned t1 gsh1 G1 s c o e1 -> aligned t2 gsh2 G2 s c o e2 -> e1 = c \/ e2 = c ->
  exists t, bop f t1 t2 = Ok t /\
    agrees t (upd osh s c) (fun idx => f (G1 (clamp gsh1 (move_axis_idx s o idx))) (G2 (clamp gsh2 (move_axis_idx s o idx)))).
Proof.
  intros HB Hs (S1 & E1 & V1) (S2 & E2 & V2) HE. apply bshape_ok in HB as (L1 & L2 & HB).
  unfold bop. assert (BS : bshape (ash t1) (ash t2) = Ok (upd osh s c)).
  { rewrite S1, S2. apply bshape_ok. rewrite !upd_length. repeat split; auto. intros i Hi.
    destruct (Nat.eq_dec i s) as [->|N].
    - rewrite !upd_same by lia. unfold bcast_dim. lia.
    - rewrite !upd_other by auto. auto. }
  rewrite BS. cbn [bind]. eexists. split; [reflexivity|]. split; [reflexivity|]. cbn [adat]. intros idx Hi.
  rewrite !bclamp_clamp. apply in_bounds_upd_shape in Hi as (LI & Hc & Hi); [|lia].
  unfold move_axis_idx. rewrite V1, V2; auto; try lia.
  - intros i Hi1 N. specialize (HB i ltac:(lia)). specialize (Hi i ltac:(lia) N). unfold bcast_dim in HB. lia.
  - intros i Hi1 N. specialize (HB i ltac:(lia)). specialize (Hi i ltac:(lia) N). unfold bcast_dim in HB. lia.
Qed.

Lemma clamp_upd_s gsh idx s c o : length idx = length gsh -> (s < length gsh)%nat -> 0 <= nth s idx 0 < c ->
  (nth s gsh 0 = 1 -> nth s idx 0 + o = 0) ->
  upd (clamp (upd gsh s c) idx) s (nth s idx 0 + o) = clamp gsh (upd idx s (nth s idx 0 + o)).
Proof.
  intros L Hs Hc H1. apply (@nth_ext2 _ _ _ 0).
  { rewrite upd_length, !clamp_length; rewrite ?upd_length; lia. }
  intros i Hi. rewrite upd_length, clamp_length in Hi by (rewrite upd_length; lia).
  rewrite clamp_nth by (rewrite ?upd_length; lia). destruct (Nat.eq_dec i s) as [->|N].
  - rewrite !upd_same by (rewrite ?clamp_length; rewrite ?upd_length; lia).
    destruct (Z.eqb_spec (nth s gsh 0) 1); lia.
  - rewrite !upd_other by auto. rewrite clamp_nth by (rewrite ?upd_length; lia). now rewrite upd_other.
Qed.
(** a rank's piece of a split operand *)
Lemma aligned_cut {A} (t : arr A) gsh (G : list Z -> A) s cnts r :
  (s < length gsh)%nat -> Forall (fun c => 0 <= c) cnts -> zsum cnts = nth s gsh 0 -> (r < length cnts)%nat ->
  agrees t (upd gsh s (nth r cnts 0)) (fun idx => G (move_axis_idx s (zsum (firstn r cnts)) idx)) ->
  aligned t gsh G s (nth r cnts 0) (zsum (firstn r cnts)) (nth r cnts 0).
Proof.
  intros Hs Hc Hsum Hr [S V]. split; [auto|]. split; [auto|]. intros idx LI Hi Hcs. rewrite S.
  rewrite V.
  - unfold move_axis_idx.
    assert (E : nth s (clamp (upd gsh s (nth r cnts 0)) idx) 0 = nth s idx 0).
    { rewrite clamp_nth by (rewrite ?upd_length; lia). rewrite upd_same by lia. destruct (Z.eqb_spec (nth r cnts 0) 1); lia. }
    rewrite E. f_equal. apply clamp_upd_s; auto. intros H1. pose proof (zsum_le cnts r Hc Hr). lia.
  - apply in_bounds_upd_shape; auto. rewrite clamp_length by (rewrite ?upd_length; lia).
    split; [auto|]. split.
    + rewrite clamp_nth by (rewrite ?upd_length; lia). rewrite upd_same by lia. destruct (Z.eqb_spec (nth r cnts 0) 1); lia.
    + intros k Hk N. rewrite clamp_nth by (rewrite ?upd_length; lia). rewrite upd_other by auto.
      specialize (Hi k Hk N). destruct (Z.eqb_spec (nth k gsh 0) 1); lia.
Qed.
(** a replicated operand of extent 1 along s *)
Lemma aligned_one {A} (t : arr A) gsh (G : list Z -> A) s c o : (s < length gsh)%nat -> nth s gsh 0 = 1 -> agrees t gsh G ->
  aligned t gsh G s c o 1.
Proof.
  intros Hs H1 [S V]. split; [rewrite S, <- H1; symmetry; apply upd_self|]. split; [auto|]. intros idx LI Hi Hc. rewrite S, V.
  - f_equal. apply (@nth_ext2 _ _ _ 0); [rewrite !clamp_length; rewrite ?upd_length; lia|].
    intros i Hi'. rewrite clamp_length in Hi' by lia. rewrite !clamp_nth by (rewrite ?upd_length; lia).
    destruct (Nat.eq_dec i s) as [->|N]; [now rewrite H1|]. now rewrite upd_other.
  - apply in_bounds_nth. rewrite clamp_length by lia. split; [auto|]. intros i Hi'. rewrite clamp_nth by lia.
    destruct (Z.eqb_spec (nth i gsh 0) 1); [lia|]. destruct (Nat.eq_dec i s) as [->|N]; [lia|]. specialize (Hi i Hi' N). lia.
Qed.
(** a whole operand (one process) *)
Lemma aligned_whole {A} (t : arr A) gsh (G : list Z -> A) s : (s < length gsh)%nat -> agrees t gsh G ->
  aligned t gsh G s (nth s gsh 0) 0 (nth s gsh 0).
Proof.
  intros Hs [S V]. split; [rewrite S; symmetry; apply upd_self|]. split; [auto|]. intros idx LI Hi Hc. rewrite S, V.
  - f_equal. rewrite Z.add_0_r, upd_self. auto.
  - apply in_bounds_nth. rewrite clamp_length by lia. split; [auto|]. intros i Hi'. rewrite clamp_nth by lia.
    destruct (Z.eqb_spec (nth i gsh 0) 1); [lia|]. destruct (Nat.eq_dec i s) as [->|N]; [lia|]. specialize (Hi i Hi' N). lia.
Qed.
(** a split operand of extent 1 that is broadcast along its own split axis *)
Lemma aligned_bsplit {A} (t : arr A) gsh (G : list Z -> A) s cnts r n :
  (s < length gsh)%nat -> Forall (fun c => 0 <= c) cnts -> zsum cnts = nth s gsh 0 -> nth s gsh 0 = 1 -> (r < length cnts)%nat ->
  agrees t (upd gsh s (nth r cnts 0)) (fun idx => G (move_axis_idx s (zsum (firstn r cnts)) idx)) ->
  aligned t gsh G s (nth r (full_map cnts n) 0) (zsum (firstn r (full_map cnts n))) (nth r cnts 0).
Proof.
  intros Hs Hc Hsum H1 Hr [S V].
  pose proof (zsum_le cnts r Hc Hr) as ZL.
  assert (FN : nth r (full_map cnts n) 0 = if nth r cnts 0 =? 0 then 0 else n).
  { unfold full_map. rewrite nth_indep with (d':=(fun c => if c =? 0 then 0 else n) 0) by (rewrite map_length; auto). now rewrite (map_nth (fun c => if c =? 0 then 0 else n)). }
  rewrite FN. split; [auto|]. split; [destruct (Z.eqb_spec (nth r cnts 0) 0); lia|].
  intros idx LI Hi Hcs. rewrite S. destruct (Z.eqb_spec (nth r cnts 0) 0) as [E|E]; [lia|].
  assert (E1 : nth r cnts 0 = 1) by lia. assert (Z0 : zsum (firstn r cnts) = 0) by lia. rewrite E1, Z0 in *.
  rewrite V.
  - unfold move_axis_idx. f_equal. apply (@nth_ext2 _ _ _ 0).
    { rewrite upd_length, !clamp_length; rewrite ?upd_length; lia. }
    intros i Hi'. rewrite upd_length, clamp_length in Hi' by (rewrite upd_length; lia).
    rewrite (clamp_nth gsh) by (rewrite ?upd_length; lia). destruct (Nat.eq_dec i s) as [->|N].
    + rewrite upd_same by (rewrite clamp_length; rewrite ?upd_length; lia). rewrite clamp_nth by (rewrite ?upd_length; lia).
      rewrite upd_same by lia. rewrite H1. simpl. lia.
    + rewrite !upd_other by auto. rewrite clamp_nth by (rewrite ?upd_length; lia). now rewrite upd_other.
  - apply in_bounds_upd_shape; auto. rewrite clamp_length by (rewrite ?upd_length; lia).
    split; [auto|]. split.
    + rewrite clamp_nth by (rewrite ?upd_length; lia). rewrite upd_same by lia. simpl. lia.
    + intros k Hk N. rewrite clamp_nth by (rewrite ?upd_length; lia). rewrite upd_other by auto.
      specialize (Hi k Hk N). destruct (Z.eqb_spec (nth k gsh 0) 1); lia.
Qed.

(** * slabs *)
Lemma slabs_length {A} s (t : arr A) : length (slabs s t) = Z.to_nat (nth s (ash t) 0).
Proof. unfold slabs. now rewrite map_length, seq_length. Qed.
Lemma slabs_nth {A} s (t : arr A) i d : (i < Z.to_nat (nth s (ash t) 0%Z))%nat ->
  nth i (slabs s t) d = fun idx => adat t (upd idx s (Z.of_nat i)).
Proof. intros H. unfold slabs. now rewrite (@nth_map_seq _ _ (Z.to_nat (nth s (ash t) 0))). Qed.
Lemma psum_zsum l : Forall (fun c => 0 <= c) l -> forall r, Z.of_nat (psum (map Z.to_nat l) r) = zsum (firstn r l).
Proof.
  induction 1 as [|c l Hc H IH]; intros [|r]; try reflexivity. simpl map. rewrite psum_cons. cbn [firstn].
  change (zsum (c :: firstn r l)) with (c + zsum (firstn r l)). rewrite <- IH. lia.
Qed.
Lemma lsum_zsum l : Forall (fun c => 0 <= c) l -> Z.of_nat (list_sum (map Z.to_nat l)) = zsum l.
Proof.
  induction 1 as [|c l Hc H IH]; [reflexivity|]. simpl map. rewrite list_sum_cons.
  change (zsum (c :: l)) with (c + zsum l). lia.
Qed.

Lemma redistribute_nd_ok {A} (dflt : A) (x : dnd A) (G : list Z -> A) cnts s tmap :
  represents G (d_gshape x) (Some s) cnts (d_locals x) -> (0 < length cnts)%nat ->
  length tmap = length cnts -> Forall (fun c => 0 <= c) tmap -> zsum tmap = zsum cnts ->
  exists y, redistribute_nd dflt x s tmap = Ok y /\ d_gshape y = d_gshape x /\ d_split y = d_split x /\
    represents G (d_gshape x) (Some s) tmap (d_locals y).
Proof.
  intros HR HP LT HT ST. destruct HR as (HL & Hn & Hs & Hc & Hsum & HR).
  set (gsh := d_gshape x) in *. set (ls := d_locals x) in *. set (d := map (slabs s) ls).
  assert (LN : lens d = map Z.to_nat cnts).
  { unfold lens, d. rewrite map_map. apply (@nth_ext2 _ _ _ 0%nat); [now rewrite !map_length|].
    intros r Hr. rewrite map_length in Hr. destruct (nth_error ls r) as [t|] eqn:E; [|apply nth_error_None in E; lia].
    erewrite nth_error_nth; [|rewrite nth_error_map, E; reflexivity].
    destruct (nth_error cnts r) as [c|] eqn:Ec; [|apply nth_error_None in Ec; lia].
    erewrite nth_error_nth; [|rewrite nth_error_map, Ec; reflexivity].
    rewrite slabs_length. destruct (HR r t E) as [-> _]. rewrite upd_same by auto. now rewrite (nth_error_nth _ _ _ Ec). }
  assert (LD : length d = length cnts) by (unfold d; now rewrite map_length).
  assert (GL : length (glob d) = Z.to_nat (nth s gsh 0)).
  { rewrite glob_length, LN. apply Nat2Z.inj. rewrite lsum_zsum, Hsum by auto. rewrite Forall_forall in Hn. rewrite Z2Nat.id; auto. apply Hn, nth_In; auto. }
  destruct (redistribute_ok_lemma d (map Z.to_nat tmap)) as (d' & E & EG & EL).
  { now rewrite map_length, LT, LD. }
  { apply Nat2Z.inj. rewrite lsum_zsum by auto. rewrite ST, GL, Hsum. rewrite Forall_forall in Hn. rewrite Z2Nat.id; auto. apply Hn, nth_In; auto. }
  unfold redistribute_nd. fold ls gsh d. replace (length ls) with (length d) by (rewrite LD; auto). rewrite E. cbn [bind].
  eexists. split; [reflexivity|]. cbn [d_gshape d_split d_locals]. split; [auto|]. split; [auto|].
  assert (LD' : length d' = length tmap) by (rewrite <- (lens_length d'), EL, map_length; auto).
  split; [now rewrite map_length|]. split; [auto|]. split; [auto|]. split; [auto|]. split; [now rewrite ST|].
  intros r t Ht. rewrite nth_error_map in Ht. destruct (nth_error d' r) as [l|] eqn:El; [|discriminate]. injection Ht as <-.
  assert (Hr : (r < length tmap)%nat) by (rewrite <- LD'; apply nth_error_Some; congruence).
  assert (Ell : Z.of_nat (length l) = nth r tmap 0).
  { assert (H : nth r (lens d') 0%nat = length l) by (unfold lens; erewrite nth_error_nth; [|rewrite nth_error_map, El; reflexivity]; auto).
    rewrite EL in H. rewrite nth_indep with (d':=Z.to_nat 0) in H by (rewrite map_length; auto). rewrite map_nth in H.
    rewrite <- H. rewrite Z2Nat.id; auto. rewrite Forall_forall in HT. apply HT, nth_In; auto. }
  split; [cbn [ash unslabs]; unfold unslabs; cbn [ash]; now rewrite Ell|].
  intros idx Hi. unfold unslabs. cbn [adat]. apply in_bounds_upd_shape in Hi as (LI & Hcs & Hi); auto.
  set (i := Z.to_nat (nth s idx 0)). assert (Hil : (i < length l)%nat) by (unfold i; lia).
  replace l with (nth r d' []) by (now apply nth_error_nth). rewrite <- glob_nth by (rewrite (nth_error_nth _ _ _ El); auto).
  rewrite EL, EG. set (z := zsum (firstn r tmap) + nth s idx 0).
  pose proof (zsum_le tmap r HT Hr) as ZL.
  assert (Ez : (psum (map Z.to_nat tmap) r + i)%nat = Z.to_nat z).
  { apply Nat2Z.inj. rewrite Nat2Z.inj_add, psum_zsum by auto. unfold i, z. lia. }
  rewrite Ez.
  assert (Hz : 0 <= z < zsum cnts) by (unfold z; lia).
  pose proof (owner_spec cnts z Hc Hz) as OS. destruct (owner cnts z) as [p y]. destruct OS as (Hp & Ey & Hy).
  destruct (nth_error ls p) as [tp|] eqn:Etp; [|apply nth_error_None in Etp; lia].
  destruct (HR p tp Etp) as [S1 S2].
  assert (Edp : nth p d [] = slabs s tp) by (unfold d; apply nth_error_nth; rewrite nth_error_map, Etp; reflexivity).
  assert (Lsl : Z.to_nat (nth s (ash tp) 0) = Z.to_nat (nth p cnts 0)) by (rewrite S1, upd_same by auto; auto).
  replace (Z.to_nat z) with (psum (lens d) p + Z.to_nat y)%nat.
  2:{ rewrite LN. apply Nat2Z.inj. rewrite Nat2Z.inj_add, psum_zsum by auto. lia. }
  rewrite glob_nth by (rewrite Edp, slabs_length; lia). rewrite Edp, slabs_nth by lia.
  rewrite Z2Nat.id by lia. rewrite S2.
  - unfold move_axis_idx. rewrite upd_upd, upd_same by lia. do 2 f_equal. unfold z in Ey. lia.
  - apply in_bounds_upd_shape; auto. rewrite upd_length, upd_same by lia. split; [auto|]. split; [lia|].
    intros k Hk N. rewrite upd_other; auto.
Qed.
