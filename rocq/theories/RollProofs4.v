(** rot90: proofs. *)
From Verif Require Import Base BaseLemmas LayoutModel LayoutProofs TensorSpec NdSpec TensorLemmas NdLemmas OpsModel OpsProofs2 OpsProofs3 OpsProofs4 RedistModel RedistProofs ShapeSpec ShapeModel ShapeProofs ShapeProofs3 ShapeProofs4 ShapeProofs5 ShapeProofs6 BinModel BinProofs BinProofs2 SlabLemmas RollSpec RollModel RollProofs RollProofs2 RollProofs3.
Open Scope Z_scope.

Section Rot.
Context {A : Type} (dflt : A).
Lemma flip_int_ok (x : dnd A) (G : list Z -> A) cnts a :
  let n := length (d_gshape x) in
  represents G (d_gshape x) (d_split x) cnts (d_locals x) -> (0 < length cnts)%nat -> valid_axis n a ->
  exists y cnts', flip dflt x (AxInt a) = Some (Ok y) /\ d_gshape y = d_gshape x /\ d_split y = d_split x /\
    length cnts' = length cnts /\
    represents (fun idx => G (flip_src (d_gshape x) [norm n a] idx)) (d_gshape x) (d_split x) cnts' (d_locals y).
Proof.
  intros n HR HP HV. assert (Hn : (0 < n)%nat) by (unfold valid_axis in HV; lia).
  destruct (flip_ok dflt x G cnts (AxInt a) [a] HR HP Hn) as (y & E & Eg & Es & R); auto.
  - intros b [<-|[]]; auto.
  - cbn. constructor; [easy|constructor].
  - exists y. eexists. split; [exact E|]. split; [auto|]. split; [auto|]. split; [|exact R].
    destruct (d_split x) as [s|]; auto. destruct (in_dec _ _ _); auto. destruct (_ <? _)%nat; auto.
    unfold zcounts, counts_of. now rewrite !map_length, seq_length.
Qed.

Definition other (p0 p1 s : nat) : nat := if (s =? p0)%nat then p1 else if (s =? p1)%nat then p0 else s.
Lemma swap_swap (p0 p1 : nat) (l : list Z) : (p0 < length l)%nat -> (p1 < length l)%nat -> swap_list 0 p0 p1 (swap_list 0 p0 p1 l) = l.
Proof.
  intros H0 H1. apply (@nth_ext2 _ _ _ 0); [now rewrite !swap_length|]. rewrite !swap_length. intros k Hk.
  assert (B : forall k, (k < length l)%nat -> ((if k =? p0 then p1 else if k =? p1 then p0 else k) < length l)%nat).
  { intros j Hj. destruct (j =? p0)%nat; [auto|]. destruct (j =? p1)%nat; auto. }
  rewrite !swap_nth by (rewrite ?swap_length; auto). f_equal.
  destruct (Nat.eqb_spec k p0) as [->|N0].
  - destruct (Nat.eqb_spec p1 p0); auto. now rewrite Nat.eqb_refl.
  - destruct (Nat.eqb_spec k p1) as [->|N1]; [now rewrite Nat.eqb_refl|].
    destruct (Nat.eqb_spec k p0); [lia|]. destruct (Nat.eqb_spec k p1); [lia|auto].
Qed.
Lemma swap_bounds p0 p1 sh idx : (p0 < length sh)%nat -> (p1 < length sh)%nat ->
  in_bounds sh idx -> in_bounds (swap_list 0 p0 p1 sh) (swap_list 0 p0 p1 idx).
Proof.
  intros H0 H1 H. apply in_bounds_nth in H as [L B]. apply in_bounds_nth. rewrite !swap_length. split; [auto|].
  intros k Hk. rewrite !swap_nth by lia. apply B. destruct (k =? p0)%nat; [auto|]. destruct (k =? p1)%nat; auto.
Qed.
Lemma swapaxes_G (x : dnd A) (G : list Z -> A) cnts a1 a2 :
  let n := length (d_gshape x) in
  represents G (d_gshape x) (d_split x) cnts (d_locals x) -> valid_axis n a1 -> valid_axis n a2 ->
  let p1 := norm n a1 in let p2 := norm n a2 in
  exists y, swapaxes x a1 a2 = Ok y /\
    d_gshape y = swap_list 0 p1 p2 (d_gshape x) /\
    d_split y = option_map (other p1 p2) (d_split x) /\
    represents (fun idx => G (swap_list 0 p1 p2 idx)) (d_gshape y) (d_split y) cnts (d_locals y).
Proof.
  intros n HR V1 V2 p1 p2. destruct (swapaxes_ok x G cnts a1 a2 HR V1 V2) as (y & G' & E & Eg & Es & R & I).
  fold n p1 p2 in Eg, Es, I. pose proof (norm_lt _ _ V1) as L1. pose proof (norm_lt _ _ V2) as L2. fold p1 in L1. fold p2 in L2.
  exists y. split; [auto|]. split; [auto|]. split; [auto|]. eapply represents_ext; [|exact R].
  intros idx Hi. rewrite Eg in Hi. pose proof (in_bounds_length _ _ Hi) as Li. rewrite swap_length in Li. fold n in Li.
  rewrite <- I.
  - rewrite swap_swap by lia. auto.
  - rewrite <- (swap_swap p1 p2 (d_gshape x)) by (fold n; lia). apply swap_bounds; rewrite ?swap_length; auto.
Qed.

Lemma rot90_ok (x : dnd A) (G : list Z -> A) cnts k a0 a1 :
  let n := length (d_gshape x) in let p0 := norm n a0 in let p1 := norm n a1 in
  represents G (d_gshape x) (d_split x) cnts (d_locals x) -> (0 < length cnts)%nat ->
  valid_axis n a0 -> valid_axis n a1 -> p0 <> p1 ->
  let m := turns (Z.to_nat (k mod 4)) p0 p1 (d_gshape x, G) in
  exists y cnts', rot90 dflt x k a0 a1 = Some (Ok y) /\ d_gshape y = fst m /\
    d_split y = (if Z.even k then d_split x else option_map (other p0 p1) (d_split x)) /\
    represents (snd m) (d_gshape y) (d_split y) cnts' (d_locals y).
Proof.
  intros n p0 p1 HR HP V0 V1 N m. pose proof (norm_lt _ _ V0) as L0. pose proof (norm_lt _ _ V1) as L1.
  fold p0 in L0. fold p1 in L1. unfold rot90. fold n.
  replace ((a0 =? a1) || (Z.abs (a0 - a1) =? Z.of_nat n)) with false.
  2:{ symmetry. unfold p0, p1, norm, valid_axis in *. destruct (Z.ltb_spec a0 0), (Z.ltb_spec a1 0); lia. }
  replace ((Z.of_nat n <=? a0) || (a0 <? - Z.of_nat n) || (Z.of_nat n <=? a1) || (a1 <? - Z.of_nat n)) with false
    by (symmetry; unfold valid_axis in *; lia).
  assert (SW : forall y : dnd A, length (d_gshape y) = n -> 
     transpose y (Some (map Z.of_nat (upd (upd (seq 0 n) p0 (nth p1 (seq 0 n) 0%nat)) p1 (nth p0 (seq 0 n) 0%nat)))) = swapaxes y a0 a1).
  { intros y Ly. unfold swapaxes. rewrite Ly. rewrite !py_pos_ok by auto. reflexivity. }
  rewrite !py_pos_ok by auto. fold p0 p1.
  assert (HE : Z.even k = Z.even (k mod 4)).
  { rewrite (Z.div_mod k 4) at 1 by lia. rewrite Z.even_add, Z.even_mul. cbn. destruct (Z.even (k mod 4)); reflexivity. }
  pose proof (Z.mod_pos_bound k 4 ltac:(lia)) as HK. rewrite HE. unfold m. clear m. set (km := k mod 4) in *. clearbody km.
  assert (HC : km = 0 \/ km = 1 \/ km = 2 \/ km = 3) by lia. clear HK.
  destruct HC as [->|[->|[->| ->]]].
  - exists x, cnts. cbn. auto.
  - change (1 =? 0) with false. change (1 =? 2) with false. change (1 =? 1) with true. cbv iota.
    destruct (flip_int_ok x G cnts a1 HR HP V1) as (y & cnts' & -> & Eg & Es & Lc & R). cbn [bindo]. fold n p1 in R.
    rewrite SW by (rewrite Eg; auto). rewrite <- Eg, <- Es in R.
    destruct (swapaxes_G y _ cnts' a0 a1 R) as (z & Ez & Egz & Esz & Rz); [rewrite Eg; auto|rewrite Eg; auto|].
    rewrite Eg in Egz, Esz, Rz. fold n p0 p1 in Egz, Esz, Rz. rewrite Ez. exists z, cnts'. split; [auto|].
    change (Z.to_nat 1) with 1%nat. cbn [turns turn fst snd Z.even]. split; [exact Egz|]. split; [now rewrite Esz, Es|].
    eapply represents_ext; [|exact Rz]. intros idx Hi. cbv beta. f_equal.
    pose proof (in_bounds_length _ _ Hi) as Li. rewrite Egz, swap_length in Li. fold n in Li.
    apply (@nth_ext2 _ _ _ 0); [now rewrite flip_src_length, !upd_length, Li|]. rewrite flip_src_length. fold n. intros j Hj.
    rewrite flip_src_nth by auto. rewrite swap_nth by lia. destruct (in_dec Nat.eq_dec j [p1]) as [[<-|[]]|I].
    + rewrite Nat.eqb_refl. replace (p1 =? p0)%nat with false by (symmetry; apply Nat.eqb_neq; auto). rewrite upd_same by (rewrite upd_length; lia). auto.
    + assert (j <> p1) by (intros ->; apply I; cbn; auto). rewrite upd_other by auto.
      destruct (Nat.eqb_spec j p0) as [->|N0]; [now rewrite upd_same by lia|].
      replace (j =? p1)%nat with false by (symmetry; apply Nat.eqb_neq; auto). now rewrite upd_other by auto.
  - change (2 =? 0) with false. change (2 =? 2) with true. cbv iota.
    destruct (flip_int_ok x G cnts a0 HR HP V0) as (y & cnts' & -> & Eg & Es & Lc & R). cbn [bindo]. fold n p0 in R.
    rewrite <- Eg, <- Es in R. destruct (flip_int_ok y _ cnts' a1 R) as (z & cnts'' & -> & Egz & Esz & Lcz & Rz); [lia|rewrite Eg; auto|].
    rewrite Eg in Rz, Egz. fold n p1 in Rz. exists z, cnts''. split; [auto|].
    change (Z.to_nat 2) with 2%nat. cbn [turns turn fst snd Z.even].
    assert (ES : d_gshape z = upd (upd (upd (upd (d_gshape x) p0 (nth p1 (d_gshape x) 0)) p1 (nth p0 (d_gshape x) 0)) p0
          (nth p1 (upd (upd (d_gshape x) p0 (nth p1 (d_gshape x) 0)) p1 (nth p0 (d_gshape x) 0)) 0)) p1
          (nth p0 (upd (upd (d_gshape x) p0 (nth p1 (d_gshape x) 0)) p1 (nth p0 (d_gshape x) 0)) 0)).
    { rewrite Egz. symmetry. apply (swap_swap p0 p1 (d_gshape x)); auto. }
    split; [exact ES|]. split; [congruence|]. rewrite Egz, Esz.
    eapply represents_ext; [|exact Rz]. intros idx Hi. cbv beta. f_equal.
    pose proof (in_bounds_length _ _ Hi) as Li. fold n in Li.
    apply (@nth_ext2 _ _ _ 0); [now rewrite flip_src_length, !upd_length, Li|]. rewrite flip_src_length. fold n. intros j Hj.
    rewrite flip_src_nth by auto. rewrite flip_src_nth by auto.
    destruct (Nat.eq_dec j p1) as [->|N1].
    + destruct (in_dec Nat.eq_dec p1 [p0]) as [[E|[]]|_]; [congruence|]. destruct (in_dec Nat.eq_dec p1 [p1]) as [_|I]; [|exfalso; apply I; cbn; auto].
      rewrite upd_same by (rewrite !upd_length; lia). rewrite (upd_other (upd idx p0 _)) by auto. rewrite upd_same by lia. reflexivity.
    + destruct (in_dec Nat.eq_dec j [p1]) as [[E|[]]|_]; [congruence|]. rewrite upd_other by auto.
      destruct (in_dec Nat.eq_dec j [p0]) as [[<-|[]]|I].
      * rewrite upd_same by (rewrite !upd_length; lia). rewrite (upd_same (upd idx p0 _)) by (rewrite !upd_length; lia).
        rewrite upd_same by (rewrite upd_length; auto). reflexivity.
      * assert (j <> p0) by (intros ->; apply I; cbn; auto). now rewrite !upd_other by auto.
  - change (3 =? 0) with false. change (3 =? 2) with false. change (3 =? 1) with false. cbv iota.
    rewrite SW by auto.
    destruct (swapaxes_G x _ cnts a0 a1 HR) as (y & -> & Eg & Es & R); auto. fold n p0 p1 in Eg, Es, R.
    assert (Ln : length (d_gshape y) = n) by (rewrite Eg, swap_length; auto).
    destruct (flip_int_ok y _ cnts a1 R) as (z & cnts' & -> & Egz & Esz & Lc & Rz); [auto|rewrite Ln; auto|].
    rewrite Ln in Rz. fold p1 in Rz. exists z, cnts'. split; [auto|].
    change (Z.to_nat 3) with 3%nat. cbn [turns turn fst snd Z.even]. rewrite Egz, Esz.
    assert (ES : d_gshape y = swap_list 0 p0 p1 (swap_list 0 p0 p1 (swap_list 0 p0 p1 (d_gshape x)))) by (rewrite swap_swap by (rewrite ?swap_length; auto); exact Eg).
    split; [exact ES|]. split; [auto|]. eapply represents_ext; [|exact Rz]. intros idx Hi. cbv beta. f_equal.
    pose proof (in_bounds_length _ _ Hi) as Li. rewrite Ln in Li. fold (swap_list 0 p0 p1 (d_gshape x)). fold (swap_list 0 p0 p1 (swap_list 0 p0 p1 (d_gshape x))).
    rewrite swap_swap by auto.
    assert (T0 : forall l v, length l = n -> nth p0 (upd (upd l p0 (nth p1 l 0)) p1 v) 0 = nth p1 l 0)
      by (intros; rewrite upd_other by auto; apply upd_same; lia).
    assert (T1 : forall l v w, length l = n -> nth p1 (upd (upd l p0 w) p1 v) 0 = v)
      by (intros; apply upd_same; rewrite upd_length; lia).
    apply (@nth_ext2 _ _ _ 0); [now rewrite swap_length, flip_src_length, !upd_length, Li|]. rewrite swap_length, flip_src_length, Ln. intros j Hj.
    rewrite swap_nth by (rewrite flip_src_length; lia).
    destruct (Nat.eqb_spec j p0) as [->|N0].
    + rewrite flip_src_nth by lia. destruct (in_dec Nat.eq_dec p1 [p1]) as [_|I]; [|exfalso; apply I; cbn; auto].
      rewrite ?T0, ?T1, ?T0 by (rewrite ?upd_length; lia). rewrite Eg. reflexivity.
    + destruct (Nat.eqb_spec j p1) as [->|N1].
      * rewrite flip_src_nth by lia. destruct (in_dec Nat.eq_dec p0 [p1]) as [[E|[]]|_]; [congruence|].
        rewrite ?T1, ?T0, ?T1 by (rewrite ?upd_length; lia). rewrite swap_nth by (fold n; lia). rewrite Nat.eqb_refl.
        destruct (Nat.eqb_spec p1 p0); [congruence|]. rewrite upd_other by auto. rewrite upd_same by (rewrite !upd_length; lia). lia.
      * rewrite flip_src_nth by lia. destruct (in_dec Nat.eq_dec j [p1]) as [[E|[]]|_]; [congruence|]. now rewrite !upd_other by auto.
Qed.
End Rot.
