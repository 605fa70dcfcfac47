(** From n-dimensional distributed arrays to lists of slabs and back. *)
From Verif Require Import Base BaseLemmas LayoutModel LayoutProofs TensorSpec NdSpec TensorLemmas NdLemmas OpsModel OpsProofs2 OpsProofs3 OpsProofs4 RedistModel RedistProofs ShapeSpec ShapeModel ShapeProofs ShapeProofs3 ShapeProofs4 BinModel BinProofs.
Open Scope Z_scope.

Lemma slabs_view {A} (G : list Z -> A) gsh s cnts ls :
  represents G gsh (Some s) cnts ls ->
  lens (map (slabs s) ls) = map Z.to_nat cnts /\
  length (glob (map (slabs s) ls)) = Z.to_nat (nth s gsh 0) /\
  forall z idx df, (0 <= z < nth s gsh 0) -> length idx = length gsh ->
    (forall k, (k < length gsh)%nat -> k <> s -> 0 <= nth k idx 0 < nth k gsh 0) ->
    nth (Z.to_nat z) (glob (map (slabs s) ls)) df idx = G (upd idx s z).
Proof.
  intros (HL & Hn & Hs & Hc & Hsum & HR). set (d := map (slabs s) ls).
  assert (LN : lens d = map Z.to_nat cnts).
  { unfold lens, d. rewrite map_map. apply (@nth_ext2 _ _ _ 0%nat); [now rewrite !map_length|].
    intros r Hr. rewrite map_length in Hr. destruct (nth_error ls r) as [t|] eqn:E; [|apply nth_error_None in E; lia].
    erewrite nth_error_nth; [|rewrite nth_error_map, E; reflexivity].
    destruct (nth_error cnts r) as [c|] eqn:Ec; [|apply nth_error_None in Ec; lia].
    erewrite nth_error_nth; [|rewrite nth_error_map, Ec; reflexivity].
    rewrite slabs_length. destruct (HR r t E) as [-> _]. rewrite upd_same by auto. now rewrite (nth_error_nth _ _ _ Ec). }
  split; [auto|]. split.
  { rewrite glob_length, LN. apply Nat2Z.inj. rewrite lsum_zsum, Hsum by auto. rewrite Forall_forall in Hn. rewrite Z2Nat.id; auto. apply Hn, nth_In; auto. }
  intros z idx df Hz LI Hi. rewrite <- Hsum in Hz.
  pose proof (owner_spec cnts z Hc Hz) as OS. destruct (owner cnts z) as [p y]. destruct OS as (Hp & Ey & Hy).
  destruct (nth_error ls p) as [tp|] eqn:Etp; [|apply nth_error_None in Etp; lia].
  destruct (HR p tp Etp) as [S1 S2].
  assert (Edp : nth p d [] = slabs s tp) by (unfold d; apply nth_error_nth; rewrite nth_error_map, Etp; reflexivity).
  assert (Lsl : Z.to_nat (nth s (ash tp) 0) = Z.to_nat (nth p cnts 0)) by (rewrite S1, upd_same by auto; auto).
  replace (Z.to_nat z) with (psum (lens d) p + Z.to_nat y)%nat.
  2:{ rewrite LN. apply Nat2Z.inj. rewrite Nat2Z.inj_add, psum_zsum by auto. lia. }
  rewrite glob_nth by (rewrite Edp, slabs_length; lia). rewrite Edp, slabs_nth by lia.
  rewrite Z2Nat.id by lia. rewrite S2.
  - unfold move_axis_idx. rewrite upd_upd, upd_same by lia. do 2 f_equal. lia.
  - apply in_bounds_upd_shape; auto. rewrite upd_length, upd_same by lia. split; [auto|]. split; [lia|].
    intros k Hk N. rewrite upd_other; auto.
Qed.

Lemma unslabs_represents {A} (dflt : A) (G : list Z -> A) gsh s cnts (d : dist (list Z -> A)) :
  Forall (fun n => 0 <= n) gsh -> (s < length gsh)%nat -> Forall (fun c => 0 <= c) cnts -> zsum cnts = nth s gsh 0 ->
  lens d = map Z.to_nat cnts ->
  (forall idx z, in_bounds gsh (upd idx s z) -> (s < length idx)%nat ->
     nth (Z.to_nat z) (glob d) (fun _ => dflt) idx = G (upd idx s z)) ->
  represents G gsh (Some s) cnts (map (unslabs dflt s gsh) d).
Proof.
  intros Hn Hs HT Hsum EL HG.
  assert (LD' : length d = length cnts) by (rewrite <- (lens_length d), EL, map_length; auto).
  split; [now rewrite map_length|]. split; [auto|]. split; [auto|]. split; [auto|]. split; [auto|].
  intros r t Ht. rewrite nth_error_map in Ht. destruct (nth_error d r) as [l|] eqn:El; [|discriminate]. injection Ht as <-.
  assert (Hr : (r < length cnts)%nat) by (rewrite <- LD'; apply nth_error_Some; congruence).
  assert (Ell : Z.of_nat (length l) = nth r cnts 0).
  { assert (H : nth r (lens d) 0%nat = length l) by (unfold lens; erewrite nth_error_nth; [|rewrite nth_error_map, El; reflexivity]; auto).
    rewrite EL in H. rewrite nth_indep with (d':=Z.to_nat 0) in H by (rewrite map_length; auto). rewrite map_nth in H.
    rewrite <- H. rewrite Z2Nat.id; auto. rewrite Forall_forall in HT. apply HT, nth_In; auto. }
  split; [unfold unslabs; cbn [ash]; now rewrite Ell|].
  intros idx Hi. unfold unslabs. cbn [adat]. apply in_bounds_upd_shape in Hi as (LI & Hcs & Hi); auto.
  set (i := Z.to_nat (nth s idx 0)). assert (Hil : (i < length l)%nat) by (unfold i; lia).
  replace l with (nth r d []) by (now apply nth_error_nth). rewrite <- glob_nth by (rewrite (nth_error_nth _ _ _ El); auto).
  rewrite EL. set (z := zsum (firstn r cnts) + nth s idx 0).
  pose proof (zsum_le cnts r HT Hr) as ZL.
  assert (Ez : (psum (map Z.to_nat cnts) r + i)%nat = Z.to_nat z).
  { apply Nat2Z.inj. rewrite Nat2Z.inj_add, psum_zsum by auto. unfold i, z. lia. }
  rewrite Ez. unfold move_axis_idx. replace (nth s idx 0 + zsum (firstn r cnts)) with z by (unfold z; lia).
  apply HG; [|lia]. apply in_bounds_nth. rewrite upd_length. split; [auto|]. intros k Hk.
  destruct (Nat.eq_dec k s) as [->|N]; [rewrite upd_same by lia; unfold z; lia | rewrite upd_other by auto; apply Hi; lia].
Qed.
