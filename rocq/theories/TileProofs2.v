(** tile: repetition along the split axis, local repetition, swapping axes. *)
From Verif Require Import Base BaseLemmas LayoutModel LayoutProofs NdSpec TensorSpec TensorLemmas NdLemmas OpsModel OpsProofs4 OpsProofs5 RedistModel ShapeSpec ShapeModel ShapeProps ShapeProofs6 BinModel BinProofs BinProofs2 SlabLemmas RollModel ReshapeModel ReshapeProofs ReshapeProps RepeatSpec RepeatModel RepeatProofs TileModel TileProofs.
Open Scope Z_scope.

(** * pointwise products and remainders *)
Lemma times_length a b : length a = length b -> length (times a b) = length a.
Proof. intros H. unfold times. rewrite map_length, combine_length. lia. Qed.
Lemma modulo_length a b : length a = length b -> length (modulo_idx a b) = length a.
Proof. intros H. unfold modulo_idx. rewrite map_length, combine_length. lia. Qed.
Lemma times_nth a b k : length a = length b -> nth k (times a b) 0 = nth k a 0 * nth k b 0.
Proof. intros H. unfold times. change 0 with ((fun p => fst p * snd p) (0, 0)) at 1. rewrite map_nth, combine_nth by auto. reflexivity. Qed.
Lemma modulo_nth a b k : length a = length b -> nth k (modulo_idx a b) 0 = nth k a 0 mod nth k b 0.
Proof. intros H. unfold modulo_idx. change 0 with ((fun p => fst p mod snd p) (0, 0)) at 1. rewrite map_nth, combine_nth by auto. reflexivity. Qed.
Lemma times_nonneg a b : length a = length b -> Forall (fun n => 0 <= n) a -> Forall (fun n => 0 <= n) b -> Forall (fun n => 0 <= n) (times a b).
Proof.
  intros L Ha Hb. apply Forall_forall. intros z Hz. apply (In_nth _ _ 0) in Hz as (k & Hk & <-). rewrite times_length in Hk by auto. rewrite times_nth by auto.
  rewrite Forall_forall in Ha, Hb. assert (0 <= nth k a 0) by (apply Ha, nth_In; auto). assert (0 <= nth k b 0) by (apply Hb, nth_In; lia). nia.
Qed.
Lemma modulo_bounds sh reps idx : length sh = length reps -> Forall (fun n => 0 <= n) sh -> in_bounds (times sh reps) idx -> in_bounds sh (modulo_idx idx sh).
Proof.
  intros L Hn H. apply in_bounds_nth in H as [L1 H]. rewrite times_length in * by auto. apply in_bounds_nth. rewrite modulo_length by auto. split; [auto|]. intros i Hi.
  rewrite modulo_nth by auto. specialize (H i Hi). rewrite times_nth in H by auto. rewrite Forall_forall in Hn. assert (0 <= nth i sh 0) by (apply Hn, nth_In; auto).
  apply Z.mod_pos_bound. destruct (Z.eq_dec (nth i sh 0) 0) as [E|]; [rewrite E in H; lia|lia].
Qed.

(** * local repetition *)
Lemma local_tile_ok {A} (G : list Z -> A) gsh sp cnts ls reps :
  represents G gsh sp cnts ls -> length reps = length gsh -> Forall (fun k => 0 <= k) reps -> (forall s, sp = Some s -> nth s reps 0 = 1) ->
  represents (fun idx => G (modulo_idx idx gsh)) (times gsh reps) sp cnts (map (torch_tile reps) ls).
Proof.
  intros (HL & Hn & HX) LR Hr H1. split; [now rewrite map_length|]. split; [now apply times_nonneg|]. destruct sp as [s|].
  - destruct HX as (Hs & Hc & Hsum & HX). rewrite times_length by auto. split; [auto|]. split; [auto|]. specialize (H1 s eq_refl). split; [rewrite times_nth by auto; rewrite H1; lia|].
    intros r t Ht. rewrite nth_error_map in Ht. destruct (nth_error ls r) as [u|] eqn:E; [|discriminate]. injection Ht as <-. destruct (HX r u E) as [E1 E2].
    assert (Hr' : (r < length cnts)%nat) by (rewrite <- HL; apply nth_error_Some; congruence).
    assert (SH : times (upd gsh s (nth r cnts 0)) reps = upd (times gsh reps) s (nth r cnts 0)).
    { apply (@nth_ext2 _ _ _ 0); [rewrite times_length by (rewrite upd_length; auto); rewrite !upd_length; now rewrite times_length|]. intros k Hk. rewrite times_length in Hk by (rewrite upd_length; auto). rewrite upd_length in Hk.
      rewrite times_nth by (rewrite upd_length; auto). destruct (Nat.eq_dec k s) as [->|N]; [rewrite !upd_same by (rewrite ?times_length; auto); rewrite H1; lia|]. rewrite !upd_other by auto. now rewrite times_nth. }
    split; [unfold torch_tile; cbn [ash]; now rewrite E1|]. intros idx Hi. unfold torch_tile. cbn [adat]. rewrite E1.
    assert (LI : length idx = length gsh) by (apply in_bounds_length in Hi; rewrite upd_length, times_length in Hi by auto; auto).
    rewrite <- SH in Hi. rewrite E2.
    2:{ eapply modulo_bounds; [|apply OpsProofs5.Forall_upd; auto; rewrite Forall_forall in Hc; apply Hc, nth_In; auto|exact Hi]. rewrite upd_length; auto. }
    f_equal. apply in_bounds_nth in Hi as [_ Hi]. rewrite times_length, upd_length in Hi by (rewrite upd_length; auto).
    assert (Hi_s := Hi s Hs). rewrite times_nth, upd_same, H1 in Hi_s by (rewrite ?upd_length; auto).
    assert (zsum (firstn r cnts) + nth r cnts 0 <= nth s gsh 0) by (rewrite <- Hsum; apply zsum_le; auto).
    assert (0 <= zsum (firstn r cnts)) by (apply zs_nonneg, Forall_firstn'; auto).
    apply (@nth_ext2 _ _ _ 0); [unfold move_axis_idx; rewrite upd_length, !modulo_length; rewrite ?upd_length; auto|].
    intros k Hk. unfold move_axis_idx in *. rewrite upd_length, modulo_length in Hk by (rewrite upd_length; auto).
    rewrite modulo_nth by (rewrite upd_length; auto). destruct (Nat.eq_dec k s) as [->|N].
    + rewrite !upd_same by (rewrite ?modulo_length; rewrite ?upd_length; lia). rewrite modulo_nth, upd_same by (rewrite ?upd_length; auto). rewrite !Z.mod_small; lia.
    + rewrite !upd_other by auto. rewrite modulo_nth by (rewrite upd_length; lia). rewrite upd_other by auto. rewrite modulo_nth by (rewrite upd_length; lia). now rewrite upd_other by auto.
  - intros t Ht. apply in_map_iff in Ht as (u & <- & I). destruct (HX u I) as [E1 E2]. split; [unfold torch_tile; cbn [ash]; now rewrite E1|].
    intros idx Hi. unfold torch_tile. cbn [adat]. rewrite E1. apply E2. apply (modulo_bounds _ reps); auto.
Qed.
(** a single process holds everything *)
Lemma local_tile_single {A} (G : list Z -> A) gsh s cnts ls reps :
  represents G gsh (Some s) cnts ls -> length cnts = 1%nat -> length reps = length gsh -> Forall (fun k => 0 <= k) reps ->
  represents (fun idx => G (modulo_idx idx gsh)) (times gsh reps) (Some s) [nth s (times gsh reps) 0] (map (torch_tile reps) ls).
Proof.
  intros (HL & Hn & Hs & Hc & Hsum & HX) L1 LR Hr. destruct cnts as [|c [|]]; cbn in L1; try lia. destruct ls as [|t [|]]; cbn in HL; try lia.
  assert (Ec : c = nth s gsh 0) by (rewrite <- Hsum; cbn; lia). destruct (HX 0%nat t eq_refl) as [E1 E2]. cbn [nth firstn] in E1, E2. rewrite Ec, upd_self in E1, E2.
  assert (HN := times_nonneg gsh reps (eq_sym LR) Hn Hr).
  split; [reflexivity|]. split; [auto|]. rewrite times_length by auto. split; [auto|]. split; [repeat constructor; rewrite Forall_forall in HN; apply HN, nth_In; rewrite times_length; auto|]. split; [unfold zsum; cbn; lia|].
  intros [|[|r]] u Hu; cbn in Hu; try (destruct r; discriminate Hu); try discriminate Hu. injection Hu as <-. cbn [nth firstn]. rewrite upd_self. split; [unfold torch_tile; cbn [ash]; now rewrite E1|].
  intros idx Hi. unfold torch_tile. cbn [adat]. rewrite E1, E2 by (apply (modulo_bounds _ reps); auto). unfold move_axis_idx. change (zsum []) with 0. rewrite !Z.add_0_r, !upd_self. reflexivity.
Qed.

(** * repetition along the split axis *)
Lemma tile_split_ok {A} (dflt : A) (x : dnd A) G cnts R junk :
  represents G (d_gshape x) (Some 0%nat) cnts (d_locals x) -> (0 < length cnts)%nat -> 0 <= R ->
  let n := nth 0 (d_gshape x) 0 in (0 < nth 0 cnts 0 \/ n = 0) ->
  represents (fun idx => G (upd idx 0 (nth 0 idx 0 mod n))) (upd (d_gshape x) 0 (n * R)) (Some 0%nat) (zcounts (n * R) (length cnts)) (d_locals (tile_split dflt x R junk)).
Proof.
  intros HR HP HR0 n H0. pose proof HR as (HL & Hn & Hs & Hc & Hsum & _). destruct (slabs_view _ _ _ _ _ HR) as (V1 & V2 & V3). fold n in V2, V3.
  unfold tile_split. cbn [d_locals]. fold n. set (xs := map (slabs 0) (d_locals x)) in *.
  assert (N0 : 0 <= n) by (rewrite Forall_forall in Hn; apply Hn, nth_In; auto).
  assert (LX : length xs = length cnts) by (unfold xs; rewrite map_length; auto).
  assert (SX : list_sum (lens xs) = Z.to_nat n) by (rewrite <- V2; symmetry; apply glob_length).
  assert (HX0 : (0 < nth 0 (lens xs) 0 \/ Z.to_nat n = 0)%nat).
  { destruct H0 as [H0|H0]; [left|right; lia]. rewrite V1. change 0%nat with (Z.to_nat 0) at 3. rewrite map_nth. lia. }
  set (f := fun r => tile_rank xs (Z.to_nat n) (Z.to_nat R) junk r).
  assert (F : forall r, (r < length xs)%nat -> length (f r) = t_count xs (Z.to_nat n) (Z.to_nat R) r /\ forall q dd, (q < t_count xs (Z.to_nat n) (Z.to_nat R) r)%nat -> nth q (f r) dd = nth ((t_start xs (Z.to_nat n) (Z.to_nat R) r + q) mod Z.to_nat n) (glob xs) dd).
  { intros r Hr. split; [apply (tile_rank_ok (fun _ => dflt) xs (Z.to_nat n) (Z.to_nat R) junk ltac:(lia) SX HX0 r Hr)|].
    intros q dd. apply (tile_rank_ok dd xs (Z.to_nat n) (Z.to_nat R) junk ltac:(lia) SX HX0 r Hr). }
  assert (EL : lens (map f (seq 0 (length xs))) = counts_of (Z.to_nat n * Z.to_nat R) (length xs)).
  { apply (@nth_ext2 _ _ _ 0%nat); [now rewrite lens_length, map_length, seq_length, counts_of_length|]. intros r Hr. rewrite lens_length, map_length, seq_length in Hr.
    rewrite lens_nth. rewrite (nth_map_seq f) by auto. now rewrite (proj1 (F r Hr)). }
  replace (map (fun r => unslabs dflt 0 (d_gshape x) (f r)) (seq 0 (length xs))) with (map (unslabs dflt 0 (upd (d_gshape x) 0 (n * R))) (map f (seq 0 (length xs)))).
  2:{ rewrite map_map. apply map_ext. intros r. unfold unslabs. now rewrite upd_upd. }
  assert (EN : Z.to_nat (n * R) = (Z.to_nat n * Z.to_nat R)%nat) by (apply Z2Nat.inj_mul; auto).
  destruct (zcounts_ok (n * R) (length cnts) HP ltac:(nia)) as (Z1 & Z2 & Z3).
  apply unslabs_represents; auto.
  - apply OpsProofs5.Forall_upd; auto. nia.
  - now rewrite upd_length.
  - now rewrite upd_same by auto.
  - rewrite EL. unfold zcounts. rewrite map_map. rewrite EN, LX. etransitivity; [symmetry; apply map_id|]. apply map_ext. intros k. lia.
  - intros idx z Hi HI. assert (LI : length idx = length (d_gshape x)) by (apply in_bounds_length in Hi; now rewrite !upd_length in Hi).
    apply in_bounds_nth in Hi as [_ Hi]. rewrite upd_length in Hi. assert (Hz := Hi 0%nat Hs). rewrite !upd_same in Hz by auto.
    rewrite upd_same, upd_upd by auto. rewrite <- (V3 (z mod n) idx (fun _ => dflt)).
    2:{ apply Z.mod_pos_bound. nia. } 2:auto. 2:{ intros k Hk Nk. specialize (Hi k Hk). now rewrite !upd_other in Hi by auto. }
    match goal with |- ?u idx = ?v idx => assert (u = v) as ->; [|reflexivity] end. (* slab number z *)
    assert (LG : glob (map f (seq 0 (length xs))) = map (fun q => nth (q mod Z.to_nat n) (glob xs) (fun _ => dflt)) (seq 0 (Z.to_nat n * Z.to_nat R))).
    { set (g := map (fun q => nth (q mod Z.to_nat n) (glob xs) (fun _ => dflt)) (seq 0 (Z.to_nat n * Z.to_nat R))).
      assert (GL : length g = (Z.to_nat n * Z.to_nat R)%nat) by (unfold g; now rewrite map_length, seq_length).
      rewrite <- (concat_blocks g (counts_of (Z.to_nat n * Z.to_nat R) (length xs))) by (rewrite counts_of_sum by lia; lia). rewrite counts_of_length. unfold glob. f_equal.
      apply map_ext_in. intros r Hr. apply in_seq in Hr. destruct (F r ltac:(lia)) as [F1 F2]. unfold t_count, t_start in F1, F2.
      set (c := counts_of (Z.to_nat n * Z.to_nat R) (length xs)) in *.
      assert (B : (psum c r + nth r c 0 <= Z.to_nat n * Z.to_nat R)%nat). { rewrite <- psum_S by (unfold c; rewrite counts_of_length; lia). unfold c. rewrite counts_of_psum by lia. rewrite <- (cstart_P (Z.to_nat n * Z.to_nat R) (P := length xs)) at 2 by lia. rewrite <- !counts_of_psum by lia. apply psum_mono. lia. }
      apply (@nth_ext2 _ _ _ (fun _ => dflt)); [rewrite sub_length by lia; exact F1|]. intros q Hq. rewrite F1 in Hq. rewrite F2 by auto. rewrite sub_nth by auto. unfold g. now rewrite (nth_map_seq (fun q => nth (q mod Z.to_nat n) (glob xs) (fun _ => dflt))) by lia. }
    rewrite LG. rewrite (nth_map_seq (fun q => nth (q mod Z.to_nat n) (glob xs) (fun _ => dflt))) by (rewrite <- EN; lia).
    f_equal. rewrite Z2Nat.inj_mod by lia. reflexivity.
Qed.

(** * swapping axes *)
Lemma swap_eq {B} s (l : list B) d : swap s l d = swap_list d 0 s l.
Proof. reflexivity. Qed.
Lemma swap_map_of_nat s n : (s < n)%nat -> swap s (map Z.of_nat (seq 0 n)) 0 = map Z.of_nat (swap_list 0%nat 0 s (seq 0 n)).
Proof.
  intros H. apply (@nth_ext2 _ _ _ (Z.of_nat 0)); [rewrite swap_eq, swap_length, !map_length, swap_length; auto|]. intros k Hk. rewrite swap_eq, swap_length, map_length, seq_length in Hk.
  rewrite map_nth. rewrite swap_eq. change (Z.of_nat 0) with 0. rewrite !swap_nth by (rewrite ?map_length, ?seq_length; lia). change 0 with (Z.of_nat 0) at 1. now rewrite map_nth.
Qed.
Lemma swap_swap s (l : list Z) : (s < length l)%nat -> swap_list 0 0 s (swap_list 0 0 s l) = l.
Proof.
  intros H. apply (@nth_ext2 _ _ _ 0); [now rewrite !swap_length|]. intros k Hk. rewrite !swap_length in Hk.
  rewrite swap_nth by (rewrite ?swap_length; lia).
  assert (D : forall k, (k < length l)%nat -> ((if (k =? 0)%nat then s else if (k =? s)%nat then 0%nat else k) < length l)%nat) by (intros q Hq; destruct (Nat.eqb_spec q 0), (Nat.eqb_spec q s); lia).
  rewrite swap_nth by (try apply D; lia). f_equal. clear D. destruct (Nat.eqb_spec k 0) as [->|N0]; [|destruct (Nat.eqb_spec k s) as [->|Ns]]; repeat match goal with |- context[Nat.eqb ?a ?b] => destruct (Nat.eqb_spec a b) end; lia.
Qed.
Lemma swap_bounds s sh idx : (s < length sh)%nat -> in_bounds sh idx -> in_bounds (swap_list 0 0 s sh) (swap_list 0 0 s idx).
Proof.
  intros H Hi. apply in_bounds_nth in Hi as [L Hi]. apply in_bounds_nth. rewrite !swap_length. split; [auto|]. intros k Hk.
  rewrite !swap_nth by lia. apply Hi. destruct (Nat.eqb_spec k 0), (Nat.eqb_spec k s); lia.
Qed.
Lemma swap_times s a b : length a = length b -> (s < length a)%nat -> swap_list 0 0 s (times a b) = times (swap_list 0 0 s a) (swap_list 0 0 s b).
Proof.
  intros L H. apply (@nth_ext2 _ _ _ 0); [rewrite swap_length, !times_length; rewrite ?swap_length; auto|]. intros k Hk. rewrite swap_length, times_length in Hk by auto.
  rewrite times_nth by (rewrite !swap_length; auto). rewrite !swap_nth by (rewrite ?times_length; lia). now rewrite times_nth.
Qed.
Lemma swap_modulo s a b : length a = length b -> (s < length a)%nat -> swap_list 0 0 s (modulo_idx a b) = modulo_idx (swap_list 0 0 s a) (swap_list 0 0 s b).
Proof.
  intros L H. apply (@nth_ext2 _ _ _ 0); [rewrite swap_length, !modulo_length; rewrite ?swap_length; auto|]. intros k Hk. rewrite swap_length, modulo_length in Hk by auto.
  rewrite modulo_nth by (rewrite !swap_length; auto). rewrite !swap_nth by (rewrite ?modulo_length; lia). now rewrite modulo_nth.
Qed.
Lemma swap_transposed {A} (x : dnd A) (G : list Z -> A) cnts s :
  represents G (d_gshape x) (d_split x) cnts (d_locals x) -> (s < length (d_gshape x))%nat ->
  exists y G', transpose x (Some (swap s (map Z.of_nat (seq 0 (length (d_gshape x)))) 0)) = Ok y /\ d_gshape y = swap_list 0 0 s (d_gshape x) /\
    d_split y = option_map (fun k => if (k =? 0)%nat then s else if (k =? s)%nat then 0%nat else k) (d_split x) /\
    represents G' (d_gshape y) (d_split y) cnts (d_locals y) /\
    forall idx, in_bounds (d_gshape x) idx -> G' (swap_list 0 0 s idx) = G idx.
Proof.
  intros HR Hs. destruct (swapaxes_ok x G cnts 0 (Z.of_nat s) HR ltac:(lia) ltac:(lia)) as (y & G' & E & R).
  unfold norm in R. replace (Z.of_nat s <? 0) with false in R by lia. cbn [Z.ltb Z.compare Z.to_nat] in R. rewrite Nat2Z.id in R.
  exists y, G'. split; [|exact R]. unfold swapaxes in E. rewrite (py_pos_ok _ 0) in E by lia. rewrite py_pos_ok in E by lia. cbn [bind] in E. unfold norm in E. replace (Z.of_nat s <? 0) with false in E by lia. cbn [Z.ltb Z.compare Z.to_nat] in E. rewrite Nat2Z.id in E.
  rewrite swap_map_of_nat by auto. exact E.
Qed.
