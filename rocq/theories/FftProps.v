(** C92: one-dimensional Fourier transforms along any axis. *)
From Verif Require Import Base BaseLemmas LayoutModel LayoutProofs NdSpec TensorSpec TensorLemmas NdLemmas OpsModel OpsProofs4 OpsProofs5 RedistModel ShapeSpec ShapeModel ShapeProofs3 ShapeProps ShapeProofs6 BinModel BinProofs BinProofs2 ReshapeModel ReshapeProofs FactoryModel RollProps RepeatSpec RepeatModel RepeatProofs RepeatProofs3 TileModel TileProofs2 BcProps TraceModel FftSpec FftModel.
Open Scope Z_scope.

Section Proofs.
Context {A B : Type} (da : A) (db : B) (F : Z -> list A -> list B).

Lemma lane_ext (G G' : list Z -> A) sh axis idx : (forall j, 0 <= j < nth axis sh 0 -> G (upd idx axis j) = G' (upd idx axis j)) -> lane G sh axis idx = lane G' sh axis idx.
Proof. intros H. unfold lane. apply map_ext_in. intros j Hj. apply H. now apply in_zr. Qed.

Lemma no_zero sh : Forall (fun n => 1 <= n) sh -> existsb (Z.eqb 0) sh = false.
Proof. induction 1 as [|n sh H _ IH]; [reflexivity|]. cbn [existsb]. rewrite IH. destruct (Z.eqb_spec 0 n); [lia|reflexivity]. Qed.
Lemma zero_at sh s : (s < length sh)%nat -> nth s sh 0 = 0 -> existsb (Z.eqb 0) sh = true.
Proof. intros H E. apply existsb_exists. exists (nth s sh 0). split; [now apply nth_In|]. rewrite E. reflexivity. Qed.

(** transform along an axis that is not cut *)
Lemma fft_local_ok (x : dnd A) cnts (G : list Z -> A) n a : rep x cnts G -> (a < length (d_gshape x))%nat -> Forall (fun n => 1 <= n) (d_gshape x) -> 1 <= n -> d_split x <> Some a ->
  exists y, fft_local db F n a x = Ok y /\ d_gshape y = upd (d_gshape x) a n /\ d_split y = d_split x /\ length (d_locals y) = length (d_locals x) /\
    rep y cnts (transformed db (F n) (d_gshape x) a G).
Proof.
  intros HX Ha HE Hn NS. unfold fft_local. pose proof HX as HX'. unfold rep in HX'. destruct (d_split x) as [s|] eqn:Es.
  - destruct HX' as (HL & NN & Hs & C & SM & Q). assert (Nsa : s <> a) by congruence.
    destruct (all_ok_Qn (fun t => if existsb (Z.eqb 0) (ash t) then Ok (mk_arr (upd (upd (d_gshape x) a n) s 0) (fun _ => db)) else Ok (torch_fft db F n a t))
      (fun r t => agrees t (upd (upd (d_gshape x) a n) s (nth r cnts 0)) (fun idx => transformed db (F n) (d_gshape x) a G (move_axis_idx s (zsum (firstn r cnts)) idx))) (d_locals x)) as (ls & E1 & E2 & E3).
    { intros r t Ht. destruct (Q r t Ht) as [S0 D0]. assert (Hr : (r < length cnts)%nat) by (rewrite <- HL; apply nth_error_Some; congruence).
      assert (C0 : 0 <= nth r cnts 0) by (rewrite Forall_forall in C; apply C, nth_In; auto). destruct (Z.eq_dec (nth r cnts 0) 0) as [Z0|Z0].
      - rewrite (zero_at (ash t) s); [|rewrite S0, upd_length; auto|rewrite S0, upd_same; auto]. eexists. split; [reflexivity|]. rewrite Z0. split; [reflexivity|]. intros idx Hi. apply in_bounds_nth in Hi as [_ Hi]. specialize (Hi s). rewrite !upd_length, upd_same in Hi by (rewrite upd_length; auto). specialize (Hi Hs). lia.
      - rewrite no_zero; [|rewrite S0; apply Forall_upd; [auto|lia]]. eexists. split; [reflexivity|]. split; [cbn [torch_fft ash]; rewrite S0; now rewrite upd_comm by auto|].
        intros idx Hi. cbn [torch_fft adat]. pose proof (in_bounds_length _ _ Hi) as LI. rewrite !upd_length in LI. unfold transformed. unfold move_axis_idx at 1. rewrite upd_other by auto. f_equal. f_equal. unfold lane. rewrite S0, upd_other by auto. apply map_ext_in. intros j Hj. apply in_zr in Hj.
        rewrite D0. { f_equal. unfold move_axis_idx. rewrite upd_other by auto. apply upd_comm; auto. }
        apply in_bounds_nth in Hi as [_ Hi]. rewrite !upd_length in Hi. apply in_bounds_nth. rewrite !upd_length. split; [auto|]. intros k Hk. specialize (Hi k Hk). destruct (Nat.eq_dec k a) as [->|Nk].
        + rewrite upd_same by lia. rewrite upd_other by auto. lia.
        + assert (EU : nth k (upd idx a j) 0 = nth k idx 0) by (apply upd_other; auto). rewrite EU. destruct (Nat.eq_dec k s) as [->|Nks]; [rewrite upd_same in * by (rewrite ?upd_length; auto); auto|]. rewrite !upd_other in Hi by auto. rewrite upd_other by auto. auto. }
    rewrite E1. cbn [bind]. eexists. split; [reflexivity|]. split; [reflexivity|]. split; [reflexivity|]. split; [exact E2|]. unfold rep. cbn [d_gshape d_split d_locals].
    split; [lia|]. split; [apply Forall_upd; [auto|lia]|]. split; [rewrite upd_length; auto|]. split; [auto|]. split; [rewrite upd_other by auto; auto|]. exact E3.
  - destruct HX' as (HL & NN & Q).
    destruct (all_ok_Qn (fun t => if existsb (Z.eqb 0) (ash t) then Err TypeError else Ok (torch_fft db F n a t))
      (fun r t => agrees t (upd (d_gshape x) a n) (transformed db (F n) (d_gshape x) a G)) (d_locals x)) as (ls & E1 & E2 & E3).
    { intros r t Ht. destruct (Q t (nth_error_In _ _ Ht)) as [S0 D0]. rewrite no_zero by (rewrite S0; auto). eexists. split; [reflexivity|]. split; [cbn [torch_fft ash]; now rewrite S0|].
      intros idx Hi. cbn [torch_fft adat]. unfold transformed, lane. rewrite S0. pose proof (in_bounds_length _ _ Hi) as LI. rewrite upd_length in LI. f_equal. f_equal. apply map_ext_in. intros j Hj. apply in_zr in Hj. apply D0.
      apply in_bounds_nth in Hi as [_ Hi]. rewrite upd_length in Hi. apply in_bounds_nth. rewrite upd_length. split; [auto|]. intros k Hk. specialize (Hi k Hk). destruct (Nat.eq_dec k a) as [->|Nk]; [rewrite upd_same by lia; lia|]. rewrite upd_other in * by auto. auto. }
    rewrite E1. cbn [bind]. eexists. split; [reflexivity|]. split; [reflexivity|]. split; [reflexivity|]. split; [exact E2|]. unfold rep. cbn [d_gshape d_split d_locals].
    split; [lia|]. split; [apply Forall_upd; [auto|lia]|]. intros t Ht. apply In_nth_error in Ht as [r Ht]. apply (E3 r t Ht).
Qed.
(** one process *)
Lemma fft_one_ok (x : dnd A) cnts (G : list Z -> A) n a : rep x cnts G -> (a < length (d_gshape x))%nat -> Forall (fun n => 1 <= n) (d_gshape x) -> 1 <= n -> d_split x = Some a -> length (d_locals x) = 1%nat ->
  exists y, fft_local db F n a x = Ok y /\ d_gshape y = upd (d_gshape x) a n /\ d_split y = d_split x /\ length (d_locals y) = length (d_locals x) /\
    rep y [n] (transformed db (F n) (d_gshape x) a G).
Proof.
  intros HX Ha HE Hn Es H1. pose proof HX as HX'. unfold rep in HX'. rewrite Es in HX'. destruct HX' as (HL & NN & Hs & C & SM & Q). destruct (d_locals x) as [|t [|]] eqn:EL; cbn in H1; try lia. destruct cnts as [|c [|]]; cbn in HL; try lia. destruct (Q 0%nat t eq_refl) as [S0 D0]. cbn [nth firstn] in S0, D0. unfold zsum in SM. cbn in SM. rewrite Z.add_0_r in SM. rewrite SM, upd_self in S0, D0.
  unfold fft_local. rewrite EL, Es. cbn [map all_ok]. rewrite no_zero by (rewrite S0; auto). cbn [bind]. eexists. split; [reflexivity|]. split; [reflexivity|]. split; [reflexivity|]. split; [reflexivity|]. unfold rep. cbn [d_gshape d_split d_locals].
  split; [reflexivity|]. split; [apply Forall_upd; [auto|lia]|]. split; [rewrite upd_length; auto|]. split; [constructor; [lia|constructor]|]. split; [rewrite upd_same by auto; unfold zsum; cbn; lia|].
  intros [|r] t' Ht'; [|destruct r; discriminate Ht']. injection Ht' as <-. cbn [nth firstn]. rewrite upd_upd. split; [cbn [torch_fft ash]; now rewrite S0|]. intros idx Hi. cbn [torch_fft adat]. unfold move_axis_idx. change (zsum []) with 0. rewrite Z.add_0_r, upd_self. unfold transformed, lane. rewrite S0. pose proof (in_bounds_length _ _ Hi) as LI. rewrite upd_length in LI. f_equal. f_equal. apply map_ext_in. intros j Hj. apply in_zr in Hj. rewrite D0.
  - f_equal. unfold move_axis_idx. change (zsum []) with 0. rewrite Z.add_0_r. apply upd_self.
  - apply in_bounds_nth in Hi as [_ Hi]. rewrite upd_length in Hi. apply in_bounds_nth. rewrite upd_length. split; [auto|]. intros k Hk. specialize (Hi k Hk). destruct (Nat.eq_dec k a) as [->|Nk]; [rewrite upd_same by lia; lia|]. rewrite upd_other in * by auto. auto.
Qed.
End Proofs.
Lemma swap_upd a (l : list Z) v : (a < length l)%nat -> swap_list 0 0 a (upd l a v) = upd (swap_list 0 0 a l) 0 v.
Proof.
  intros H. apply (@nth_ext2 _ _ _ 0); [now rewrite swap_length, !upd_length, swap_length|]. intros k Hk. rewrite swap_length, upd_length in Hk. rewrite swap_nth by (rewrite ?upd_length; lia).
  destruct (Nat.eq_dec k 0) as [->|N0].
  - rewrite (@upd_same _ (swap_list 0 0 a l)) by (rewrite swap_length; lia). cbn [Nat.eqb]. now rewrite upd_same.
  - rewrite (@upd_other _ (swap_list 0 0 a l)) by auto. rewrite swap_nth by lia. destruct (Nat.eqb_spec k 0); [lia|]. destruct (Nat.eqb_spec k a) as [->|Na]; [now rewrite upd_other by auto|]. now rewrite upd_other by auto.
Qed.

Lemma swap_upd' a (l : list Z) v : (a < length l)%nat -> swap_list 0 0 a (upd l 0 v) = upd (swap_list 0 0 a l) a v.
Proof.
  intros H. rewrite <- (swap_swap a (upd (swap_list 0 0 a l) a v)) by (rewrite upd_length, swap_length; auto). rewrite swap_upd by (rewrite swap_length; auto). now rewrite swap_swap.
Qed.
Lemma swap_at0 a (l : list Z) : (a < length l)%nat -> nth 0 (swap_list 0 0 a l) 0 = nth a l 0.
Proof. intros H. rewrite swap_nth by lia. reflexivity. Qed.
Lemma swap_Forall a (l : list Z) (Q : Z -> Prop) : (a < length l)%nat -> Forall Q l -> Forall Q (swap_list 0 0 a l).
Proof. intros H HF. rewrite Forall_forall in HF. apply Forall_nth. intros k d Hk. rewrite swap_length in Hk. rewrite (nth_indep _ d 0) by (rewrite swap_length; auto). rewrite swap_nth by lia. apply HF, nth_In. destruct (Nat.eqb_spec k 0), (Nat.eqb_spec k a); lia. Qed.
Lemma swap_zero (l : list Z) : (0 < length l)%nat -> swap_list 0 0 0 l = l.
Proof. intros H. apply (@nth_ext2 _ _ _ 0); [apply swap_length|]. intros k Hk. rewrite swap_length in Hk. rewrite swap_nth by lia. destruct k; reflexivity. Qed.

(** transpose, or nothing when the axis is already the first one *)
Lemma maybe_swap {A} (x : dnd A) (G : list Z -> A) cnts a : rep x cnts G -> (a < length (d_gshape x))%nat ->
  exists y G', (if (a =? 0)%nat then Ok x else transpose x (Some (axes01 a (length (d_gshape x))))) = Ok y /\ d_gshape y = swap_list 0 0 a (d_gshape x) /\
    d_split y = option_map (fun k => if (k =? 0)%nat then a else if (k =? a)%nat then 0%nat else k) (d_split x) /\
    rep y cnts G' /\ forall idx, in_bounds (d_gshape x) idx -> G' (swap_list 0 0 a idx) = G idx.
Proof.
  intros HX Ha. destruct (Nat.eqb_spec a 0) as [->|Na].
  - exists x, G. split; [reflexivity|]. split; [now rewrite swap_zero|]. split; [destruct (d_split x) as [[|k]|]; reflexivity|]. split; [auto|]. intros idx Hi. apply in_bounds_length in Hi. rewrite swap_zero by lia. reflexivity.
  - exact (swap_transposed x G cnts a HX Ha).
Qed.

Lemma zcounts_one n : 0 <= n -> zcounts n 1 = [n].
Proof. intros H. unfold zcounts, counts_of. cbn [seq map]. rewrite Nat.div_1_r, Nat.mod_1_r. cbn. rewrite Nat.add_0_r, Z2Nat.id by auto. reflexivity. Qed.

Section Main.
Context {A B : Type} (da : A) (db : B) (F : Z -> list A -> list B).

Lemma fft_along_ok (x : dnd A) cnts (G : list Z -> A) n a : rep x cnts G -> (a < length (d_gshape x))%nat -> Forall (fun n => 1 <= n) (d_gshape x) -> 1 <= n -> d_split x = Some a -> (0 < length (d_locals x))%nat ->
  exists y,
    (do x1 <- (if (a =? 0)%nat then Ok x else transpose x (Some (axes01 a (length (d_gshape x)))));
     do y <- fft_local db F n 0 (resplit da x1 (if (1 <? length (d_gshape x))%nat then Some 1%nat else None));
     if (a =? 0)%nat then Ok (resplit db y (Some 0%nat)) else transpose (resplit db y (Some 0%nat)) (Some (axes01 a (length (d_gshape x))))) = Ok y /\
    d_gshape y = upd (d_gshape x) a n /\ d_split y = Some a /\ rep y (zcounts n (length (d_locals x))) (transformed db (F n) (d_gshape x) a G).
Proof.
  intros HX Ha HE Hn Es HP. set (nd := length (d_gshape x)). assert (HC : length cnts = length (d_locals x)) by (unfold rep in HX; rewrite Es in HX; destruct HX; auto).
  destruct (maybe_swap x G cnts a HX Ha) as (x1 & G1 & E1 & S1 & P1 & R1 & D1). fold nd in E1. rewrite E1. cbn [bind]. rewrite Es in P1. cbn [option_map] in P1. rewrite Nat.eqb_refl in P1.
  assert (P1' : d_split x1 = Some 0%nat) by (rewrite P1; destruct (Nat.eqb_spec a 0); [now subst|reflexivity]). clear P1.
  set (b := if (1 <? nd)%nat then Some 1%nat else None). assert (Nb : oeqb (d_split x1) b = false) by (rewrite P1'; unfold b; destruct (1 <? nd)%nat; reflexivity).
  destruct (to_split_ok da x1 G1 cnts b R1 ltac:(lia)) as (S2 & P2 & L2 & c2 & R2 & LC2 & _ & _).
  { intros k Hk. unfold b in Hk. destruct (Nat.ltb_spec 1 nd); [|discriminate]. injection Hk as <-. rewrite S1, swap_length. fold nd. lia. }
  unfold to_split in S2, P2, L2, R2. rewrite Nb in S2, P2, L2, R2. set (x2 := resplit da x1 b) in *.
  assert (R2' : rep x2 c2 G1) by (unfold rep; rewrite S2, P2; exact R2).
  destruct (fft_local_ok db F x2 c2 G1 n 0 R2') as (y & E3 & S3 & P3 & L3 & R3).
  { rewrite S2, S1, swap_length. fold nd. lia. } { rewrite S2, S1. now apply swap_Forall. } { auto. } { rewrite P2. unfold b. destruct (1 <? nd)%nat; discriminate. }
  rewrite E3. cbn [bind].
  assert (Nb' : oeqb (d_split y) (Some 0%nat) = false) by (rewrite P3, P2; unfold b; destruct (1 <? nd)%nat; reflexivity).
  destruct (to_split_ok db y _ c2 (Some 0%nat) R3 ltac:(lia)) as (S4 & P4 & L4 & c4 & R4 & LC4 & _ & Z4).
  { intros k Hk. injection Hk as <-. rewrite S3, upd_length, S2, S1, swap_length. fold nd. lia. }
  unfold to_split in S4, P4, L4, R4. rewrite Nb' in S4, P4, L4, R4. set (y2 := resplit db y (Some 0%nat)) in *.
  specialize (Z4 0%nat eq_refl). rewrite Z4 in R4 by (intros X; rewrite <- X in Nb'; discriminate Nb'). clear Z4.
  set (G3 := transformed db (F n) (d_gshape x2) 0 G1) in *.
  assert (SH : d_gshape y2 = swap_list 0 0 a (upd (d_gshape x) a n)) by (rewrite S4, S3, S2, S1, swap_upd; auto).
  assert (R4' : rep y2 (zcounts n (length (d_locals x))) G3).
  { unfold rep. rewrite S4, P4. rewrite LC2, HC in R4. rewrite S3 in R4 at 2. rewrite upd_same in R4 by (rewrite S2, S1, swap_length; fold nd; lia). exact R4. }
  destruct (maybe_swap y2 G3 _ a R4') as (z & G5 & E5 & S5 & P5 & R5 & D5). { rewrite SH, swap_length, upd_length. auto. }
  exists z. replace (length (d_gshape y2)) with nd in E5 by (rewrite SH, swap_length, upd_length; reflexivity). rewrite E5.
  assert (S5' : d_gshape z = upd (d_gshape x) a n) by (rewrite S5, SH, swap_swap by (rewrite upd_length; auto); reflexivity).
  split; [reflexivity|]. split; [exact S5'|]. assert (P5' : d_split z = Some a) by (rewrite P5, P4; reflexivity). split; [exact P5'|].
  unfold rep in *. rewrite S5', P5' in *. revert R5. apply represents_ext. intros idx Hi. pose proof (in_bounds_length _ _ Hi) as LI. rewrite upd_length in LI.
  assert (B0 : in_bounds (d_gshape y2) (swap_list 0 0 a idx)) by (rewrite SH; apply swap_bounds; [rewrite upd_length; auto|auto]).
  rewrite <- (swap_swap a idx) at 1 by lia. rewrite D5 by exact B0. unfold G3, transformed. rewrite swap_at0 by lia. f_equal. f_equal. unfold lane. rewrite S2, S1, swap_at0 by auto. apply map_ext_in. intros j Hj. apply in_zr in Hj.
  rewrite <- swap_upd by lia. apply D1. apply in_bounds_nth in Hi as [_ Hi]. rewrite upd_length in Hi. apply in_bounds_nth. rewrite upd_length. split; [auto|]. intros k Hk. specialize (Hi k Hk). destruct (Nat.eq_dec k a) as [->|Nk]; [rewrite upd_same by lia; lia|]. rewrite upd_other in * by auto. auto.
Qed.

(** C92.  The balanced layout along the transformed axis is needed because the out-of-place resplit is only right for it (C17). *)
Theorem C92_fft (x : dnd A) cnts (G : list Z -> A) (n : option Z) (axis : Z) :
  rep x cnts G -> (0 < length (d_locals x))%nat -> Forall (fun n => 1 <= n) (d_gshape x) ->
  let nd := Z.of_nat (length (d_gshape x)) in
  - nd <= axis < nd ->
  let a := Z.to_nat (axis mod nd) in
  let m := match n with Some n => n | None => nth a (d_gshape x) 0 end in
  1 <= m ->
  (d_split x = Some a -> (1 < length (d_locals x))%nat -> cnts = zcounts (nth a (d_gshape x) 0) (length (d_locals x))) ->
  exists y cy, fft da db F n axis x = Ok y /\ d_gshape y = upd (d_gshape x) a m /\ d_split y = d_split x /\
    rep y cy (transformed db (F m) (d_gshape x) a G) /\
    (d_split x <> Some a -> cy = cnts) /\ (d_split x = Some a -> cy = zcounts m (length (d_locals x))).
Proof.
  intros HX HP HE nd Hax a m Hm HB. assert (Ha : (a < length (d_gshape x))%nat) by (unfold a; pose proof (Z.mod_pos_bound axis nd ltac:(lia)); lia).
  unfold fft. destruct (Nat.eqb_spec (length (d_gshape x)) 0) as [E0|_]; [lia|].
  destruct (sanitize_int (length (d_gshape x)) axis) as (b & -> & Hb); [exact Hax|]. cbn [bind]. replace (Z.to_nat b) with a.
  2:{ rewrite Hb. unfold norm, a. fold nd. f_equal. destruct (Z.ltb_spec axis 0); [rewrite <- (Z_mod_plus_full axis 1 nd), Z.mod_small; lia|apply Z.mod_small; lia]. }
  fold m. destruct (d_split x) as [s|] eqn:Es.
  - destruct (Nat.eqb_spec s a) as [->|Ns].
    + unfold is_dist. rewrite Es. destruct (Nat.ltb_spec 1 (length (d_locals x))) as [H1|H1]; cbn [negb orb].
      * destruct (fft_along_ok x cnts G m a HX Ha HE Hm Es HP) as (y & E1 & E2 & E3 & E4). exists y, (zcounts m (length (d_locals x))). split; [exact E1|]. split; [auto|]. split; [auto|]. split; [auto|]. split; [congruence|auto].
      * destruct (fft_one_ok db F x cnts G m a HX Ha HE Hm Es ltac:(lia)) as (y & E1 & E2 & E3 & _ & E4). exists y, [m]. split; [exact E1|]. split; [auto|]. split; [congruence|]. split; [auto|]. split; [congruence|]. intros _. replace (length (d_locals x)) with 1%nat by lia. symmetry. apply zcounts_one. lia.
    + replace (negb (is_dist x) || negb false)%bool with true by (cbn; now rewrite orb_true_r).
      destruct (fft_local_ok db F x cnts G m a HX Ha HE Hm ltac:(congruence)) as (y & E1 & E2 & E3 & _ & E4). exists y, cnts. split; [exact E1|]. split; [auto|]. split; [congruence|]. split; [auto|]. split; [auto|congruence].
  - replace (negb (is_dist x) || negb false)%bool with true by (cbn; now rewrite orb_true_r).
    destruct (fft_local_ok db F x cnts G m a HX Ha HE Hm ltac:(congruence)) as (y & E1 & E2 & E3 & _ & E4). exists y, cnts. split; [exact E1|]. split; [auto|]. split; [congruence|]. split; [auto|]. split; [auto|congruence].
Qed.
End Main.

Theorem C92_errors {A B} (da : A) (db : B) F (x : dnd A) n axis :
  (d_gshape x = [] -> fft da db F n axis x = Err TypeError) /\
  (forall nd, nd = Z.of_nat (length (d_gshape x)) -> 0 < nd -> ~ (- nd <= axis < nd) -> exists e, fft da db F n axis x = Err e).
Proof.
  split; [intros E; unfold fft; rewrite E; reflexivity|]. intros nd -> Hn Hax. unfold fft. destruct (Nat.eqb_spec (length (d_gshape x)) 0) as [E0|N0]; [lia|].
  unfold sanitize_axis. destruct (Nat.eqb_spec (length (d_gshape x)) 0) as [E0|_]; [lia|].
  destruct ((0 <=? axis) && (axis <? Z.of_nat (length (d_gshape x)))) eqn:E; [lia|]. cbv zeta.
  destruct (((if axis <? 0 then axis + Z.of_nat (length (d_gshape x)) else axis) <? 0) || (Z.of_nat (length (d_gshape x)) <=? (if axis <? 0 then axis + Z.of_nat (length (d_gshape x)) else axis))) eqn:E'; [cbn [bind]; eauto|].
  destruct (axis <? 0) eqn:Ea; lia.
Qed.

Lemma zr_nth n k : (k < Z.to_nat n)%nat -> nth k (zr n) 0 = Z.of_nat k.
Proof. intros H. unfold zr. rewrite (nth_indep _ 0 (Z.of_nat 0)) by (rewrite map_length, seq_length; auto). rewrite map_nth, seq_nth by auto. reflexivity. Qed.
(** a transform followed by its inverse along the same axis *)
Lemma inverse_lane {A B} (da : A) (db : B) (F : Z -> list A -> list B) (I : Z -> list B -> list A) sh a G idx m :
  (forall l, Z.of_nat (length l) = m -> Z.of_nat (length (F m l)) = m) -> (forall l, Z.of_nat (length l) = m -> I m (F m l) = l) ->
  (a < length sh)%nat -> nth a sh 0 = m -> in_bounds sh idx ->
  transformed da (I m) sh a (transformed db (F m) sh a G) idx = G idx.
Proof.
  intros HL HI Ha Hm Hi. pose proof (in_bounds_length _ _ Hi) as LI. apply in_bounds_nth in Hi as [_ Hi]. specialize (Hi a Ha).
  assert (LL : Z.of_nat (length (lane G sh a idx)) = m) by (unfold lane; rewrite map_length, length_zr; lia).
  unfold transformed at 1. replace (lane (transformed db (F m) sh a G) sh a idx) with (F m (lane G sh a idx)).
  - rewrite HI by auto. unfold lane. rewrite (nth_indep _ da (G (upd idx a 0))) by (rewrite map_length, length_zr; lia). rewrite (map_nth (fun j => G (upd idx a j))). rewrite zr_nth by lia. rewrite Z2Nat.id by lia. now rewrite upd_self.
  - apply (@nth_ext2 _ _ _ db); [specialize (HL _ LL); unfold lane at 2; rewrite map_length, length_zr; lia|]. intros k Hk. specialize (HL _ LL). unfold lane at 2. rewrite (nth_indep (map _ _) db (transformed db (F m) sh a G (upd idx a 0))) by (rewrite map_length, length_zr; lia).
    rewrite (map_nth (fun j => transformed db (F m) sh a G (upd idx a j))). rewrite zr_nth by lia. unfold transformed. rewrite upd_same by lia. rewrite Nat2Z.id. f_equal. f_equal. unfold lane. apply map_ext. intros j. now rewrite upd_upd.
Qed.
Theorem C92_roundtrip {A B} (da : A) (db : B) (F : Z -> list A -> list B) (I : Z -> list B -> list A) (x : dnd A) cnts (G : list Z -> A) (axis : Z) :
  rep x cnts G -> (0 < length (d_locals x))%nat -> Forall (fun n => 1 <= n) (d_gshape x) ->
  let nd := Z.of_nat (length (d_gshape x)) in
  - nd <= axis < nd ->
  let a := Z.to_nat (axis mod nd) in
  let m := nth a (d_gshape x) 0 in
  (d_split x = Some a -> (1 < length (d_locals x))%nat -> cnts = zcounts m (length (d_locals x))) ->
  (forall l, Z.of_nat (length l) = m -> Z.of_nat (length (F m l)) = m /\ I m (F m l) = l) ->
  exists y z cz, fft da db F None axis x = Ok y /\ fft db da I None axis y = Ok z /\ d_gshape z = d_gshape x /\ d_split z = d_split x /\ rep z cz G /\ length cz = length cnts.
Proof.
  intros HX HP HE nd Hax a m HB HF. assert (Ha : (a < length (d_gshape x))%nat) by (unfold a; pose proof (Z.mod_pos_bound axis nd ltac:(lia)); lia).
  assert (Hm : 1 <= m) by (rewrite Forall_forall in HE; apply HE, nth_In; auto).
  destruct (C92_fft da db F x cnts G None axis HX HP HE Hax Hm HB) as (y & cy & E1 & S1 & P1 & R1 & C1 & C2). fold nd in S1, R1, C1, C2. fold a in S1, R1, C1, C2. fold m in S1, R1, C2.
  assert (S1' : d_gshape y = d_gshape x) by (rewrite S1; unfold m; apply upd_self).
  assert (LX : forall (T : Type) (u : dnd T) c g, rep u c g -> length c = length (d_locals u)) by (intros T u c g Hu; unfold rep in Hu; destruct (d_split u); destruct Hu; auto).
  assert (LY : length cy = length cnts).
  { destruct (d_split x) as [s|] eqn:Es; [destruct (Nat.eq_dec s a) as [->|Ns]|]; [rewrite C2, (LX _ _ _ _ HX) by auto; destruct (zcounts_ok m (length (d_locals x))); try lia; auto|now rewrite C1 by congruence|now rewrite C1 by congruence]. }
  assert (LL : length (d_locals y) = length (d_locals x)) by (rewrite <- (LX _ _ _ _ R1), LY; eapply LX; eauto).
  assert (X := C92_fft db da I y cy _ None axis R1). cbv zeta in X. rewrite S1', P1, LL in X. fold nd in X. fold a in X. fold m in X.
  destruct (X HP HE Hax Hm) as (z & cz & E2 & S2 & P2 & R2 & D1 & D2).
  { intros Es H1. apply C2; auto. }
  exists y, z, cz. split; [auto|]. split; [auto|]. assert (S2' : d_gshape z = d_gshape x) by (rewrite S2; unfold m; apply upd_self). split; [auto|]. split; [auto|].
  split. { unfold rep in *. rewrite S2', P2 in *. revert R2. apply represents_ext. intros idx Hi. apply inverse_lane; auto; intros l Hl; apply HF; auto. }
  destruct (d_split x) as [s|] eqn:Es; [destruct (Nat.eq_dec s a) as [->|Ns]|]; [rewrite D2, (LX _ _ _ _ HX) by auto; destruct (zcounts_ok m (length (d_locals x))); try lia; auto|now rewrite D1 by congruence|now rewrite D1 by congruence].
Qed.

(** instance: two processes, a 3x2 array split along axis 0, F reverses each lane (padded to n) *)
Definition revF (n : Z) (l : list Z) : list Z := rev (firstn (Z.to_nat n) (l ++ repeat 0 (Z.to_nat n))).
Definition gx (idx : list Z) : Z := 10 * nth 0 idx 0 + nth 1 idx 0.
Definition fx : dnd Z := b_arr (cutg [3; 2] gx 0 [2; 1] None).
Definition fx1 : dnd Z := b_arr (cutg [3; 2] gx 1 [1; 1] None).
Example C92_hyps : exists y cy, fft 0 0 revF (Some 4) (-2) fx = Ok y /\ d_gshape y = [4; 2] /\ rep y cy (transformed 0 (revF 4) [3; 2] 0 gx) /\ cy = [2; 2].
Proof.
  destruct (C92_fft 0 0 revF fx [2; 1] gx (Some 4) (-2)) as (y & cy & E & S1 & P1 & R1 & _ & C2).
  - apply cutg_rep; try (repeat constructor; cbn; lia).
  - cbn. lia.
  - repeat constructor; lia.
  - cbn. lia.
  - lia.
  - intros _ _. reflexivity.
  - exists y, cy. split; [exact E|]. split; [exact S1|]. split; [exact R1|]. now apply C2.
Qed.
Example C92_values : match fft 0 0 revF (Some 4) 0 fx with Ok y => map flat (d_locals y) | _ => [] end = [[0; 0; 20; 21]; [10; 11; 0; 1]] /\
  match fft 0 0 revF None 1 fx1 with Ok y => map flat (d_locals y) | _ => [] end = [[1; 11; 21]; [0; 10; 20]].
Proof. split; vm_compute; reflexivity. Qed.

(** the full claim has no condition that the array is not empty: a replicated array without elements raises
    TypeError (NumPy, PyTorch: an empty result) *)
Theorem C92_empty_refuted : exists (x : dnd Z) G, rep x [0] G /\ d_gshape x = [0; 2] /\ d_split x = None /\ fft 0 0 revF None 1 x = Err TypeError.
Proof. exists (b_arr (replg 1 [0; 2] gx None)), gx. split; [apply replg_rep; [repeat constructor; lia|reflexivity]|]. split; [reflexivity|]. split; [reflexivity|]. vm_compute. reflexivity. Qed.
