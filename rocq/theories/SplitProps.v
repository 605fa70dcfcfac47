(** C42: ht.split cuts the global array at the positions NumPy prescribes. *)
From Verif Require Import Base BaseLemmas LayoutModel LayoutProofs NdSpec TensorSpec TensorLemmas NdLemmas OpsModel OpsProofs2 OpsProofs4 RedistModel RedistProofs ShapeSpec ShapeModel ShapeProofs ShapeProofs2 ShapeProofs3 ShapeProofs4 ShapeProofs5 ShapeProofs6 BinModel BinProofs BinProofs2 ShapeProps RollProofs3 RollProps ReshapeModel ReshapeProofs FactoryModel FactoryProps ConcatSpec ConcatModel ConcatProofs ConcatProofs2 ConcatProofs3 ConcatProps DiagSpec DiagModel DiagProps DiagProofs DiagProps2 DiagProps3 SplitModel SplitSpec SplitProofs.
Open Scope Z_scope.

Lemma balance_nd_ok {A} (dflt : A) (y : dnd A) P cnts H : (0 < P)%nat -> length (d_locals y) = P -> rep y cnts H ->
  exists z, balance_nd dflt y = Ok z /\ d_gshape z = d_gshape y /\ d_split z = d_split y /\ is_rep P z H.
Proof.
  intros HP HL HR. unfold balance_nd. unfold rep in HR. destruct (d_split y) as [s|] eqn:Es.
  - assert (HR' := HR). destruct HR as (LC & NN & Hs & C & SM & Q). set (n := nth s (d_gshape y) 0) in *. rewrite HL.
    destruct (zcounts_ok n P HP) as (Z1 & Z2 & Z3); [unfold n; rewrite Forall_forall in NN; apply NN, nth_In; auto|].
    destruct (eqb_idx (lcounts y s) (zcounts n P)) eqn:EB.
    + apply eqb_idx_eq in EB. unfold lcounts in EB. rewrite (local_counts _ _ _ _ _ HR') in EB. exists y. split; [auto|]. split; [auto|]. split; [auto|]. split; [auto|]. unfold rep, balanced_counts. rewrite Es. fold n. rewrite <- EB. exact HR'.
    + destruct (redistribute_nd_ok dflt y H cnts s (zcounts n P) HR') as (z & E & E1 & E2 & E3); auto; try lia. exists z. rewrite Es in E2. split; [auto|]. split; [auto|]. split; [auto|]. split; [destruct E3; lia|]. unfold rep, balanced_counts. rewrite E2, E1. exact E3.
  - exists y. split; [auto|]. split; [auto|]. split; [auto|]. split; [auto|]. unfold rep, balanced_counts. rewrite Es. destruct HR as (_ & NN & Q). split; [rewrite repeat_length; auto|]. split; auto.
Qed.

Lemma move_move axis s b o idx : axis <> s -> move_axis_idx s o (move_axis_idx axis b idx) = move_axis_idx axis b (move_axis_idx s o idx).
Proof.
  intros N. unfold move_axis_idx. rewrite !upd_other by auto. apply (@nth_ext2 _ _ _ 0); [now rewrite !upd_length|]. intros k Hk. rewrite !upd_length in Hk.
  destruct (Nat.eq_dec k axis) as [->|N1].
  - rewrite upd_other by auto. rewrite !upd_same by (rewrite ?upd_length; auto). auto.
  - destruct (Nat.eq_dec k s) as [->|N2].
    + rewrite upd_same by (rewrite upd_length; auto). rewrite upd_other by auto. rewrite upd_same by auto. auto.
    + rewrite !upd_other by auto. auto.
Qed.
Lemma move_same s a b idx : (s < length idx)%nat -> move_axis_idx s a (move_axis_idx s b idx) = move_axis_idx s (b + a) idx.
Proof. intros H. unfold move_axis_idx. rewrite upd_same by auto. rewrite upd_upd_same. f_equal. lia. Qed.

Section Pieces.
Context {A : Type} (dflt : A) (x : dnd A) (G : list Z -> A) (cnts : list Z) (P : nat) (axis k : nat) (bs : nat -> Z).
Hypothesis HP : (0 < P)%nat.
Hypothesis HL : length (d_locals x) = P.
Hypothesis HR : rep x cnts G.
Hypothesis HX : (axis < length (d_gshape x))%nat.
Hypothesis B0 : bs 0%nat = 0.
Hypothesis BK : bs k = nth axis (d_gshape x) 0.
Hypothesis BM : forall j, (j < k)%nat -> bs j <= bs (S j).
Let gsh := d_gshape x.
Let dum : arr A := mk_arr [] (fun _ => dflt).
Variable parts : list (list (arr A)).
Hypothesis LP : length parts = P.
(** what rank r's piece j must be *)
Definition good_piece (r : nat) (t : arr A) (j : nat) (p : arr A) : Prop :=
  match d_split x with
  | Some s => if Nat.eqb s axis
              then let o := zsum (firstn r cnts) in let c := nth r cnts 0 in
                   agrees p (upd gsh axis (cutp o c (bs (S j)) - cutp o c (bs j))) (fun idx => G (move_axis_idx axis (cutp o c (bs j) + o) idx))
              else p = narrow axis (bs j) (bs (S j) - bs j) t
  | None => p = narrow axis (bs j) (bs (S j) - bs j) t
  end.
Hypothesis GP : forall r t, nth_error (d_locals x) r = Some t -> forall j, (j < k)%nat -> good_piece r t j (nth j (nth r parts []) dum).

Lemma bs_mono j j' : (j <= j')%nat -> (j' <= k)%nat -> bs j <= bs j'.
Proof. induction 1 as [|j' Hj IH]; intros Hk; [lia|]. specialize (BM j' ltac:(lia)). specialize (IH ltac:(lia)). lia. Qed.
Lemma bs_nonneg j : (j <= k)%nat -> 0 <= bs j.
Proof. intros. rewrite <- B0. apply bs_mono; lia. Qed.
Lemma bs_le j : (j <= k)%nat -> bs j <= nth axis gsh 0.
Proof. intros. unfold gsh. rewrite <- BK. apply bs_mono; lia. Qed.

Definition piece_of (j : nat) : res (dnd A) :=
  let ls := map (fun ps => nth j ps dum) parts in
  match d_split x with
  | None => Ok (mk_dnd ls (ash (hd dum ls)) None)
  | Some s => do y <- array_is_split ls s; balance_nd dflt (fst y)
  end.
Lemma ls_nth j r p : nth_error (map (fun ps => nth j ps dum) parts) r = Some p -> exists t, nth_error (d_locals x) r = Some t /\ p = nth j (nth r parts []) dum /\ (r < P)%nat.
Proof.
  intros H. rewrite nth_error_map in H. destruct (nth_error parts r) as [ps|] eqn:E; [|discriminate]. injection H as <-.
  assert (Hr : (r < P)%nat) by (rewrite <- LP; apply nth_error_Some; congruence). destruct (nth_error (d_locals x) r) as [t|] eqn:Et; [|apply nth_error_None in Et; lia].
  exists t. split; [auto|]. split; [|auto]. now rewrite (nth_error_nth _ _ _ E).
Qed.

Lemma piece_ok j : (j < k)%nat -> exists y, piece_of j = Ok y /\ is_piece P (d_split x) gsh axis G (bs j) (bs (S j)) y.
Proof.
  intros Hj. unfold piece_of. set (ls := map (fun ps => nth j ps dum) parts). assert (LL : length ls = P) by (unfold ls; now rewrite map_length).
  set (b := bs j). set (b' := bs (S j)). assert (Bb : 0 <= b) by (apply bs_nonneg; lia). assert (Bbb : b <= b') by (apply BM; auto). assert (Bn : b' <= nth axis gsh 0) by (apply bs_le; lia).
  set (H := fun idx => G (move_axis_idx axis b idx)).
  assert (NNg : Forall (fun n => 0 <= n) gsh) by apply HR.
  assert (NNp : Forall (fun n => 0 <= n) (upd gsh axis (b' - b))).
  { rewrite Forall_forall in *. intros z Hz. apply (In_nth _ _ 0) in Hz as (i & Hi & <-). rewrite upd_length in Hi. destruct (Nat.eq_dec i axis) as [->|N]; [rewrite upd_same by auto; lia|]. rewrite upd_other by auto. apply NNg, nth_In. auto. }
  assert (NB : forall (t : arr A) F sh, length sh = length gsh -> agrees t sh F -> (forall i, (i < length gsh)%nat -> i = axis -> nth i sh 0 = nth i gsh 0) ->
     agrees (narrow axis b (b' - b) t) (upd sh axis (b' - b)) (fun idx => F (move_axis_idx axis b idx))).
  { intros t F sh LS [S0 D0] EX. unfold narrow. split; [cbn [ash]; now rewrite S0|]. intros idx Hi. cbn [adat]. fold (move_axis_idx axis b idx). apply D0.
    apply in_bounds_nth in Hi as [LI Hi]. rewrite upd_length in LI, Hi. apply in_bounds_nth. unfold move_axis_idx. rewrite upd_length. split; [auto|]. intros i Hii. specialize (Hi i Hii). destruct (Nat.eq_dec i axis) as [->|N].
    - rewrite upd_same in Hi by lia. rewrite upd_same by lia. rewrite EX by (auto; lia). lia.
    - rewrite upd_other in Hi by auto. rewrite upd_other by auto. auto. }
  assert (HR' := HR). unfold rep in HR'. fold gsh in HR'. destruct (d_split x) as [s|] eqn:Es.
  - assert (FIN : forall cnts', represents H (upd gsh axis (b' - b)) (Some s) cnts' ls -> exists y, (do y <- array_is_split ls s; balance_nd dflt (fst y)) = Ok y /\ is_piece P (Some s) gsh axis G b b' y).
    { intros cnts' RR. destruct (C55_array_is_split _ _ _ _ _ _ RR ltac:(lia)) as (y & bal & -> & Y1 & Y2 & Y3 & Y4 & _). cbn [bind fst].
      destruct (balance_nd_ok dflt y P cnts' H HP) as (z & E & E1 & E2 & E3); [congruence|auto|]. exists z. split; [auto|]. split; [congruence|]. split; [congruence|]. exact E3. }
    destruct HR' as (LC & _ & Hs & C & SM & Q). destruct (Nat.eq_dec s axis) as [E|N].
    + set (o := fun r => zsum (firstn r cnts)). set (M := fun r => Z.min (o r) b' - Z.min (o r) b). assert (O0 : o 0%nat = 0) by reflexivity. assert (OP : o P = nth axis gsh 0) by (unfold o; rewrite firstn_all2 by lia; congruence).
      assert (OS : forall r, (r < P)%nat -> o (S r) = o r + nth r cnts 0 /\ 0 <= nth r cnts 0 /\ 0 <= o r).
      { intros r Hr. unfold o. rewrite zsum_firstn_S by lia. split; [auto|]. split; [rewrite Forall_forall in C; apply C, nth_In; lia|]. pose proof (zsum_firstn_mono cnts 0 r C ltac:(lia)) as MM. exact MM. }
      assert (M0 : M 0%nat = 0) by (unfold M; rewrite O0; lia).
      apply (FIN (step_counts M P)). split; [rewrite step_counts_length; auto|]. split; [auto|]. rewrite upd_length. split; [fold gsh in HX; rewrite E; auto|]. split; [|split].
      * apply Forall_forall. intros z Hz. apply (In_nth _ _ 0) in Hz as (r & Hr & <-). rewrite step_counts_length in Hr. rewrite step_counts_nth by auto. destruct (OS r Hr) as (O1 & O2 & O3). unfold M. rewrite O1. lia.
      * rewrite <- (firstn_all (step_counts M P)), step_counts_length, step_counts_firstn by lia. rewrite M0. unfold M. rewrite OP, E, upd_same by auto. lia.
      * intros r p Hp. apply ls_nth in Hp as (t & Ht & -> & Hr). specialize (GP r t Ht j Hj). unfold good_piece in GP. rewrite Es, (proj2 (Nat.eqb_eq s axis) E) in GP. cbn zeta in GP. fold (o r) in GP. fold b b' in GP.
        rewrite step_counts_nth, step_counts_firstn by lia. rewrite M0, Z.sub_0_r. destruct (OS r Hr) as (O1 & O2 & O3).
        assert (EL : cutp (o r) (nth r cnts 0) b' - cutp (o r) (nth r cnts 0) b = M (S r) - M r) by (unfold cutp, M; rewrite O1; lia).
        rewrite EL in GP. destruct GP as [S0 D0]. rewrite E, upd_upd_same. split; [exact S0|]. intros idx Hi. rewrite D0 by auto. unfold H. assert (LI := in_bounds_length _ _ Hi). rewrite upd_length in LI. rewrite move_same by (fold gsh in HX; lia). f_equal. f_equal.
        apply in_bounds_nth in Hi as [_ Hi]. rewrite upd_length in Hi. specialize (Hi axis HX). rewrite upd_same in Hi by auto. unfold cutp, M in *. rewrite O1 in Hi. lia.
    + apply (FIN cnts). split; [lia|]. split; [auto|]. rewrite upd_length. split; [auto|]. split; [auto|]. split; [rewrite upd_other by auto; auto|].
      intros r p Hp. apply ls_nth in Hp as (t & Ht & -> & Hr). specialize (GP r t Ht j Hj). unfold good_piece in GP. rewrite Es, (proj2 (Nat.eqb_neq s axis) N) in GP. rewrite GP. fold b b'.
      replace (upd (upd gsh axis (b' - b)) s (nth r cnts 0)) with (upd (upd gsh s (nth r cnts 0)) axis (b' - b)).
      2:{ apply (@nth_ext2 _ _ _ 0); [now rewrite !upd_length|]. intros i Hi. rewrite !upd_length in Hi. destruct (Nat.eq_dec i axis) as [->|N1].
          - rewrite upd_same by (rewrite upd_length; auto). rewrite upd_other by auto. now rewrite upd_same.
          - rewrite upd_other by auto. destruct (Nat.eq_dec i s) as [->|N2]; [rewrite !upd_same by (rewrite ?upd_length; auto); auto|]. rewrite !upd_other by auto. auto. }
      destruct (NB t _ _ ltac:(rewrite upd_length; reflexivity) (Q r t Ht)) as [S0 D0]; [intros i Hi ->; apply upd_other; auto|]. split; [exact S0|]. intros idx Hi. rewrite D0 by auto. unfold H. f_equal. apply move_move; auto.
  - destruct HR' as (LC & _ & Q). assert (AG : forall p, In p ls -> agrees p (upd gsh axis (b' - b)) H).
    { intros p Hp. apply In_nth_error in Hp as [r Hp]. apply ls_nth in Hp as (t & Ht & -> & Hr). specialize (GP r t Ht j Hj). unfold good_piece in GP. rewrite Es in GP. rewrite GP. apply NB; auto. apply Q. eapply nth_error_In; eauto. }
    eexists. split; [reflexivity|]. assert (GS : ash (hd dum ls) = upd gsh axis (b' - b)). { destruct ls as [|p l]; [cbn in LL; lia|]. apply AG. left; auto. }
    split; [exact GS|]. split; [auto|]. split; [exact LL|]. unfold rep. cbn [d_gshape d_split d_locals balanced_counts]. rewrite GS. split; [rewrite repeat_length; auto|]. split; [auto|]. exact AG.
Qed.
Lemma pieces_ok : exists ys, all_ok (map piece_of (seq 0 k)) = Ok ys /\ are_pieces P (d_split x) gsh axis G k bs ys.
Proof.
  destruct (all_ok_Qn piece_of (fun j y => is_piece P (d_split x) gsh axis G (bs j) (bs (S j)) y) (seq 0 k)) as (ys & E & L & Q).
  - intros j j' Hj. assert (Hl : (j < k)%nat) by (rewrite <- (seq_length k 0); apply nth_error_Some; congruence). rewrite (nth_error_nth' _ 0%nat) in Hj by (rewrite seq_length; auto). rewrite seq_nth in Hj by auto. injection Hj as <-. apply piece_ok. auto.
  - exists ys. split; [auto|]. split; [rewrite L, seq_length; auto|auto].
Qed.
End Pieces.

Lemma split_finish {A} (dflt : A) (x : dnd A) G cnts P sec axis k bs : (0 < P)%nat -> length (d_locals x) = P -> rep x cnts G ->
  let nd := length (d_gshape x) in let ax := norm nd axis in valid_axis nd axis ->
  bs 0%nat = 0 -> bs k = nth ax (d_gshape x) 0 -> (forall j, (j < k)%nat -> bs j <= bs (S j)) ->
  match sec with SecInt q => q <> 0 /\ nth ax (d_gshape x) 0 mod q = 0 | SecList _ => True end ->
  (forall r t, nth_error (d_locals x) r = Some t -> exists ps, split_local x sec ax r t = Ok ps /\ length ps = k /\
     forall j, (j < k)%nat -> good_piece x G cnts ax bs r t j (nth j ps (mk_arr [] (fun _ => dflt)))) ->
  exists ys, split_arr dflt x sec axis = Ok ys /\ are_pieces P (d_split x) (d_gshape x) ax G k bs ys.
Proof.
  intros HP HL HR nd ax V B0 BK BM HS HLoc. unfold split_arr. fold nd. destruct (sanitize_int _ _ V) as (az & -> & EA). cbn [bind]. rewrite EA. fold ax.
  assert (AX : (ax < nd)%nat) by (unfold ax, norm, valid_axis in *; destruct (Z.ltb_spec axis 0); lia).
  replace (match sec with SecInt q => _ | SecList _ => Ok tt end) with (@Ok unit tt).
  2:{ destruct sec as [q|]; auto. destruct HS as [H1 H2]. replace (q =? 0) with false by lia. rewrite H2. reflexivity. }
  cbn [bind]. destruct (all_ok_Qn (fun p : nat * arr A => split_local x sec ax (fst p) (snd p))
     (fun r ps => length ps = k /\ forall t, nth_error (d_locals x) r = Some t -> forall j, (j < k)%nat -> good_piece x G cnts ax bs r t j (nth j ps (mk_arr [] (fun _ => dflt)))) (ranked (d_locals x))) as (parts & -> & LP & Q).
  { intros r p Hp. apply ranked_nth in Hp as (E1 & E2 & _). destruct (HLoc r (snd p) E2) as (ps & E & L & GP). exists ps. rewrite E1. split; [auto|]. split; [auto|]. intros t Ht. rewrite E2 in Ht. injection Ht as <-. auto. }
  cbn [bind]. rewrite ranked_length, HL in LP.
  assert (LK : length (hd [] parts) = k). { destruct parts as [|p0 l]; [cbn in LP; lia|]. apply (Q 0%nat p0 eq_refl). }
  rewrite LK. apply (pieces_ok dflt x G cnts P ax k bs HP HL HR AX B0 BK BM parts LP).
  intros r t Ht j Hj. assert (Hr : (r < P)%nat) by (rewrite <- HL; apply nth_error_Some; congruence). destruct (nth_error parts r) as [ps|] eqn:E; [|apply nth_error_None in E; lia].
  rewrite (nth_error_nth _ _ _ E). apply (proj2 (Q r ps E)); auto.
Qed.

Lemma zcounts_nth n P r : 0 <= n -> (r < P)%nat -> nth r (zcounts n P) 0 = n / Z.of_nat P + (if Z.of_nat r <? n mod Z.of_nat P then 1 else 0).
Proof.
  intros Hn Hr. unfold zcounts. rewrite nth_of_nat, counts_of_nth by auto. rewrite clen_val. rewrite Nat2Z.inj_add, Nat2Z.inj_div, Z2Nat.id by auto. f_equal.
  rewrite <- (Z2Nat.id n Hn) at 2. rewrite <- Nat2Z.inj_mod. destruct (Nat.ltb_spec r (Z.to_nat n mod P)), (Z.ltb_spec (Z.of_nat r) (Z.of_nat (Z.to_nat n mod P))); auto; lia.
Qed.
(** a rank whose chunk is not empty and ends at n holds at most max(1, n/P) elements *)
Lemma last_chunk n P r : 0 <= n -> (0 < P)%nat -> (r < P)%nat -> zsum (firstn r (zcounts n P)) + nth r (zcounts n P) 0 = n -> 0 < nth r (zcounts n P) 0 ->
  nth r (zcounts n P) 0 <= Z.max 1 (n / Z.of_nat P) /\ (Z.of_nat P <= n -> (r = P - 1)%nat /\ nth r (zcounts n P) 0 = n / Z.of_nat P).
Proof.
  intros Hn HP Hr HE Hc. destruct (zcounts_ok n P HP Hn) as (LZ & FZ & SZ).
  assert (NXT : (S r < P)%nat -> nth (S r) (zcounts n P) 0 = 0).
  { intros H. assert (HS : zsum (firstn (S (S r)) (zcounts n P)) <= zsum (zcounts n P)) by (apply zsum_firstn_le; auto). rewrite !zsum_firstn_S in HS by lia. rewrite Forall_forall in FZ. specialize (FZ (nth (S r) (zcounts n P) 0) ltac:(apply nth_In; lia)). lia. }
  rewrite zcounts_nth in * by auto. assert (MB := Z.mod_pos_bound n (Z.of_nat P) ltac:(lia)). assert (DP : 0 <= n / Z.of_nat P) by (apply Z.div_pos; lia).
  split.
  - destruct (Z.ltb_spec (Z.of_nat r) (n mod Z.of_nat P)); [|lia]. destruct (Z.eq_dec (n / Z.of_nat P) 0); [lia|]. exfalso. assert (S r < P)%nat by lia. specialize (NXT H0). rewrite zcounts_nth in NXT by auto. destruct (Z.of_nat (S r) <? n mod Z.of_nat P); lia.
  - intros HPn. assert (1 <= n / Z.of_nat P) by (apply Z.div_le_lower_bound; lia). assert (ER : (r = P - 1)%nat).
    { destruct (Nat.eq_dec (S r) P); [lia|]. specialize (NXT ltac:(lia)). rewrite zcounts_nth in NXT by (auto; lia). destruct (Z.of_nat (S r) <? n mod Z.of_nat P); lia. }
    split; [auto|]. destruct (Z.ltb_spec (Z.of_nat r) (n mod Z.of_nat P)); lia.
Qed.

Lemma agrees_empty {A} (t : arr A) sh F axis : (axis < length sh)%nat -> nth axis sh 0 = 0 -> ash t = sh -> agrees t sh F.
Proof. intros HX H0 HS. split; [auto|]. intros idx Hi. exfalso. apply in_bounds_nth in Hi as [_ Hi]. specialize (Hi axis HX). lia. Qed.
Lemma narrow_agrees {A} (t : arr A) gsh axis c o lo len (G : list Z -> A) : (axis < length gsh)%nat -> agrees t (upd gsh axis c) (fun idx => G (move_axis_idx axis o idx)) -> 0 <= lo -> lo + len <= c ->
  agrees (narrow axis lo len t) (upd gsh axis len) (fun idx => G (move_axis_idx axis (lo + o) idx)).
Proof.
  intros HX [S0 D0] H1 H2. split; [unfold narrow; cbn [ash]; now rewrite S0, upd_upd_same|]. intros idx Hi. cbn [narrow adat]. assert (LI := in_bounds_length _ _ Hi). rewrite upd_length in LI. fold (move_axis_idx axis lo idx). rewrite D0.
  - now rewrite move_same by lia.
  - apply in_bounds_nth in Hi as [_ Hi]. rewrite upd_length in Hi. apply in_bounds_nth. unfold move_axis_idx. rewrite !upd_length. split; [auto|]. intros i Hi'. specialize (Hi i Hi'). destruct (Nat.eq_dec i axis) as [->|N]; [rewrite !upd_same in * by lia; lia|rewrite !upd_other in * by auto; auto].
Qed.

(** the extent along [axis] on each rank *)
Lemma local_extent {A} (x : dnd A) cnts G axis r t : rep x cnts G -> (axis < length (d_gshape x))%nat -> nth_error (d_locals x) r = Some t ->
  nth axis (ash t) 0 = match d_split x with Some s => if Nat.eqb s axis then nth r cnts 0 else nth axis (d_gshape x) 0 | None => nth axis (d_gshape x) 0 end.
Proof.
  intros HR HX Ht. unfold rep in HR. destruct (d_split x) as [s|].
  - destruct HR as (_ & _ & Hs & _ & _ & Q). destruct (Q r t Ht) as [-> _]. destruct (Nat.eqb_spec s axis) as [->|N]; [now rewrite upd_same|now rewrite upd_other by auto].
  - destruct HR as (_ & _ & Q). destruct (Q t (nth_error_In _ _ Ht)) as [-> _]. auto.
Qed.

(** ** Equal sections. *)
Theorem C42_sections : forall (A : Type) (dflt : A) (x : dnd A) (G : list Z -> A) (P : nat) (k axis : Z),
  let nd := length (d_gshape x) in let ax := norm nd axis in let n := nth ax (d_gshape x) 0 in
  (0 < P)%nat -> is_rep P x G -> valid_axis nd axis -> 0 < k -> 0 < n -> n mod k = 0 ->
  (d_split x = Some ax -> (1 < P)%nat -> k <= Z.of_nat P \/ n / k = n / Z.of_nat P) ->
  exists ys, split_arr dflt x (SecInt k) axis = Ok ys /\
    are_pieces P (d_split x) (d_gshape x) ax G (Z.to_nat k) (fun j => Z.of_nat j * (n / k)) ys.
Proof.
  intros A dflt x G P k axis nd ax n HP HXR V Hk Hn HM HC. pose proof HXR as [HL HR]. set (cnts := balanced_counts P (d_gshape x) (d_split x)) in *.
  assert (AX : (ax < nd)%nat) by (unfold ax, norm, valid_axis in *; destruct (Z.ltb_spec axis 0); lia).
  set (sz := n / k). assert (EN : n = k * sz) by (unfold sz; apply Z.div_exact; lia). assert (Hsz : 0 < sz) by (apply Z.mul_pos_cancel_l with k; lia).
  apply (split_finish dflt x G cnts P); auto.
  - fold nd ax n. rewrite Z2Nat.id by lia. auto.
  - intros j Hj. apply Z.mul_le_mono_nonneg_r; lia.
  - fold nd ax n. lia.
  - fold nd ax. intros r t Ht. assert (Hr : (r < P)%nat) by (rewrite <- HL; apply nth_error_Some; congruence).
    pose proof (local_extent x cnts G ax r t HR AX Ht) as LE. fold n in LE. unfold split_local, good_piece. rewrite HL. fold n. fold sz.
    assert (HR' := HR). unfold rep in HR'. destruct (d_split x) as [s|] eqn:Es.
    2:{ destruct (torch_split_int_step k sz ax t Hk Hsz) as (ps & E & L & Q); [lia|]. exists ps. split; [auto|]. split; [auto|]. intros j Hj. apply Q. auto. }
    destruct HR' as (LC & NN & Hs & C & SM & Qr). destruct (Nat.eqb_spec s ax) as [ES|NS].
    2:{ cbn [andb]. destruct (torch_split_int_step k sz ax t Hk Hsz) as (ps & E & L & Q); [lia|]. exists ps. split; [auto|]. split; [auto|]. intros j Hj. apply Q. auto. }
    specialize (Qr r t Ht). subst s. set (o := zsum (firstn r cnts)) in *. set (c := nth r cnts 0) in *.
    assert (Hc : 0 <= c) by (rewrite Forall_forall in C; apply C, nth_In; lia). assert (Ho : 0 <= o) by (pose proof (zsum_firstn_mono cnts 0 r C ltac:(lia)) as MM; exact MM).
    assert (Hoc : o + c <= n). { unfold o, c. rewrite <- zsum_firstn_S by lia. fold n in SM. rewrite <- SM. apply zsum_firstn_le; auto. }
    (* pieces by narrowing *)
    assert (NAR : forall ps, length ps = Z.to_nat k -> (forall j d, (j < Z.to_nat k)%nat -> nth j ps d = narrow ax (cutp o c (Z.of_nat j * sz)) (cutp o c (Z.of_nat (S j) * sz) - cutp o c (Z.of_nat j * sz)) t) ->
      forall j, (j < Z.to_nat k)%nat -> agrees (nth j ps (mk_arr [] (fun _ => dflt))) (upd (d_gshape x) ax (cutp o c (Z.of_nat (S j) * sz) - cutp o c (Z.of_nat j * sz))) (fun idx => G (move_axis_idx ax (cutp o c (Z.of_nat j * sz) + o) idx))).
    { intros ps L Q j Hj. rewrite Q by auto. apply (narrow_agrees t (d_gshape x) ax c o); auto; unfold cutp; [assert (0 <= Z.of_nat j * sz) by (apply Z.mul_nonneg_nonneg; lia); lia|]. assert (0 <= Z.of_nat (S j) * sz) by (apply Z.mul_nonneg_nonneg; lia). lia. }
    destruct (Nat.eqb_spec P 1) as [P1|NP1]; cbn [negb andb].
    { assert (r = 0%nat) by lia. subst r. assert (O0 : o = 0) by reflexivity. assert (CN : c = n). { fold n in SM. rewrite <- SM. unfold c. destruct cnts as [|c0 [|]]; cbn [length] in LC; try lia. unfold zsum; cbn; lia. }
      destruct (torch_split_int_step k sz ax t Hk Hsz) as (ps & E & L & Q); [lia|]. exists ps. split; [auto|]. split; [auto|]. apply NAR; auto. intros j d Hj. rewrite Q by auto.
      assert (Z.of_nat (S j) * sz <= k * sz) by (apply Z.mul_le_mono_nonneg_r; lia). assert (0 <= Z.of_nat j * sz) by (apply Z.mul_nonneg_nonneg; lia). assert (Z.of_nat j * sz <= k * sz) by (apply Z.mul_le_mono_nonneg_r; lia). assert (0 <= Z.of_nat (S j) * sz) by (apply Z.mul_nonneg_nonneg; lia).
      f_equal; unfold cutp; lia. }
    assert (CB : cnts = zcounts n P) by reflexivity.
    destruct (Z.eqb_spec (Z.of_nat P) k) as [EK|NK].
    + (* as many sections as processes *)
      eexists. split; [reflexivity|]. split; [rewrite map_length, seq_length; auto|]. intros j Hj. rewrite (nth_indep _ _ (mk_arr (upd (ash t) ax 0) (adat t))) by (rewrite map_length, seq_length; auto).
      rewrite (@nth_map_seq _ (fun i => if Nat.eqb i r then t else mk_arr (upd (ash t) ax 0) (adat t))) by auto.
      assert (CR : forall q, (q < P)%nat -> nth q cnts 0 = sz). { intros q Hq. rewrite CB, zcounts_nth by (auto; lia). rewrite EK, HM. fold sz. destruct (Z.ltb_spec (Z.of_nat q) 0); lia. }
      assert (OQ : o = Z.of_nat r * sz). { unfold o. assert (GEN : forall q, (q <= P)%nat -> zsum (firstn q cnts) = Z.of_nat q * sz). { induction q as [|q IH]; intros Hq; [reflexivity|]. rewrite zsum_firstn_S by lia. rewrite IH, CR by lia. lia. } apply GEN. lia. }
      assert (CC : c = sz) by (apply CR; auto). destruct (Nat.eqb_spec j r) as [->|NJ].
      * assert (C0 : cutp o c (Z.of_nat r * sz) = 0) by (unfold cutp; rewrite OQ, CC; lia). assert (C1 : cutp o c (Z.of_nat (S r) * sz) = c) by (unfold cutp; rewrite OQ, CC, Nat2Z.inj_succ, Z.mul_succ_l; lia).
        rewrite C0, C1, Z.sub_0_r, Z.add_0_l. exact Qr.
      * assert (CE : cutp o c (Z.of_nat (S j) * sz) - cutp o c (Z.of_nat j * sz) = 0).
        { unfold cutp. rewrite OQ, CC, Nat2Z.inj_succ, Z.mul_succ_l. destruct (Nat.lt_ge_cases j r) as [Lj|Lj].
          - assert (Z.succ (Z.of_nat j) * sz <= Z.of_nat r * sz) by (apply Z.mul_le_mono_nonneg_r; lia). rewrite Z.mul_succ_l in *. lia.
          - assert (Z.succ (Z.of_nat r) * sz <= Z.of_nat j * sz) by (apply Z.mul_le_mono_nonneg_r; lia). rewrite Z.mul_succ_l in *. lia. }
        rewrite CE. apply (agrees_empty _ _ _ ax); [rewrite upd_length; auto|now rewrite upd_same|]. cbn [ash]. destruct Qr as [-> _]. now rewrite upd_upd_same.
    + replace (k <? 0) with false by lia. rewrite LE. destruct (Z.eqb_spec c 0) as [C0|NC0].
      * eexists. split; [reflexivity|]. split; [apply repeat_length|]. intros j Hj. rewrite (nth_indep _ _ t) by (rewrite repeat_length; auto). rewrite nth_repeat.
        assert (CE : cutp o c (Z.of_nat (S j) * sz) - cutp o c (Z.of_nat j * sz) = 0) by (unfold cutp; rewrite C0; lia). rewrite CE. apply (agrees_empty _ _ _ ax); [rewrite upd_length; auto|now rewrite upd_same|]. destruct Qr as [-> _]. now rewrite C0.
      * destruct (chunk_counts (d_gshape x) ax r P HP Hr) as [_ ->]. fold n. rewrite <- CB. fold o.
        assert (HK2 : o mod sz + c <= sz \/ o + c < k * sz).
        { destruct (Z.eq_dec (o + c) n) as [EE|]; [left|lia]. assert (CS : c <= sz).
          { destruct (last_chunk n P r) as [LL _]; try lia; try (rewrite <- CB; fold o c; lia). rewrite <- CB in LL. fold c in LL. destruct (HC eq_refl ltac:(lia)) as [HC1|HC1].
            - assert (DD : n / Z.of_nat P <= n / k) by (apply Z.div_le_compat_l; lia). fold sz in DD. lia.
            - fold sz in HC1. lia. }
          destruct (Z.eq_dec c sz) as [EC|NC].
          - assert (o = (k - 1) * sz) by lia. rewrite H, Z.mod_mul by lia. lia.
          - assert (o = (sz - c) + (k - 1) * sz) by lia. rewrite H, Z.mod_add by lia. rewrite Z.mod_small by lia. lia. }
        rewrite case2_ok by (auto; lia). cbn [bind].
        destruct (torch_split_step (fun j => cutp o c (Z.of_nat j * sz)) (Z.to_nat k) ax t) as (ps & E & L & Q).
        -- unfold cutp. lia.
        -- rewrite Z2Nat.id by lia. rewrite LE. unfold cutp. lia.
        -- intros j Hj. rewrite Nat2Z.inj_succ, Z.mul_succ_l. unfold cutp. lia.
        -- exists ps. split; [auto|]. split; [auto|]. apply NAR; auto.
Qed.
Print Assumptions C42_sections.
