(** From the slab traces to the concatenated array. *)
From Verif Require Import Base BaseLemmas LayoutModel LayoutProofs NdSpec TensorSpec TensorLemmas NdLemmas OpsModel OpsProofs2 RedistModel RedistProofs ShapeSpec ShapeModel ShapeProofs ShapeProofs2 ShapeProofs3 ShapeProofs4 BinModel BinProofs BinProofs2 SlabLemmas ShapeProps RollProofs3 ReshapeModel ReshapeProofs FactoryModel FactoryProps ConcatSpec ConcatModel ConcatProofs ConcatProofs2.
Open Scope Z_scope.

Lemma psum_zsum_nat (l : list nat) r : zsum (firstn r (map Z.of_nat l)) = Z.of_nat (psum l r).
Proof.
  rewrite <- psum_zsum by (apply Forall_forall; intros c Hc; apply in_map_iff in Hc as (k & <- & _); lia). now rewrite to_nat_of_nat_map.
Qed.
Lemma nth_of_nat (l : list nat) r : nth r (map Z.of_nat l) 0 = Z.of_nat (nth r l 0%nat).
Proof. change 0 with (Z.of_nat 0) at 1. apply map_nth. Qed.

Open Scope nat_scope.
Lemma psum_fill c T lf : length lf = length c -> (forall j, j < length c -> nth j lf 0 = fill c T j) ->
  forall r, r <= length c -> psum lf r = Nat.min (psum c r) T.
Proof.
  intros HL H. induction r as [|r IH]; intros Hr; [rewrite !psum_0; lia|]. rewrite !psum_S by lia. rewrite IH, H by lia. unfold fill. lia.
Qed.
Lemma psum_rest c T lg : length lg = length c -> (forall j, j < length c -> nth j lg 0 = nth j c 0 - fill c T j) ->
  forall r, r <= length c -> psum lg r = psum c r - T.
Proof.
  intros HL H. induction r as [|r IH]; intros Hr; [rewrite !psum_0; lia|]. rewrite !psum_S by lia. rewrite IH, H by lia. unfold fill. lia.
Qed.
Open Scope Z_scope.

(** pieces cut at the balanced boundaries of the result, glued rank by rank *)
Lemma glue_pieces {A} (G0 G1 : list Z -> A) axis gsh0 gsh1 (lf lg : list nat) (f g : list (arr A)) P :
  (0 < P)%nat -> cat_shapes axis gsh0 gsh1 ->
  let n0 := nth axis gsh0 0 in let n1 := nth axis gsh1 0 in
  let c := counts_of (Z.to_nat (n0 + n1)) P in
  length lf = P -> length lg = P ->
  (forall j, (j < P)%nat -> nth j lf 0%nat = fill c (Z.to_nat n0) j) ->
  (forall j, (j < P)%nat -> nth j lg 0%nat = (nth j c 0 - fill c (Z.to_nat n0) j)%nat) ->
  represents G0 gsh0 (Some axis) (map Z.of_nat lf) f -> represents G1 gsh1 (Some axis) (map Z.of_nat lg) g ->
  exists ls, cats axis f g = Ok ls /\ length ls = P /\
    represents (glue axis n0 G0 G1) (cat_shape axis gsh0 gsh1) (Some axis) (zcounts (n0 + n1) P) ls.
Proof.
  intros HP HC n0 n1 c Lf Lg Hf Hg (RL0 & N0 & S0 & C0 & Z0 & Q0) (RL1 & N1 & S1 & C1 & Z1 & Q1). pose proof HC as (HC1 & HC2 & HC3).
  assert (Hn0 : 0 <= n0) by (rewrite Forall_forall in N0; apply N0, nth_In; auto). assert (Hn1 : 0 <= n1) by (rewrite Forall_forall in N1; apply N1, nth_In; auto).
  assert (LC : length c = P) by apply counts_of_length. assert (SC : list_sum c = Z.to_nat (n0 + n1)) by (apply counts_of_sum; auto).
  rewrite map_length in RL0, RL1.
  destruct (zcounts_ok (n0 + n1) P HP ltac:(lia)) as (LZ & FZ & SZ).
  assert (Pf := psum_fill c (Z.to_nat n0) lf ltac:(lia) ltac:(rewrite LC; auto)). assert (Pg := psum_rest c (Z.to_nat n0) lg ltac:(lia) ltac:(rewrite LC; auto)). rewrite LC in *.
  assert (Hlf : forall r, nth r (map Z.of_nat lf) 0 = Z.of_nat (nth r lf 0%nat)) by (intros; apply nth_of_nat).
  destruct (cats_axis (glue axis n0 G0 G1) axis (cat_shape axis gsh0 gsh1) (map Z.of_nat lf) (map Z.of_nat lg) (zcounts (n0 + n1) P) f g
    (fun r idx => G0 (move_axis_idx axis (zsum (firstn r (map Z.of_nat lf))) idx)) (fun r idx => G1 (move_axis_idx axis (zsum (firstn r (map Z.of_nat lg))) idx)) P) as (ls & E & L & R); auto; unfold cat_shape.
  - now rewrite upd_length.
  - apply Forall_forall. intros z Hz. apply In_nth with (d := 0) in Hz as (k & Hk & <-). rewrite upd_length in Hk. destruct (Nat.eq_dec k axis) as [->|N]; [rewrite upd_same by auto; fold n0 n1; lia|].
    rewrite upd_other by auto. rewrite Forall_forall in N0. apply N0, nth_In; auto.
  - lia.
  - lia.
  - rewrite upd_same by auto. auto.
  - intros r Hr. unfold zcounts. fold c. rewrite !nth_of_nat. rewrite Hf, Hg by auto. unfold fill. lia.
  - intros r t Ht. rewrite upd_upd_same. auto.
  - intros r t Ht. rewrite upd_upd_same. rewrite <- (cat_shapes_eq axis gsh0 gsh1) by auto. auto.
  - intros r idx Hr Hi. rewrite upd_upd_same in Hi. apply in_bounds_upd_iff in Hi as (LI & B & O); auto. unfold zcounts. fold c. rewrite !psum_zsum_nat. rewrite nth_of_nat in B. rewrite Pf by lia.
    rewrite Hf in B by auto. unfold fill in B. unfold glue, move_axis_idx. rewrite upd_same by lia. replace (Nat.min (psum c r) (Z.to_nat n0)) with (psum c r) by lia.
    replace (_ <? n0) with true by lia. auto.
  - intros r idx Hr Hi. rewrite upd_upd_same in Hi. apply in_bounds_upd_iff in Hi as (LI & B & O); auto. unfold zcounts. fold c. rewrite !psum_zsum_nat. rewrite nth_of_nat in *. rewrite Pg by lia.
    rewrite Hg in B by auto. unfold fill in *. unfold glue, move_axis_idx. rewrite upd_same by lia. rewrite Hf by auto. unfold fill. 
    replace (_ <? n0) with false by lia. f_equal. rewrite upd_upd_same. f_equal. lia.
  - exists ls. auto.
Qed.

(** moving slabs keeps the array; only the piece extents change *)
Lemma moved_represents {A} (dflt : A) (G : list Z -> A) gsh axis cnts ls (d : dist (list Z -> A)) :
  represents G gsh (Some axis) cnts ls -> glob d = glob (map (slabs axis) ls) -> list_sum (lens d) = Z.to_nat (nth axis gsh 0) ->
  represents G gsh (Some axis) (map Z.of_nat (lens d)) (map (unslabs dflt axis gsh) d).
Proof.
  intros HR HG HS. destruct (slabs_view _ _ _ _ _ HR) as (V1 & V2 & V3). destruct HR as (L & N & S & C & Z & Q).
  assert (N0 : 0 <= nth axis gsh 0) by (rewrite Forall_forall in N; apply N, nth_In; auto).
  apply unslabs_represents; auto.
  - apply Forall_forall. intros z Hz. apply in_map_iff in Hz as (k & <- & _). lia.
  - rewrite <- (firstn_all (map Z.of_nat (lens d))). rewrite psum_zsum_nat, map_length. rewrite psum_all by auto. lia.
  - now rewrite to_nat_of_nat_map.
  - intros idx z Hi HA. rewrite HG. apply in_bounds_nth in Hi as [LI Hi]. rewrite upd_length in LI.
    apply V3; auto; [specialize (Hi axis ltac:(lia)); rewrite upd_same in Hi by lia; auto|].
    intros k Hk Nk. specialize (Hi k ltac:(lia)). rewrite upd_other in Hi; auto.
Qed.

(** the replicated operand cut at given boundaries, each piece squeezed and unsqueezed *)
Lemma none_pieces {A} (G : list Z -> A) gsh axis c0 ls (lf : list nat) (off len : nat -> Z) :
  represents G gsh None c0 ls -> (axis < length gsh)%nat -> length lf = length ls -> Z.of_nat (list_sum lf) = nth axis gsh 0 ->
  (forall k, (k < length gsh)%nat -> k <> axis -> nth k gsh 0 <> 1) ->
  (forall r, (r < length ls)%nat -> off r = zsum (firstn r (map Z.of_nat lf)) /\ len r = Z.of_nat (nth r lf 0%nat)) ->
  exists f, all_ok (map (fun p => squeeze_fix axis (length gsh) (piece axis (snd p) (off (fst p)) (len (fst p)))) (combine (seq 0 (length ls)) ls)) = Ok f /\
    represents G gsh (Some axis) (map Z.of_nat lf) f.
Proof.
  intros (L & N & Q) Hx HL HS H1 HO.
  assert (FC : Forall (fun c => 0 <= c) (map Z.of_nat lf)) by (apply Forall_forall; intros z Hz; apply in_map_iff in Hz as (k & <- & _); lia).
  assert (SC : zsum (map Z.of_nat lf) = nth axis gsh 0) by (rewrite <- (firstn_all (map Z.of_nat lf)); rewrite psum_zsum_nat, map_length; rewrite psum_all by auto; lia).
  destruct (all_ok_Qn (fun p : nat * arr A => squeeze_fix axis (length gsh) (piece axis (snd p) (off (fst p)) (len (fst p))))
     (fun r t => agrees t (upd gsh axis (nth r (map Z.of_nat lf) 0)) (fun idx => G (move_axis_idx axis (zsum (firstn r (map Z.of_nat lf))) idx))) (combine (seq 0 (length ls)) ls)) as (f & E & Lf & QF).
  - intros r [r' t] Hp. assert (Hr : (r < length ls)%nat) by (assert (r < length (combine (seq 0 (length ls)) ls))%nat by (apply nth_error_Some; congruence); rewrite combine_length, seq_length in *; lia).
    apply nth_error_combine in Hp as [P1 P2]. rewrite (nth_error_nth' _ 0%nat) in P1 by (rewrite seq_length; auto). rewrite seq_nth in P1 by auto. injection P1 as <-. cbn [fst snd Nat.add].
    destruct (HO r Hr) as [O1 O2]. rewrite O1, O2. rewrite nth_of_nat. apply squeeze_fix_ok; auto.
    apply nth_error_In in P2. destruct (Q t P2) as [S D]. unfold piece, cut. rewrite S. split; [reflexivity|]. intros idx Hi. cbn [adat].
    apply D. change (in_bounds gsh (move_axis_idx axis (zsum (firstn r (map Z.of_nat lf))) idx)). eapply (move_in_bounds gsh axis (map Z.of_nat lf) r idx); auto; [rewrite map_length; lia|]. now rewrite nth_of_nat.
  - exists f. split; [auto|]. rewrite combine_length, seq_length, Nat.min_id in Lf. split; [rewrite map_length; lia|]. auto.
Qed.
