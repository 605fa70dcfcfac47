(** C64: ht.diff.  [rep x cnts G]: the local arrays of [x] together are the global array [G], cut along
    its split axis into pieces of extents [cnts]. *)
From Verif Require Import Base BaseLemmas LayoutModel TensorSpec NdSpec OpsModel OpsProofs4 ShapeModel ShapeProps BinModel BinProofs RollSpec RollModel RollProps SplitProps MatmulProps3 PySpec PySpecSel IndexModel ShapeSpec BinProofs2 DiffSpec DiffModel DiffProofs DiffProofs2.
Open Scope Z_scope.

(** n-th differences along any axis, any number of processes, any split: the result has N - n
    elements along the axis, keeps the split, is balanced, and its elements are those of the n-times
    repeated a[i+1] - a[i].  Partial: unbalanced layouts that are not [smooth] are refuted below. *)
Theorem C64_diff_partial : forall A (minus : A -> A -> A) (one dflt : A) (x : dnd A) (cnts : list Z) (G : list Z -> A) (n axis : Z),
  rep x cnts G -> (0 < length cnts)%nat -> valid_axis (length (d_gshape x)) axis ->
  let a := norm (length (d_gshape x)) axis in
  1 <= n <= nth a (d_gshape x) 0 ->
  (forall s, d_split x = Some s -> (1 < length cnts)%nat -> smooth cnts s a) ->
  exists y cnts', diff minus one dflt x n axis = Ok y /\
    d_gshape y = upd (d_gshape x) a (nth a (d_gshape x) 0 - n) /\ d_split y = d_split x /\ length cnts' = length cnts /\
    rep y cnts' (differences minus a (Z.to_nat n) G) /\
    (forall s, d_split x = Some s -> cnts' = zcounts (nth s (d_gshape y) 0) (length cnts)).
Proof.
  intros A minus one dflt x cnts G n axis HR HP V a Hn HS. destruct (sanitize_int _ axis V) as (b & E & Eb). fold a in Eb.
  assert (Ha : (a < length (d_gshape x))%nat). { unfold a, norm, valid_axis in *. destruct (Z.ltb_spec axis 0); lia. }
  unfold diff. destruct (Z.eqb_spec n 0); [lia|]. destruct (Z.ltb_spec n 0); [lia|]. rewrite E. cbn [bind]. cbv zeta. rewrite Eb.
  unfold rep in HR. destruct (d_split x) as [s|] eqn:Es.
  - pose proof HR as (HL & Hnn & Hs & Hc & Hsum & HT). destruct (Nat.ltb_spec 1 (length (d_locals x))) as [L1|L1].
    + destruct (diff_dist_ok minus one dflt x G cnts s a n HR Ha (HS s eq_refl ltac:(lia)) HP Hn) as (ts & y & E1 & E2 & SH & SP & RY). rewrite E1. cbn [bind].
      exists y, (zcounts (nth s (d_gshape y) 0) (length cnts)). split; [exact E2|]. split; [auto|]. split; [auto|]. unfold rep. rewrite SP. split; [|split; [exact RY|intros s' Q; now injection Q as <-]].
      destruct RY as (_ & Hy & Hsy & _). apply (zcounts_ok (nth s (d_gshape y) 0) (length cnts)); [lia|]. apply Forall_nth0. auto.
    + assert (LC : length cnts = 1%nat) by lia. destruct cnts as [|c [|]]; try discriminate LC. destruct (d_locals x) as [|t [|]] eqn:Et; try discriminate HL. assert (Hsum2 : c = nth s (d_gshape x) 0) by (rewrite <- Hsum; unfold zsum; cbn; lia). clear Hsum; rename Hsum2 into Hsum.
      specialize (HT 0%nat t eq_refl). cbn [nth firstn] in HT. rewrite Hsum, upd_self in HT.
      assert (AG : agrees t (d_gshape x) G). { destruct HT as [S0 D0]. split; [auto|]. intros idx Hb. rewrite D0 by auto. unfold move_axis_idx. change (zsum []) with 0. rewrite Z.add_0_r. now rewrite upd_self. }
      pose proof (local_ok minus one (Z.to_nat n) t (d_gshape x) a G Ha ltac:(lia) AG) as [SL DL]. rewrite Z2Nat.id in SL, DL by lia.
      set (gsh' := upd (d_gshape x) a (nth a (d_gshape x) 0 - n)) in *.
      assert (EQ : upd (d_gshape x) a (Z.max 0 (nth a (d_gshape x) 0 - n)) = gsh') by (unfold gsh'; f_equal; lia). rewrite EQ.
      assert (N1 : 0 <= nth s gsh' 0). { apply Forall_nth0. unfold gsh'. apply OpsProofs5.Forall_upd; [auto|lia]. }
      eexists; exists (zcounts (nth s gsh' 0) 1). split; [reflexivity|]. cbn [d_gshape d_split d_locals map]. split; [auto|]. split; [auto|]. destruct (zcounts_ok (nth s gsh' 0) 1 ltac:(lia) N1) as (Z1 & Z2 & Z3). split; [exact Z1|]. split; [|intros s' Q; now injection Q as <-].
      unfold rep. cbn [d_gshape d_split d_locals]. split; [now rewrite Z1|]. split; [unfold gsh'; apply OpsProofs5.Forall_upd; [auto|lia]|]. split; [unfold gsh'; now rewrite upd_length|]. split; [auto|]. split; [auto|].
      intros [|[|r]] t' Ht'; try discriminate Ht'. injection Ht' as <-. cbn [firstn]. change (zsum []) with 0.
      assert (C0 : nth 0 (zcounts (nth s gsh' 0) 1) 0 = nth s gsh' 0). { destruct (zcounts (nth s gsh' 0) 1) as [|q [|]]; try discriminate Z1. cbn in Z3 |- *. lia. }
      rewrite C0, upd_self. split; [exact SL|]. intros idx Hb. rewrite DL by auto. unfold move_axis_idx. rewrite Z.add_0_r. now rewrite upd_self.
  - destruct HR as (HL & Hnn & HT). eexists; exists cnts. split; [reflexivity|]. cbn [d_gshape d_split d_locals]. split; [f_equal; lia|]. split; [auto|]. split; [auto|]. split; [|discriminate].
    unfold rep. cbn [d_gshape d_split d_locals]. split; [now rewrite map_length|]. split; [apply OpsProofs5.Forall_upd; [auto|lia]|]. intros t Ht. apply in_map_iff in Ht as (t0 & <- & Ht0).
    pose proof (local_ok minus one (Z.to_nat n) t0 (d_gshape x) a G Ha ltac:(lia) (HT t0 Ht0)) as Q. rewrite Z2Nat.id in Q by lia. replace (Z.max 0 (nth a (d_gshape x) 0 - n)) with (nth a (d_gshape x) 0 - n) by lia. exact Q.
Qed.
Print Assumptions C64_diff_partial.

(** balanced layouts always qualify *)
Theorem C64_balanced_smooth : forall (N : Z) (P s a : nat), 0 <= N -> (0 < P)%nat -> smooth (zcounts N P) s a.
Proof.
  intros N P s a HN HP. assert (M : forall r, (S r < length (zcounts N P))%nat -> nth (S r) (zcounts N P) 0 <= nth r (zcounts N P) 0).
  { intros r Hr. destruct (zcounts_ok N P HP HN) as (L & _). rewrite L in Hr. rewrite !zcounts_nth by lia. destruct (Z.ltb_spec (Z.of_nat (S r)) (N mod Z.of_nat P)), (Z.ltb_spec (Z.of_nat r) (N mod Z.of_nat P)); lia. }
  unfold smooth. destruct (Nat.eqb a s); [|exact M]. intros r Hr Hz. specialize (M r Hr). destruct (zcounts_ok N P HP HN) as (_ & F & _). pose proof (Forall_nth0 _ (S r) F). lia.
Qed.
Print Assumptions C64_balanced_smooth.

(** n = 0 returns x itself; a negative n and an axis out of range are rejected *)
Theorem C64_arguments : forall A (minus : A -> A -> A) (one dflt : A) (x : dnd A) (n axis : Z),
  (n = 0 -> diff minus one dflt x n axis = Ok x) /\ (n < 0 -> diff minus one dflt x n axis = Err ValueError) /\
  (0 < n -> (0 < length (d_gshape x))%nat -> ~ valid_axis (length (d_gshape x)) axis -> diff minus one dflt x n axis = Err ValueError).
Proof.
  intros A minus one dflt x n axis. unfold diff. split; [intros ->; auto|]. split.
  - intros Hn. destruct (Z.eqb_spec n 0); [lia|]. destruct (Z.ltb_spec n 0); [auto|lia].
  - intros Hn Hd V. destruct (Z.eqb_spec n 0); [lia|]. destruct (Z.ltb_spec n 0); [lia|]. unfold valid_axis in V. unfold sanitize_axis. destruct (Nat.eqb_spec (length (d_gshape x)) 0); [lia|].
    destruct ((0 <=? axis) && (axis <? Z.of_nat (length (d_gshape x)))) eqn:E; [lia|]. destruct (Z.ltb_spec axis 0).
    + replace ((axis + Z.of_nat (length (d_gshape x)) <? 0) || (Z.of_nat (length (d_gshape x)) <=? axis + Z.of_nat (length (d_gshape x)))) with true by (symmetry; lia). auto.
    + replace ((axis <? 0) || (Z.of_nat (length (d_gshape x)) <=? axis)) with true by (symmetry; lia). auto.
Qed.
Print Assumptions C64_arguments.

(** instance: squares 0 1 4 9 16 over three processes, second differences *)
Definition squares (idx : list Z) : Z := nth 0 idx 0 * nth 0 idx 0.
Example C64_instance :
  let x := dist [5] 0 [2; 2; 1] squares in
  rep x [2; 2; 1] squares /\ smooth [2; 2; 1] 0 0 /\ differences Z.sub 0 2 squares [1] = 2 /\
  match diff Z.sub 1 0 x 2 0 with Ok y => map (fun t => (ash t, flat t)) (d_locals y) = [([1], [2]); ([1], [2]); ([1], [2])] | Err _ => False end.
Proof.
  split; [apply dist_rep; [repeat constructor; lia|cbn; lia|repeat constructor; lia|reflexivity]|]. split; [unfold smooth; cbn; intros [|[|[|]]]; cbn; lia|]. split; vm_compute; reflexivity.
Qed.

(** an empty process before a non-empty one has no room for the element it is sent: MPI reports a
    truncated message *)
Theorem C64_hole_refuted :
  let x := dist [4] 0 [2; 0; 2] squares in
  rep x [2; 0; 2] squares /\ diff Z.sub 1 0 x 1 0 = Err RuntimeError.
Proof. split; [apply dist_rep; [repeat constructor; lia|cbn; lia|repeat constructor; lia|reflexivity]|]. vm_compute; reflexivity. Qed.
Print Assumptions C64_hole_refuted.
(** the same along another axis when a process holds less than the next one *)
Theorem C64_truncation_refuted :
  let x := dist [4; 3] 0 [1; 3] (fun idx => nth 1 idx 0) in
  rep x [1; 3] (fun idx => nth 1 idx 0) /\ diff Z.sub 1 0 x 1 1 = Err RuntimeError.
Proof. split; [apply dist_rep; [repeat constructor; lia|cbn; lia|repeat constructor; lia|reflexivity]|]. vm_compute. reflexivity. Qed.
Print Assumptions C64_truncation_refuted.
