(** C61, continued: rejected calls, concrete instances, and where the claim fails. *)
From Verif Require Import Base BaseLemmas LayoutModel TensorSpec NdSpec TensorLemmas NdLemmas ShapeSpec OpsModel OpsProofs2 OpsProofs4 ShapeModel ShapeProps BinModel BinProofs BinProofs2 ReshapeModel ReshapeProofs ConcatProofs3 FactoryModel FactoryProps MatmulSpec MatmulModel MatmulProofs MatmulProofs2 MatmulProofs3 MatmulProps MatmulProps2.
Open Scope Z_scope.

(** ** rejected calls *)
(** different stack extents *)
Theorem C61_rejects_batch : forall (V : Type) (zero : V) (add mul : V -> V -> V) (bs bs' : list Z) (m K K' q : Z) (a b : dnd V) ar,
  d_gshape a = bs ++ [m; K] -> d_gshape b = bs' ++ [K'; q] -> length bs = length bs' -> bs <> bs' -> matmul zero add mul a b ar = Err ValueError.
Proof.
  intros V zero add mul bs bs' m K K' q a b ar GA GB L N. unfold matmul. rewrite GA, GB, !len2, <- L, Nat.max_id. replace (length bs + 2 - 2)%nat with (length bs) by lia. rewrite first_bs. rewrite L, first_bs.
  assert (eqb_idx bs bs' = false) as ->. { destruct (eqb_idx bs bs') eqn:E; [|auto]. apply eqb_idx_eq in E. contradiction. }
  destruct bs as [|z bs]; [destruct bs'; [contradiction|discriminate]|]. destruct bs' as [|z' bs']; [discriminate|]. cbn [length]. replace (2 <? S (length bs') + 2)%nat with true by (symmetry; apply Nat.ltb_lt; lia). reflexivity.
Qed.
Print Assumptions C61_rejects_batch.
(** extents that do not fit *)
Theorem C61_rejects_mismatch : forall (V : Type) (zero : V) (add mul : V -> V -> V) (bs : list Z) (m K K' q : Z) (a b : dnd V) ar,
  d_gshape a = bs ++ [m; K] -> d_gshape b = bs ++ [K'; q] -> K <> K' -> matmul zero add mul a b ar = Err ValueError.
Proof.
  intros V zero add mul bs m K K' q a b ar GA GB N. unfold matmul. rewrite GA, GB, !len2, Nat.max_id. replace (length bs + 2 - 2)%nat with (length bs) by lia. replace (length bs + 2 - 1)%nat with (S (length bs)) by lia.
  rewrite !first_bs, !nth_r0, !nth_r1. replace (eqb_idx bs bs) with true by (symmetry; now apply eqb_idx_eq). cbn [negb]. rewrite andb_false_r.
  replace (length bs + 2 =? S (length bs))%nat with false by (symmetry; apply Nat.eqb_neq; lia). cbn [andb orb negb]. rewrite Nat.eqb_refl. cbn [negb].
  replace (length bs + 2 =? 1)%nat with false by (symmetry; apply Nat.eqb_neq; lia). cbn [andb]. destruct (Z.eqb_spec K K'); [contradiction|]. reflexivity.
Qed.
Print Assumptions C61_rejects_mismatch.
(** one operand split along a stack axis, the other not along the same axis *)
Theorem C61_rejects_batch_split : forall (V : Type) (zero : V) (add mul : V -> V -> V) (bs : list Z) (m K q : Z) (s : nat) (a b : dnd V) ar,
  d_gshape a = bs ++ [m; K] -> d_gshape b = bs ++ [K; q] -> (s < length bs)%nat -> d_split a = Some s \/ d_split b = Some s -> d_split a <> d_split b ->
  matmul zero add mul a b ar = Err NotImplementedErr.
Proof.
  intros V zero add mul bs m K q s a b ar GA GB Hs HS N. unfold matmul. rewrite GA, GB, !len2, Nat.max_id. replace (length bs + 2 - 2)%nat with (length bs) by lia. replace (length bs + 2 - 1)%nat with (S (length bs)) by lia.
  rewrite !first_bs, !nth_r0, !nth_r1. replace (eqb_idx bs bs) with true by (symmetry; now apply eqb_idx_eq). cbn [negb]. rewrite andb_false_r.
  replace (length bs + 2 =? S (length bs))%nat with false by (symmetry; apply Nat.eqb_neq; lia). cbn [andb orb negb]. rewrite Nat.eqb_refl. cbn [negb].
  replace (length bs + 2 =? 1)%nat with false by (symmetry; apply Nat.eqb_neq; lia). cbn [andb]. rewrite Z.eqb_refl. cbn [negb].
  replace (0 <? length bs)%nat with true by (symmetry; apply Nat.ltb_lt; lia). cbn [andb].
  assert (E1 : match d_split a with Some s => (s <? length bs)%nat | None => false end || match d_split b with Some s => (s <? length bs)%nat | None => false end = true).
  { destruct HS as [-> | ->]; replace (s <? length bs)%nat with true by (symmetry; now apply Nat.ltb_lt); [reflexivity|apply orb_true_r]. }
  rewrite E1. assert (E2 : match d_split a, d_split b with Some s0, Some t => (s0 =? t)%nat | None, None => true | _, _ => false end = false).
  { destruct (d_split a), (d_split b); try reflexivity; [apply Nat.eqb_neq; congruence|congruence]. }
  rewrite E2. reflexivity.
Qed.
Print Assumptions C61_rejects_batch_split.
(** numbers of dimensions that differ by more than one *)
Theorem C61_rejects_dims : forall (V : Type) (zero : V) (add mul : V -> V -> V) (a b : dnd V) ar,
  let na := length (d_gshape a) in let nb := length (d_gshape b) in
  (na + 2 <= nb)%nat \/ (nb + 2 <= na)%nat -> matmul zero add mul a b ar = Err ValueError.
Proof.
  intros V zero add mul a b ar na nb H. unfold matmul. fold na nb. destruct ((2 <? Nat.max na nb)%nat && _); [reflexivity|].
  replace (na =? nb - 1)%nat with false by (symmetry; apply Nat.eqb_neq; lia). replace (nb =? na - 1)%nat with false by (symmetry; apply Nat.eqb_neq; lia).
  replace (na =? nb)%nat with false by (symmetry; apply Nat.eqb_neq; lia). reflexivity.
Qed.
Print Assumptions C61_rejects_dims.
(** a matrix and a vector of the wrong length: not the ValueError of the other cases but an
    IndexError, raised while the error message is built *)
Theorem C61_matrix_vector_error_refuted : forall (V : Type) (zero : V) (add mul : V -> V -> V) (m K K' : Z) (a b : dnd V) ar,
  d_gshape a = [m; K] -> d_gshape b = [K'] -> K <> K' -> matmul zero add mul a b ar = Err IndexError.
Proof.
  intros V zero add mul m K K' a b ar GA GB N. unfold matmul. rewrite GA, GB. cbn -[Z.eqb]. destruct (Z.eqb_spec K K'); [contradiction|]. reflexivity.
Qed.
Print Assumptions C61_matrix_vector_error_refuted.

(** ** instances: two processes, integers *)
Lemma Z_sums : sums 0 Z.add. Proof. repeat split; intros; lia. Qed.
Definition dist (sh : list Z) (s : nat) (cnts : list Z) (G : list Z -> Z) : dnd Z :=
  mk_dnd (map (fun r => mk_arr (upd sh s (nth r cnts 0)) (fun idx => G (move_axis_idx s (zsum (firstn r cnts)) idx))) (seq 0 (length cnts))) sh (Some s).
Lemma dist_rep sh s cnts G : Forall (fun n => 0 <= n) sh -> (s < length sh)%nat -> Forall (fun c => 0 <= c) cnts -> zsum cnts = nth s sh 0 -> rep (dist sh s cnts G) cnts G.
Proof.
  intros H1 H2 H3 H4. unfold rep, dist. cbn [d_gshape d_split d_locals]. split; [now rewrite map_length, seq_length|]. do 4 (split; [auto|]).
  intros r t Ht. rewrite nth_error_map in Ht. destruct (nth_error (seq 0 (length cnts)) r) as [r'|] eqn:E; [|discriminate]. cbn [option_map] in Ht. injection Ht as <-.
  assert (Hr : (r < length cnts)%nat) by (rewrite <- (seq_length (length cnts) 0); apply nth_error_Some; congruence).
  rewrite (nth_error_nth' _ 0%nat) in E by (now rewrite seq_length). rewrite seq_nth in E by auto. injection E as <-. split; [reflexivity|]. intros; reflexivity.
Qed.
Definition GA (idx : list Z) : Z := dot idx [10; 1].
Definition GB (idx : list Z) : Z := dot idx [1; 7].
(** 3x4 split along rows times 4x5 split along columns: the split-01 branch *)
Example ex_01 : ready 2 2 (Some 0%nat) (Some 1%nat) 3 4 5 [2; 1] [3; 2].
Proof. right. left. repeat split. Qed.
Example ex_01_rep : rep (dist [3; 4] 0 [2; 1] GA) [2; 1] GA /\ rep (dist [4; 5] 1 [3; 2] GB) [3; 2] GB.
Proof. split; apply dist_rep; auto; repeat constructor; lia. Qed.
Definition vals (t : arr Z) (l : list (list Z)) : list Z := map (adat t) l.
Example ex_01_run : match matmul 0 Z.add Z.mul (dist [3; 4] 0 [2; 1] GA) (dist [4; 5] 1 [3; 2] GB) false with
  | Ok y => (d_gshape y, d_split y, map ash (d_locals y), vals (nth 1 (d_locals y) (mk_arr [] (fun _ => 0))) [[0; 0]; [0; 4]]) | Err _ => ([], None, [], []) end
  = ([3; 5], Some 0%nat, [[2; 5]; [1; 5]], [20 * 0 + 21 * 1 + 22 * 2 + 23 * 3; 20 * 28 + 21 * 29 + 22 * 30 + 23 * 31]).
Proof. vm_compute. reflexivity. Qed.
(** columns against rows *)
Example ex_10_run : match matmul 0 Z.add Z.mul (dist [3; 4] 1 [2; 2] GA) (dist [4; 5] 0 [1; 3] GB) false with
  | Ok y => (d_gshape y, d_split y, map ash (d_locals y), vals (nth 1 (d_locals y) (mk_arr [] (fun _ => 0))) [[2; 1]]) | Err _ => ([], None, [], []) end
  = ([3; 5], Some 1%nat, [[3; 3]; [3; 2]], [20 * 28 + 21 * 29 + 22 * 30 + 23 * 31]).
Proof. vm_compute. reflexivity. Qed.
Example ex_10 : ready 2 2 (Some 1%nat) (Some 0%nat) 3 4 5 [2; 2] [1; 3].
Proof. right. right. right. repeat split. Qed.
(** a matrix split along columns times a split vector *)
Example ex_mv_run : match matmul 0 Z.add Z.mul (dist [3; 4] 1 [2; 2] GA) (dist [4] 0 [1; 3] (fun idx => nth 0 idx 0)) false with
  | Ok y => (d_gshape y, d_split y, map ash (d_locals y), vals (nth 0 (d_locals y) (mk_arr [] (fun _ => 0))) [[2]]) | Err _ => ([], None, [], []) end
  = ([3], Some 0%nat, [[3]; [0]], [20 * 0 + 21 * 1 + 22 * 2 + 23 * 3]).
Proof. vm_compute. reflexivity. Qed.

(** ** where the claim fails *)
(** a.split = 1 in an unbalanced layout, b not split: the rows of b are taken at the balanced
    positions; the result is silently wrong *)
Definition ones (idx : list Z) : Z := 1.
Definition whole (sh : list Z) (P : nat) (G : list Z -> Z) : dnd Z := mk_dnd (repeat (mk_arr sh G) P) sh None.
Theorem C61_unbalanced_refuted :
  let a := dist [1; 4] 1 [3; 1] ones in let b := whole [4; 1] 2 (fun idx => nth 0 idx 0) in
  rep a [3; 1] ones /\ rep b [0; 0] (fun idx => nth 0 idx 0) /\
  product 0 Z.add Z.mul 4 ones (fun idx => nth 0 idx 0) [0; 0] = 6 /\
  exists y, matmul 0 Z.add Z.mul a b false = Ok y /\ adat (nth 0 (d_locals y) (mk_arr [] (fun _ => 0))) [0; 0] = 5.
Proof.
  cbv zeta. split; [apply dist_rep; auto; repeat constructor; lia|]. split. { split; [reflexivity|]. split; [repeat constructor; cbn; lia|]. intros t [<-|[<-|[]]]; split; intros; reflexivity. }
  split; [reflexivity|]. eexists. split; [vm_compute; reflexivity|]. vm_compute. reflexivity.
Qed.
Print Assumptions C61_unbalanced_refuted.
(** a.split = 0 in an unbalanced layout with b split: the local buffers are balanced, the call raises *)
Theorem C61_unbalanced_raises_refuted :
  let a := dist [4; 2] 0 [3; 1] GA in let b := dist [2; 2] 0 [1; 1] GB in
  rep a [3; 1] GA /\ rep b [1; 1] GB /\ matmul 0 Z.add Z.mul a b false = Err RuntimeError.
Proof. cbv zeta. split; [apply dist_rep; auto; repeat constructor; lia|]. split; [apply dist_rep; auto; repeat constructor; lia|]. vm_compute. reflexivity. Qed.
Print Assumptions C61_unbalanced_raises_refuted.
(** allow_resplit=True on stacks: the rows of every process are added to the same rows *)
Theorem C61_allow_resplit_batch_refuted :
  let a := whole [2; 4; 1] 2 ones in let b := whole [2; 1; 1] 2 ones in
  rep a [0; 0] ones /\ rep b [0; 0] ones /\
  product 0 Z.add Z.mul 1 ones ones [0; 0; 0] = 1 /\ product 0 Z.add Z.mul 1 ones ones [0; 3; 0] = 1 /\
  exists y, matmul 0 Z.add Z.mul a b true = Ok y /\ adat (nth 0 (d_locals y) (mk_arr [] (fun _ => 0))) [0; 0; 0] = 2 /\ adat (nth 0 (d_locals y) (mk_arr [] (fun _ => 0))) [0; 3; 0] = 0.
Proof.
  cbv zeta. do 2 (split; [split; [reflexivity|]; split; [repeat constructor; cbn; lia|]; intros t [<-|[<-|[]]]; split; intros; reflexivity|]).
  do 2 (split; [reflexivity|]). eexists. split; [vm_compute; reflexivity|]. split; vm_compute; reflexivity.
Qed.
Print Assumptions C61_allow_resplit_batch_refuted.
(** the product of two vectors re-splits the operands in place *)
Theorem C61_operands_refuted :
  let a := whole [4] 2 ones in let b := whole [4] 2 ones in
  exists y a' b', matmul_vv 0 Z.add Z.mul a b = Ok (y, a', b') /\ d_split a = None /\ d_split a' = Some 0%nat /\ map ash (d_locals a) = [[4]; [4]] /\ map ash (d_locals a') = [[2]; [2]].
Proof. cbv zeta. eexists _, _, _. split; [vm_compute; reflexivity|]. repeat split. Qed.
Print Assumptions C61_operands_refuted.
(** one process: the split of the operands is lost *)
Theorem C61_one_process_split_refuted :
  let a := dist [3; 4] 0 [3] GA in let b := dist [4; 5] 1 [5] GB in
  d_split a = Some 0%nat /\ exists y, matmul 0 Z.add Z.mul a b false = Ok y /\ d_split y = None.
Proof. cbv zeta. split; [reflexivity|]. eexists. split; [vm_compute; reflexivity|]. reflexivity. Qed.
Print Assumptions C61_one_process_split_refuted.
