(** C48: the pairwise distance ring of heat.spatial.cdist / rbf / manhattan.

    [X] is the list of row blocks of the operand split along axis 0, one block per
    process; [glob X] is the whole operand; [counts_of n P] are the row counts of the
    balanced layout (C01).  [metric] is the tile function handed to the ring; the
    theorems need that each entry depends on its two rows only, and in the one-operand
    form that the distance is symmetric. *)
From Verif Require Import Base BaseLemmas LayoutModel LayoutProofs SchedModel SchedProofs CdistModel CdistProofs2 CdistProofs3 CdistProofs4.

Lemma round_len {R V} (metric : list R -> list R -> list (list V)) n size i : length (round metric n size i) = size.
Proof. unfold round. now rewrite map_length, seq_length. Qed.
Lemma back_len {R V} (zero : V) n size i : i <= size -> length (back (R := R) zero n size i) = size.
Proof. intros. unfold back. rewrite app_length, !map_length, !seq_length. lia. Qed.
Lemma flat_len {A B} (f : A -> list B) k l : (forall x, In x l -> length (f x) = k) -> length (flat_map f l) = length l * k.
Proof. induction l; intros H; [reflexivity|]. cbn [flat_map length]. rewrite app_length, IHl, H by (try (intros; apply H; now right); now left). lia. Qed.
Lemma pair_plan_len {R V} (metric : list R -> list R -> list (list V)) n size : length (pair_plan metric n size) <= size * size.
Proof. unfold pair_plan. rewrite (flat_len _ size) by (intros; apply round_len). rewrite seq_length. nia. Qed.
Lemma sym_plan_len {R V} (zero : V) (metric : list R -> list R -> list (list V)) n size : length (sym_plan zero metric n size) <= size * size.
Proof.
  destruct (Nat.eq_dec size 0) as [->|Hs]; [cbn; lia|].
  unfold sym_plan. pose proof (Nat.div_mod (size + 1) 2 ltac:(lia)). pose proof (Nat.mod_upper_bound (size + 1) 2 ltac:(lia)).
  rewrite app_length, (flat_len _ (size + size)).
  - rewrite seq_length. destruct (Nat.eqb_spec ((size + 1) mod 2) 0) as [E|E]; cbn [length]; [nia|].
    unfold half. rewrite app_length, !map_length, !seq_length. unfold hf. nia.
  - intros i Hi. apply in_seq in Hi. rewrite app_length, round_len, back_len by lia. reflexivity.
Qed.

(** the specification: row a of the result is the distance of a to every row of B *)
Definition dist_rows {R V} (dst : R -> R -> V) (A B : list R) : list (list V) :=
  map (fun a => map (fun b => dst a b) B) A.

(** One operand: whatever the buffering and the interleaving of the messages, every
    execution can go on until all processes have finished, is finite, and then each
    process holds its rows of the full distance matrix and no message is left over.
    For every number of processes, odd or even, and every number of rows. *)
Theorem C48_symmetric_ring : forall (R V : Type) (zero : V) (dst : R -> R -> V) metric (X : dist R) (n : nat),
  (forall A B, metric A B = dist_rows dst A B) -> (forall a b, dst a b = dst b a) ->
  lens X = counts_of n (length X) ->
  forall k c, steps k (sym_start zero metric n X) c ->
  (final c \/ exists c', step_recv c c' \/ step_sync c c') /\
  (k <= 2 * (length X * length X)) /\
  (final c -> net c = [] /\ map (@c_d R V) (st c) = map (fun Xr => dist_rows dst Xr (glob X)) X).
Proof.
  intros R V zero dst metric X n Hm Hs HX k c Hst.
  assert (L : length (map (fun r => start_state zero metric n (length X) r (nth r X []) (nth r X [])) (seq 0 (length X))) = length X)
    by now rewrite map_length, seq_length.
  pose proof Hst as Hst'. rewrite sym_initial in Hst'. repeat split.
  - exact (sched_no_deadlock (sym_ok zero metric n (length X)) L Hst').
  - pose proof (sched_terminates (sym_ok zero metric n (length X)) L Hst'). pose proof (sym_plan_len zero metric n (length X)). lia.
  - now destruct (sym_final zero dst metric Hm n X k c Hs HX Hst H).
  - now destruct (sym_final zero dst metric Hm n X k c Hs HX Hst H).
Qed.
Print Assumptions C48_symmetric_ring.

(** Two operands, both split along axis 0: no symmetry needed, X may have any layout. *)
Theorem C48_pair_ring : forall (R V : Type) (zero : V) (dst : R -> R -> V) metric (X Y : dist R) (n : nat),
  (forall A B, metric A B = dist_rows dst A B) ->
  length Y = length X -> lens Y = counts_of n (length Y) ->
  forall k c, steps k (pair_start zero metric n X Y) c ->
  (final c \/ exists c', step_recv c c' \/ step_sync c c') /\
  (k <= 2 * (length X * length X)) /\
  (final c -> net c = [] /\ map (@c_d R V) (st c) = map (fun Xr => dist_rows dst Xr (glob Y)) X).
Proof.
  intros R V zero dst metric X Y n Hm HL HY k c Hst.
  assert (L : length (map (fun r => start_state zero metric n (length X) r (nth r X []) (nth r Y [])) (seq 0 (length X))) = length X)
    by now rewrite map_length, seq_length.
  pose proof Hst as Hst'. rewrite pair_initial in Hst'. repeat split.
  - exact (sched_no_deadlock (pair_ok metric n (length X)) L Hst').
  - pose proof (sched_terminates (pair_ok metric n (length X)) L Hst'). pose proof (pair_plan_len metric n (length X)). lia.
  - now destruct (pair_final zero dst metric Hm n X Y k c HL HY Hst H).
  - now destruct (pair_final zero dst metric Hm n X Y k c HL HY Hst H).
Qed.
Print Assumptions C48_pair_ring.

(** The layouts without communication: replicated X and Y (or Y omitted), X in row
    blocks against replicated Y, replicated X against Y in row blocks.  In the last
    case the result is split along axis 1: process r holds the columns of its rows of Y. *)
Theorem C48_local_layouts : forall (R V : Type) (zero : V) (dst : R -> R -> V) metric (X Y : dist R) (A B : list R) n f,
  (forall A B, metric A B = dist_rows dst A B) ->
  cdist_branch None None f = RLocal None /\ cdist_branch None (Some None) f = RLocal None /\
  local_part zero metric n (RLocal None) A B = Some (dist_rows dst A B) /\
  cdist_branch (Some 0) (Some None) f = RLocal (Some 0) /\
  (forall Xr, In Xr X -> local_part zero metric n (RLocal (Some 0)) Xr B = Some (dist_rows dst Xr B)) /\
  concat (map (fun Xr => dist_rows dst Xr B) X) = dist_rows dst (glob X) B /\
  cdist_branch None (Some (Some 0)) f = RLocal (Some 1) /\
  (forall Yr, In Yr Y -> local_part zero metric n (RLocal (Some 1)) A Yr = Some (dist_rows dst A Yr)) /\
  (forall a, concat (map (fun Yr => map (fun b => dst a b) Yr) Y) = map (fun b => dst a b) (glob Y)).
Proof.
  intros R V zero dst metric X Y A B n f Hm. cbn. repeat split; intros; try (rewrite Hm; reflexivity).
  - unfold dist_rows, glob. now rewrite concat_map.
  - unfold glob. now rewrite concat_map.
Qed.
Print Assumptions C48_local_layouts.

(** Finding.  X.split = 0 with Y.split = 1: the branch that should raise
    NotImplementedError repeats the condition of an earlier branch, so the call falls
    through and returns a matrix of zeros. *)
Theorem C48_column_split_refuted : exists (X : dist Z) (B : list Z) (dst : Z -> Z -> Z),
  (forall a b, dst a b = dst b a) /\ cdist_branch (Some 0) (Some (Some 1)) true = RZero /\
  map (fun Xr => local_part 0%Z (dist_rows dst) (length B) RZero Xr B) X <> map (fun Xr => Some (dist_rows dst Xr B)) X.
Proof.
  exists [[1]; [4]]%Z, [2; 7]%Z, (fun a b => Z.abs (a - b)). repeat split; [intros; lia|]. cbn. discriminate.
Qed.
Print Assumptions C48_column_split_refuted.

(** Every other layout raises. *)
Theorem C48_other_layouts_raise : forall s y f, s <> 0 ->
  cdist_branch (Some s) y f = RRaise /\ cdist_branch None (Some (Some s)) f = RRaise /\
  cdist_branch (Some 0) (Some (Some 0)) false = RRaise.
Proof. intros [|s] y f H; [lia|]. destruct y as [[[|]|]|]; cbn; auto. Qed.
Print Assumptions C48_other_layouts_raise.

(** The tile functions written out in the module depend on two rows each and are
    symmetric; the quadratic expansion is the squared Euclidean distance and the clamp
    at zero never acts (in exact arithmetic). *)
Lemma zdot_cons a b l k : zdot (a :: l) (b :: k) = (a * b + zdot l k)%Z.
Proof. reflexivity. Qed.
Lemma zdot_sub : forall a b, length a = length b -> (zdot a a + zdot b b - 2 * zdot a b =
  fold_right Z.add 0 (map (fun p => (fst p - snd p) * (fst p - snd p)) (combine a b)))%Z.
Proof.
  induction a as [|x a IH]; intros [|y b] H; try discriminate H; [reflexivity|].
  injection H as H. specialize (IH b H). rewrite !zdot_cons. cbn [combine map fold_right fst snd]. lia.
Qed.
Lemma sumsq_nonneg l : (0 <= fold_right Z.add 0 (map (fun p : Z * Z => (fst p - snd p) * (fst p - snd p)) l))%Z.
Proof. induction l as [|p l IH]; cbn [map fold_right]; [lia|]. pose proof (Z.square_nonneg (fst p - snd p)). lia. Qed.
Theorem C48_quadratic_expansion : forall a b, length a = length b ->
  (quadratic_expand a b = fold_right Z.add 0 (map (fun p => (fst p - snd p) * (fst p - snd p)) (combine a b)))%Z /\
  quadratic_expand a b = quadratic_expand b a /\ manhattan_fast a b = manhattan_fast b a.
Proof.
  intros a b H. unfold quadratic_expand. rewrite (zdot_sub a b H), (zdot_sub b a (eq_sym H)).
  assert (E : forall (f : Z * Z -> Z), (forall x y, f (x, y) = f (y, x)) -> map f (combine a b) = map f (combine b a)).
  { intros f Hf. revert b H. induction a as [|x a IH]; intros [|y b] H; try discriminate H; [reflexivity|].
    cbn [combine map]. f_equal; [apply Hf|]. apply IH. now injection H. }
  pose proof (sumsq_nonneg (combine a b)) as N. rewrite <- (E (fun p => ((fst p - snd p) * (fst p - snd p))%Z)) by (intros; cbn; ring).
  unfold manhattan_fast. rewrite (E (fun p => Z.abs (fst p - snd p))) by (intros; cbn; lia).
  repeat split. apply Z.max_r. exact N.
Qed.
Print Assumptions C48_quadratic_expansion.

(** Non-vacuity: five rows on four processes (even ring, uneven blocks), three
    processes (odd ring), and a sequential execution of the exchanges. *)
Definition demo_dst (a b : Z) : Z := Z.abs (a - b).
Definition demoX4 : dist Z := [[3; 8]; [1]; [20]; [7]]%Z.
Example C48_demo_hyp : lens demoX4 = counts_of 5 (length demoX4) /\ (forall a b, demo_dst a b = demo_dst b a).
Proof. split; [reflexivity|]. intros; unfold demo_dst; lia. Qed.
Example C48_demo_even : map (@c_d Z Z)
  (exec (st (sym_start 0%Z (dist_rows demo_dst) 5 demoX4)) (sym_plan 0%Z (dist_rows demo_dst) 5 4)) =
  map (fun Xr => dist_rows demo_dst Xr (glob demoX4)) demoX4.
Proof. vm_compute. reflexivity. Qed.
Example C48_demo_reachable : exists c, steps 1 (sym_start 0%Z (dist_rows demo_dst) 5 demoX4) c.
Proof.
  eexists. eapply Steps_S; [apply Steps_O|]. left. eapply (Step_send _ 0); reflexivity.
Qed.
Example C48_demo_pair : map (@c_d Z Z)
  (exec (st (pair_start 0%Z (dist_rows Z.sub) 5 [[1]; [2; 3]; [4]; []] demoX4)) (pair_plan (dist_rows Z.sub) 5 4))%Z =
  map (fun Xr => dist_rows Z.sub Xr (glob demoX4)) [[1]; [2; 3]; [4]; []]%Z.
Proof. vm_compute. reflexivity. Qed.
