(** C45: element-wise binary operations agree with NumPy broadcasting on global arrays. *)
From Verif Require Import Base ShapeSpec BaseLemmas LayoutModel NdSpec TensorSpec TensorLemmas OpsModel RedistModel ShapeModel ShapeProps BinSpec BinModel BinProofs BinProofs2 BinProofs3.
Open Scope Z_scope.

(** the balanced flag, where it is set to True, is right *)
Definition flag_ok {A} (u : bnd A) (cnts : list Z) : Prop :=
  b_flag u = Some true -> match d_split (b_arr u) with
    | None => True
    | Some s => cnts = map Z.of_nat (counts_of (Z.to_nat (nth s (d_gshape (b_arr u)) 0)) (length (d_locals (b_arr u)))) end.
(** position of a split axis after padding with axes on the left *)
Definition shift_split (n : nat) (sh : list Z) (sp : option nat) : option nat := option_map (fun s => (n - length sh + s)%nat) sp.

Lemma pad_clamp n sh idx : length idx = n -> (length sh <= n)%nat ->
  skipn (n - length sh) (clamp (padded n sh) idx) = bcast_idx sh idx.
Proof.
  intros <- H. unfold bcast_idx, padded. set (k := (length idx - length sh)%nat).
  assert (Hk : (k <= length idx)%nat) by lia. clearbody k. clear H. revert idx Hk; induction k as [|k IH]; intros idx Hk; [reflexivity|].
  destruct idx as [|i idx]; [simpl in Hk; lia|]. simpl. apply IH. simpl in Hk. lia.
Qed.
Lemma flag_truthful {A} (u : bnd A) cnts (G : list Z -> A) : represents G (d_gshape (b_arr u)) (d_split (b_arr u)) cnts (d_locals (b_arr u)) -> flag_ok u cnts -> truthful u.
Proof.
  intros R H E. specialize (H E). destruct (d_split (b_arr u)) as [s|]; auto. unfold lcounts. rewrite (ShapeProofs4.local_counts _ _ _ _ _ R). exact H.
Qed.

Section S.
Context {A B C : Type} (da : A) (db : B) (f : A -> B -> C) (u1 : bnd A) (u2 : bnd B) (G1 : list Z -> A) (G2 : list Z -> B) (c1 c2 : list Z) (osh : list Z).
Lemma binary_pad : rep (b_arr u1) c1 G1 -> rep (b_arr u2) c2 G2 -> flag_ok u1 c1 -> flag_ok u2 c2 ->
  bcast_shape (d_gshape (b_arr u1)) (d_gshape (b_arr u2)) osh ->
  let n := length osh in let sh1 := d_gshape (b_arr u1) in let sh2 := d_gshape (b_arr u2) in
  exists y1 y2, binary_op da db f u1 u2 = bin_core da db f (mk_bnd y1 (b_flag u1)) (mk_bnd y2 (b_flag u2)) /\
    d_gshape y1 = padded n sh1 /\ d_gshape y2 = padded n sh2 /\
    d_split y1 = shift_split n sh1 (d_split (b_arr u1)) /\ d_split y2 = shift_split n sh2 (d_split (b_arr u2)) /\
    represents (fun idx => G1 (skipn (n - length sh1) idx)) (d_gshape y1) (d_split y1) c1 (d_locals y1) /\
    represents (fun idx => G2 (skipn (n - length sh2) idx)) (d_gshape y2) (d_split y2) c2 (d_locals y2) /\
    truthful (mk_bnd y1 (b_flag u1)) /\ truthful (mk_bnd y2 (b_flag u2)) /\
    length (d_locals y1) = length (d_locals (b_arr u1)) /\ length (d_locals y2) = length (d_locals (b_arr u2)) /\
    bshape (padded n sh1) (padded n sh2) = Ok osh.
Proof.
  intros R1 R2 F1 F2 [HL HB] n sh1 sh2. unfold binary_op. fold sh1 sh2 in HL |- *. rewrite <- HL. fold n.
  destruct (pad_dims_ok (n - length sh1) _ _ _ R1) as (y1 & E1 & Eg1 & Es1 & Q1).
  destruct (pad_dims_ok (n - length sh2) _ _ _ R2) as (y2 & E2 & Eg2 & Es2 & Q2).
  rewrite E1, E2. cbn [bind]. exists y1, y2. split; [reflexivity|]. split; [exact Eg1|]. split; [exact Eg2|].
  split; [exact Es1|]. split; [exact Es2|]. split; [exact Q1|]. split; [exact Q2|].
  assert (L1 : length (d_locals y1) = length (d_locals (b_arr u1))) by (destruct Q1 as (-> & _); destruct R1 as (-> & _); auto).
  assert (L2 : length (d_locals y2) = length (d_locals (b_arr u2))) by (destruct Q2 as (-> & _); destruct R2 as (-> & _); auto).
  assert (NN : forall k (l : list Z) s, nth (k + s) (repeat 1 k ++ l) 0 = nth s l 0) by (intros k l s; rewrite app_nth2; rewrite repeat_length; [f_equal; lia|lia]).
  split; [|split].
  - apply (flag_truthful (mk_bnd y1 (b_flag u1)) c1 _ Q1). unfold flag_ok in *. cbn [b_flag b_arr]. intros Hf. specialize (F1 Hf). rewrite Es1, L1, Eg1.
    destruct (d_split (b_arr u1)); auto. cbn [option_map]. rewrite NN. exact F1.
  - apply (flag_truthful (mk_bnd y2 (b_flag u2)) c2 _ Q2). unfold flag_ok in *. cbn [b_flag b_arr]. intros Hf. specialize (F2 Hf). rewrite Es2, L2, Eg2.
    destruct (d_split (b_arr u2)); auto. cbn [option_map]. rewrite NN. exact F2.
  - split; [auto|]. split; [auto|]. apply bshape_ok. unfold padded. rewrite !app_length, !repeat_length. fold n.
    assert (length sh1 <= n)%nat by (unfold n; lia). assert (length sh2 <= n)%nat by (unfold n; lia).
    split; [lia|]. split; [lia|]. intros i Hi. specialize (HB i Hi). fold sh1 sh2 n in HB. unfold padded in HB.
    rewrite (nth_indep _ 0 1), (nth_indep (_ ++ sh2) 0 1), (nth_indep osh 0 1); auto; rewrite app_length, repeat_length; lia.
Qed.
End S.

(** For every combination of shapes, layouts and splits that Heat supports (spelled out
    in BinSpec.supported), a op b is the broadcast element-wise operation on the global
    arrays, split along the dominating operand's axis and laid out like it. *)
Theorem C45_binary_partial : forall (A B C : Type) (da : A) (db : B) (f : A -> B -> C)
    (u1 : bnd A) (u2 : bnd B) (G1 : list Z -> A) (G2 : list Z -> B) (c1 c2 osh : list Z),
  rep (b_arr u1) c1 G1 -> rep (b_arr u2) c2 G2 -> flag_ok u1 c1 -> flag_ok u2 c2 ->
  let P := length (d_locals (b_arr u1)) in (0 < P)%nat -> length (d_locals (b_arr u2)) = P ->
  let sh1 := d_gshape (b_arr u1) in let sh2 := d_gshape (b_arr u2) in
  bcast_shape sh1 sh2 osh ->
  let n := length osh in
  let p1 := padded n sh1 in let p2 := padded n sh2 in
  let s1 := shift_split n sh1 (d_split (b_arr u1)) in let s2 := shift_split n sh2 (d_split (b_arr u2)) in
  supported P p1 p2 osh s1 s2 ->
  exists u cnts, binary_op da db f u1 u2 = Ok u /\
    d_gshape (b_arr u) = osh /\ d_split (b_arr u) = result_split p1 p2 osh s1 s2 /\
    rep (b_arr u) cnts (fun idx => f (G1 (bcast_idx sh1 idx)) (G2 (bcast_idx sh2 idx))) /\
    (forall s, d_split (b_arr u) = Some s -> s1 = Some s -> nth s p1 0 = nth s osh 0 -> cnts = c1 /\ flag_ok u cnts) /\
    (forall s, d_split (b_arr u) = Some s -> s2 = Some s -> s1 <> Some s -> nth s p2 0 = nth s osh 0 -> cnts = c2 /\ flag_ok u cnts).
Proof.
  intros A B C da db f u1 u2 G1 G2 c1 c2 osh R1 R2 F1 F2 P HP HPP sh1 sh2 HB n p1 p2 s1 s2 HS.
  destruct (binary_pad da db f u1 u2 G1 G2 c1 c2 osh R1 R2 F1 F2 HB) as (y1 & y2 & E & Eg1 & Eg2 & Es1 & Es2 & Q1 & Q2 & T1 & T2 & L1 & L2 & BS).
  fold sh1 sh2 n in E, Eg1, Eg2, Es1, Es2, Q1, Q2, BS. fold p1 in Eg1, BS. fold p2 in Eg2, BS. fold s1 in Es1. fold s2 in Es2. fold P in L1.
  destruct (bin_core_ok A B C da db f (mk_bnd y1 (b_flag u1)) (mk_bnd y2 (b_flag u2)) _ _ c1 c2 osh Q1 Q2 T1 T2) as (u & cnts & Eu & Ug & Us & R & K1 & K2); cbn [b_arr b_flag] in *.
  - lia.
  - lia.
  - rewrite Eg1, Eg2. auto.
  - rewrite L1, Eg1, Eg2, Es1, Es2. auto.
  - exists u, cnts. split; [congruence|]. split; [auto|]. split; [rewrite Us, Eg1, Eg2, Es1, Es2; auto|].
    rewrite Eg1, Eg2, Es1, Es2 in *. pose proof R as RL. destruct RL as (RL & _).
    assert (LP : length (d_locals (b_arr u)) = length cnts) by auto.
    split; [|split].
    + unfold rep. rewrite Ug. eapply ShapeProofs3.represents_ext; [|exact R]. intros i Hi. cbn beta.
      apply in_bounds_length in Hi. destruct HB as [HL _].
      unfold p1, p2. rewrite !pad_clamp; auto; fold sh1 in HL; fold sh2 in HL; unfold n; lia.
    + intros s Hs H1 H2. destruct (K1 s Hs H1 H2) as [-> Ef]. split; [auto|]. intros Hf. rewrite Hs, Ug. rewrite Ef in Hf.
      specialize (F1 Hf). unfold s1, shift_split in H1. destruct (d_split (b_arr u1)) as [s0|] eqn:E0; [|discriminate]. cbn [option_map] in H1. injection H1 as <-.
      rewrite F1. unfold rep in R1. replace (length (d_locals (b_arr u))) with (length (d_locals (b_arr u1))); [|rewrite LP; destruct R1 as (-> & _); auto].
      do 3 f_equal. rewrite <- H2. unfold p1, padded. fold sh1. rewrite app_nth2; rewrite repeat_length; [f_equal; lia|lia].
    + intros s Hs H1 H3 H2. destruct (K2 s Hs H1 H3 H2) as [-> Ef]. split; [auto|]. intros Hf. rewrite Hs, Ug. rewrite Ef in Hf.
      specialize (F2 Hf). unfold s2, shift_split in H1. destruct (d_split (b_arr u2)) as [s0|] eqn:E0; [|discriminate]. cbn [option_map] in H1. injection H1 as <-.
      rewrite F2. replace (length (d_locals (b_arr u))) with (length (d_locals (b_arr u2))); [|rewrite LP; unfold rep in R2; destruct R2 as (-> & _); auto].
      do 3 f_equal. rewrite <- H2. unfold p2, padded. fold sh2. rewrite app_nth2; rewrite repeat_length; [f_equal; lia|lia].
Qed.
Print Assumptions C45_binary_partial.

(** Every other combination raises. *)
Theorem C45_unsupported_raises : forall (A B C : Type) (da : A) (db : B) (f : A -> B -> C)
    (u1 : bnd A) (u2 : bnd B) (G1 : list Z -> A) (G2 : list Z -> B) (c1 c2 osh : list Z),
  rep (b_arr u1) c1 G1 -> rep (b_arr u2) c2 G2 -> flag_ok u1 c1 -> flag_ok u2 c2 ->
  let P := length (d_locals (b_arr u1)) in (0 < P)%nat -> length (d_locals (b_arr u2)) = P ->
  let sh1 := d_gshape (b_arr u1) in let sh2 := d_gshape (b_arr u2) in
  bcast_shape sh1 sh2 osh ->
  let n := length osh in
  ~ supported P (padded n sh1) (padded n sh2) osh (shift_split n sh1 (d_split (b_arr u1))) (shift_split n sh2 (d_split (b_arr u2))) ->
  exists e, binary_op da db f u1 u2 = Err e.
Proof.
  intros A B C da db f u1 u2 G1 G2 c1 c2 osh R1 R2 F1 F2 P HP HPP sh1 sh2 HB n HS.
  destruct (binary_pad da db f u1 u2 G1 G2 c1 c2 osh R1 R2 F1 F2 HB) as (y1 & y2 & E & Eg1 & Eg2 & Es1 & Es2 & Q1 & Q2 & T1 & T2 & L1 & L2 & BS).
  fold sh1 sh2 n in E, Eg1, Eg2, Es1, Es2, Q1, Q2, BS. fold P in L1.
  destruct (bin_core_unsupported A B C da db f (mk_bnd y1 (b_flag u1)) (mk_bnd y2 (b_flag u2)) _ _ c1 c2 osh Q1 Q2) as [e Ee]; cbn [b_arr] in *.
  - lia.
  - lia.
  - rewrite Eg1, Eg2. auto.
  - rewrite L1, Eg1, Eg2, Es1, Es2. auto.
  - exists e. congruence.
Qed.
Print Assumptions C45_unsupported_raises.

(** matrices split along different axes: NotImplementedError although NumPy adds them *)
Definition diag_rows : bnd Z := mk_bnd (mk_dnd [mk_arr [1; 2] (fun i => nth 1 i 0); mk_arr [1; 2] (fun i => nth 1 i 0)] [2; 2] (Some 0%nat)) (Some true).
Definition diag_cols : bnd Z := mk_bnd (mk_dnd [mk_arr [2; 1] (fun i => nth 0 i 0); mk_arr [2; 1] (fun i => nth 0 i 0)] [2; 2] (Some 1%nat)) (Some true).
Theorem C45_different_splits_refuted : binary_op 0 0 Z.add diag_rows diag_cols = Err NotImplementedErr.
Proof. vm_compute. reflexivity. Qed.
Print Assumptions C45_different_splits_refuted.

(** shapes (0,) split and (1,): NumPy gives an empty array; Heat raises on two ranks
    (and gives the empty array on one rank) *)
Theorem C45_empty_broadcast_refuted :
  let e := mk_bnd (mk_dnd [mk_arr [0] (fun _ => 0); mk_arr [0] (fun _ => 0)] [0] (Some 0%nat)) (Some true) in
  let o := mk_bnd (mk_dnd [mk_arr [1] (fun _ => 5); mk_arr [1] (fun _ => 5)] [1] None) (Some true) in
  let e1 := mk_bnd (mk_dnd [mk_arr [0] (fun _ => 0)] [0] (Some 0%nat)) (Some true) in
  let o1 := mk_bnd (mk_dnd [mk_arr [1] (fun _ => 5)] [1] None) (Some true) in
  bcast_shape [0] [1] [0] /\ binary_op 0 0 Z.add e o = Err ValueError /\
  exists u, binary_op 0 0 Z.add e1 o1 = Ok u /\ d_gshape (b_arr u) = [0].
Proof.
  cbn zeta. split; [|split; [vm_compute; reflexivity|eexists; split; [vm_compute; reflexivity|reflexivity]]].
  split; [reflexivity|]. intros [|i] Hi; [right; right; auto|simpl in Hi; lia].
Qed.
Print Assumptions C45_empty_broadcast_refuted.

(** a split operand of extent 1 broadcast along its own split axis: the result is right,
    but it is labelled balanced although one rank holds all of it *)
Theorem C45_broadcast_split_flag_refuted :
  let a := mk_bnd (mk_dnd [mk_arr [1] (fun _ => 5); mk_arr [0] (fun _ => 0)] [1] (Some 0%nat)) (Some true) in
  let b := mk_bnd (mk_dnd [mk_arr [4] (fun i => nth 0 i 0); mk_arr [4] (fun i => nth 0 i 0)] [4] None) (Some true) in
  flag_ok a [1; 0] /\
  exists u, binary_op 0 0 Z.add a b = Ok u /\ b_flag u = Some true /\ map (fun t => ash t) (d_locals (b_arr u)) = [[4]; [0]] /\
    ~ flag_ok u [4; 0].
Proof.
  cbn zeta. split; [intros _; vm_compute; reflexivity|]. eexists. split; [vm_compute; reflexivity|]. split; [reflexivity|]. split; [reflexivity|].
  unfold flag_ok. cbn [b_flag b_arr d_split]. intros H. specialize (H eq_refl). vm_compute in H. discriminate.
Qed.
Print Assumptions C45_broadcast_split_flag_refuted.

(** unbalanced (3,1)-split plus replicated row: an instance of C45_binary_partial *)
Example C45_instance :
  let a := mk_bnd (mk_dnd [mk_arr [3; 2] (fun i => dot i [2; 1]); mk_arr [1; 2] (fun i => dot i [2; 1] + 6)] [4; 2] (Some 0%nat)) (Some false) in
  let b := mk_bnd (mk_dnd [mk_arr [2] (fun i => 10 * nth 0 i 0); mk_arr [2] (fun i => 10 * nth 0 i 0)] [2] None) (Some true) in
  rep (b_arr a) [3; 1] (fun i => dot i [2; 1]) /\ bcast_shape [4; 2] [2] [4; 2] /\
  supported 2 [4; 2] [1; 2] [4; 2] (Some 0%nat) None /\
  exists u, binary_op 0 0 Z.add a b = Ok u /\ map flat (d_locals (b_arr u)) = [[0; 11; 2; 13; 4; 15]; [6; 17]].
Proof.
  cbn zeta. split; [|split; [|split]].
  - split; [reflexivity|]. split; [repeat constructor; lia|]. split; [simpl; lia|]. split; [repeat constructor; lia|]. split; [reflexivity|].
    intros [|[|r]] t; simpl; intros E; try (injection E as <-); try (destruct r; discriminate); (split; [reflexivity|]);
    intros idx H; apply in_bounds_nth in H as [L _]; destruct idx as [|a [|b [|]]]; simpl in L; try discriminate; simpl; lia.
  - split; [reflexivity|]. intros [|[|i]] Hi; simpl in *; [right; right; auto|left; auto|lia].
  - right. simpl. lia.
  - eexists. split; [vm_compute; reflexivity|]. vm_compute. reflexivity.
Qed.
