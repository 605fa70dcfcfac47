(** C84: equal, allclose and isclose answer for the global arrays. *)
From Verif Require Import Base ShapeSpec BaseLemmas LayoutModel NdSpec TensorSpec TensorLemmas NdLemmas OpsModel RedistModel ShapeModel ShapeProps BinSpec BinModel BinProofs BinProofs2 BinProps RollModel RepeatModel CloseSpec CloseModel CloseProofs CloseProofs2.
Open Scope Z_scope.

(** ht.equal(x, y), for every pair of shapes, every layout of either operand, and every element
    comparison: it answers on every process, and True exactly if the shapes and all the elements
    are the same.  Needed: arrays that have to be compared element by element are not split along
    two different axes.  Two one-element arrays are compared as Python numbers, whatever their shapes. *)
Theorem C84_equal_partial : forall (A : Type) (dflt : A) (py : A -> A) (eqb : A -> A -> bool) (u1 u2 : bnd A) (G1 G2 : list Z -> A) (c1 c2 : list Z),
  let x := b_arr u1 in let y := b_arr u2 in
  rep x c1 G1 -> rep y c2 G2 -> flag_ok u1 c1 -> flag_ok u2 c2 ->
  (0 < length (d_locals x))%nat -> length (d_locals y) = length (d_locals x) ->
  (zprod (d_gshape x) <> 1 -> zprod (d_gshape y) <> 1 -> d_gshape x = d_gshape y ->
     forall s t, d_split x = Some s -> d_split y = Some t -> s = t) ->
  exists b, ht_equal dflt py eqb u1 u2 = Ok b /\
    (b = true <-> if (zprod (d_gshape x) =? 1) && (zprod (d_gshape y) =? 1)
                  then eqb (py (G1 (origin (d_gshape x)))) (py (G2 (origin (d_gshape y)))) = true
                  else same_elements eqb (d_gshape x) (d_gshape y) G1 G2).
Proof. intros. subst x y. eapply equal_ok; eauto. Qed.
Print Assumptions C84_equal_partial.

(** ht.allclose(x, y) for arrays of one shape: if at most one of them is split, or there is one
    process, or they are split along the same axis with the same layout, or along different axes
    with x balanced. *)
Theorem C84_allclose_partial : forall (A : Type) (dflt : A) (close : A -> A -> bool) (u1 u2 : bnd A) (G1 G2 : list Z -> A) (c1 c2 : list Z),
  let x := b_arr u1 in let y := b_arr u2 in let P := length (d_locals x) in
  rep x c1 G1 -> rep y c2 G2 -> flag_ok u1 c1 -> flag_ok u2 c2 ->
  (0 < P)%nat -> length (d_locals y) = P -> d_gshape x = d_gshape y ->
  match d_split x, d_split y with
  | Some s, Some t => P = 1%nat \/ (if Nat.eqb s t then c1 = c2 else c1 = map Z.of_nat (counts_of (Z.to_nat (nth s (d_gshape x) 0)) P))
  | _, _ => True
  end ->
  exists b, allclose dflt close u1 u2 = Ok b /\ (b = true <-> same_elements close (d_gshape x) (d_gshape y) G1 G2).
Proof. intros. subst x y P. eapply allclose_ok; eauto. Qed.
Print Assumptions C84_allclose_partial.

(** ... and against a number (a 0-dimensional array), for every layout of x *)
Theorem C84_allclose_scalar : forall (A : Type) (dflt : A) (close : A -> A -> bool) (u1 u2 : bnd A) (G1 G2 : list Z -> A) (c1 c2 : list Z),
  let x := b_arr u1 in let y := b_arr u2 in
  rep x c1 G1 -> rep y c2 G2 -> (0 < length (d_locals x))%nat -> length (d_locals y) = length (d_locals x) -> d_gshape y = [] ->
  exists b, allclose dflt close u1 u2 = Ok b /\ (b = true <-> forall idx, in_bounds (d_gshape x) idx -> close (G1 idx) (G2 []) = true).
Proof. intros. subst x y. eapply allclose_scalar_right; eauto. Qed.
Print Assumptions C84_allclose_scalar.

(** ht.isclose(x, y) of replicated arrays, or on one process: a replicated array of the answers *)
Theorem C84_isclose_partial : forall (A : Type) (dflt : A) (close : A -> A -> bool) gathered (u1 u2 : bnd A) (G1 G2 : list Z -> A) (c1 c2 : list Z),
  let x := b_arr u1 in let y := b_arr u2 in let P := length (d_locals x) in
  rep x c1 G1 -> rep y c2 G2 -> flag_ok u1 c1 -> flag_ok u2 c2 -> (0 < P)%nat -> length (d_locals y) = P -> d_gshape x = d_gshape y ->
  (P = 1%nat \/ (d_split x = None /\ d_split y = None)) ->
  exists z, isclose dflt close gathered u1 u2 = Ok z /\ d_gshape z = d_gshape x /\ d_split z = None /\ rep z c1 (fun idx => close (G1 idx) (G2 idx)).
Proof. intros. subst x y P. eapply isclose_replicated_ok; eauto. Qed.
Print Assumptions C84_isclose_partial.

(** isclose of a split operand on more than one process, for all inputs and whatever the
    Allgather delivers: the result says it is split, every process holds a tensor of the whole
    shape, so it is not any array at all. *)
Theorem C84_isclose_refuted : forall (A : Type) (dflt : A) (close : A -> A -> bool) gathered (u1 u2 : bnd A) z s,
  d_split (b_arr u1) = Some s -> (1 < length (d_locals (b_arr u1)))%nat ->
  isclose dflt close gathered u1 u2 = Ok z -> nth s (d_gshape z) 0 <> 0 ->
  d_split z = Some s /\ ~ exists cnts G, rep z cnts G.
Proof.
  intros A dflt close gathered u1 u2 z s Sx HP E Hn. unfold isclose in E.
  assert (K : forall p, sanitize_close dflt u1 u2 = Ok p -> fst p = b_arr u1).
  { intros p Ep. unfold sanitize_close in Ep. rewrite Sx in Ep. assert (D : distributed (b_arr u1) = true) by (unfold distributed; rewrite Sx; now apply Nat.ltb_lt). rewrite D in Ep.
    cbn [negb andb] in Ep. rewrite andb_false_r in Ep. cbn [andb] in Ep.
    destruct (negb (distributed (b_arr u2)) && _).
    - destruct (scatter (b_arr u2) s) as [t2|]; cbn [bind] in Ep; [|discriminate Ep]. destruct (sanitize_dist _ _ _ _ _ _); cbn [bind] in Ep; [|discriminate Ep]. injection Ep as <-. reflexivity.
    - destruct (oeqb _ _); [injection Ep as <-; reflexivity|]. destruct (Nat.eqb _ 0); [injection Ep as <-; reflexivity|]. destruct (Nat.leb _ _); [discriminate Ep|injection Ep as <-; reflexivity]. }
  destruct (sanitize_close dflt u1 u2) as [p|] eqn:Ep; cbn [bind] in E; [|discriminate E]. specialize (K p eq_refl).
  destruct (OpsModel.all_ok _) as [ls|]; cbn [bind] in E; [|discriminate E]. rewrite K in E.
  assert (D : distributed (b_arr u1) = true) by (unfold distributed; rewrite Sx; now apply Nat.ltb_lt). rewrite D in E.
  destruct (bshape _ _) as [osh|]; cbn [bind] in E; [|discriminate E]. injection E as <-. split; [exact Sx|].
  apply (whole_everywhere _ s); cbn [d_locals d_split d_gshape]; auto; [now rewrite map_length, seq_length|].
  intros t Ht. apply in_map_iff in Ht as (r & <- & _). reflexivity.
Qed.
Print Assumptions C84_isclose_refuted.

(** a vector given by its values, cut into pieces *)
Definition vec_of (vals cnts : list Z) (flag : option bool) : bnd Z :=
  mk_bnd (mk_dnd (map (fun r => mk_arr [nth r cnts 0] (fun i => nth (Z.to_nat (nth 0 i 0 + zsum (firstn r cnts))) vals 0)) (seq 0 (length cnts))) [zsum cnts] (Some 0%nat)) flag.
Lemma vec_rep vals cnts flag : Forall (fun c => 0 <= c) cnts -> rep (b_arr (vec_of vals cnts flag)) cnts (fun i => nth (Z.to_nat (nth 0 i 0)) vals 0).
Proof.
  intros H. unfold rep, vec_of. cbn [b_arr d_gshape d_split d_locals].
  assert (0 <= zsum cnts) by (clear -H; induction H; [simpl; lia|]; change (0 <= x + zsum l); lia).
  split; [now rewrite map_length, seq_length|]. split; [repeat constructor; auto|]. split; [simpl; lia|]. split; [auto|]. split; [reflexivity|].
  intros r t Ht. rewrite nth_error_map in Ht. destruct (nth_error (seq _ _) r) as [q|] eqn:E; [|discriminate Ht]. injection Ht as <-.
  assert (q = r) as ->. { assert (r < length cnts)%nat by (rewrite <- (seq_length (length cnts) 0); apply nth_error_Some; congruence). apply nth_error_nth with (d := 0%nat) in E. rewrite seq_nth in E by auto. lia. }
  split; [reflexivity|]. intros idx Hi. cbn [adat]. inversion Hi as [|? k ? l H1 H2]; subst. inversion H2; subst. reflexivity.
Qed.

(** the same values split along different axes: equal raises instead of answering *)
Definition by_rows : bnd Z := mk_bnd (mk_dnd [mk_arr [1; 2] (fun _ => 1); mk_arr [1; 2] (fun _ => 1)] [2; 2] (Some 0%nat)) (Some true).
Definition by_cols : bnd Z := mk_bnd (mk_dnd [mk_arr [2; 1] (fun _ => 1); mk_arr [2; 1] (fun _ => 1)] [2; 2] (Some 1%nat)) (Some true).
Theorem C84_equal_splits_refuted : rep (b_arr by_rows) [1; 1] (fun _ => 1) /\ rep (b_arr by_cols) [1; 1] (fun _ => 1) /\
  ht_equal 0 (fun z => z) Z.eqb by_rows by_cols = Err ValueError.
Proof.
  split; [|split; [|reflexivity]]; (split; [reflexivity|split; [repeat constructor; lia|split; [simpl; lia|split; [repeat constructor; lia|split; [reflexivity|]]]]];
    intros [|[|r]] t Ht; cbn in Ht; try (injection Ht as <-); try (destruct r; discriminate Ht); (split; reflexivity)).
Qed.
Print Assumptions C84_equal_splits_refuted.

(** one-element float64 arrays go through Python numbers into float32: elements are counted in
    units of 2^-30, between 1 and 2 a float32 is a multiple of 2^7 units; 1 and 1 + 2^-30 differ
    as elements of longer arrays and are "equal" as one-element arrays *)
Definition to_float32 (z : Z) : Z := ((z + 64) / 128) * 128.
Theorem C84_equal_one_element_refuted :
  let one := vec_of [2 ^ 30] [1; 0] (Some true) in let more := vec_of [2 ^ 30 + 1] [1; 0] (Some true) in
  let one2 := vec_of [2 ^ 30; 2 ^ 30] [1; 1] (Some true) in let more2 := vec_of [2 ^ 30 + 1; 2 ^ 30 + 1] [1; 1] (Some true) in
  ht_equal 0 to_float32 Z.eqb one more = Ok true /\ ht_equal 0 to_float32 Z.eqb one2 more2 = Ok false /\
  ~ same_elements Z.eqb [1] [1] (fun _ => 2 ^ 30) (fun _ => 2 ^ 30 + 1).
Proof.
  cbn zeta. split; [vm_compute; reflexivity|]. split; [vm_compute; reflexivity|]. intros [_ H]. specialize (H [0] ltac:(repeat constructor; lia)). discriminate H.
Qed.
Print Assumptions C84_equal_one_element_refuted.

(** vectors split the same way but laid out differently: allclose compares whatever lies on the
    same process, broadcasting pieces of length 1.  Equal vectors are reported different, and
    different vectors equal. *)
Theorem C84_allclose_layout_refuted :
  let v (l : list Z) c := vec_of l c (Some false) in
  allclose 0 Z.eqb (v [1; 2; 3; 4] [1; 3]) (v [1; 2; 3; 4] [3; 1]) = Ok false /\
  allclose 0 Z.eqb (v [1; 2; 2; 2] [1; 3]) (v [1; 1; 1; 2] [3; 1]) = Ok true /\
  ht_equal 0 (fun z => z) Z.eqb (v [1; 2; 3; 4] [1; 3]) (v [1; 2; 3; 4] [3; 1]) = Ok true /\
  ht_equal 0 (fun z => z) Z.eqb (v [1; 2; 2; 2] [1; 3]) (v [1; 1; 1; 2] [3; 1]) = Ok false.
Proof. cbn zeta. repeat split; vm_compute; reflexivity. Qed.
Print Assumptions C84_allclose_layout_refuted.

(** a matrix against a vector, both split along axis 0 (two different axes of the broadcast):
    each process compares its rows with its own entries of the vector.  NumPy says False. *)
Definition two_rows : bnd Z := mk_bnd (mk_dnd [mk_arr [1; 2] (fun _ => 1); mk_arr [1; 2] (fun _ => 2)] [2; 2] (Some 0%nat)) (Some true).
Theorem C84_allclose_broadcast_refuted :
  rep (b_arr two_rows) [1; 1] (fun i => nth 0 i 0 + 1) /\ rep (b_arr (vec_of [1; 2] [1; 1] (Some true))) [1; 1] (fun i => nth (Z.to_nat (nth 0 i 0)) [1; 2] 0) /\
  allclose 0 Z.eqb two_rows (vec_of [1; 2] [1; 1] (Some true)) = Ok true /\
  in_bounds [2; 2] [0; 1] /\ Z.eqb (nth 0 [0; 1] 0 + 1) (nth (Z.to_nat (nth 0 (tl [0; 1]) 0)) [1; 2] 0) = false.
Proof.
  split; [|split; [apply vec_rep; repeat constructor; lia|split; [vm_compute; reflexivity|split; [repeat constructor; lia|reflexivity]]]].
  split; [reflexivity|split; [repeat constructor; lia|split; [simpl; lia|split; [repeat constructor; lia|split; [reflexivity|]]]]].
  intros [|[|r]] t Ht; cbn in Ht; try (injection Ht as <-); try (destruct r; discriminate Ht); (split; [reflexivity|]); intros idx Hi; inversion Hi as [|? k ? l H1 H2]; subst; cbn [adat move_axis_idx upd nth firstn zsum fold_right] in *; unfold move_axis_idx; cbn; lia.
Qed.
Print Assumptions C84_allclose_broadcast_refuted.

(** the hypotheses are met by unbalanced vectors on three processes, one process empty *)
Example C84_instance :
  let x := vec_of [5; 6; 7; 8] [0; 3; 1] (Some false) in let y := vec_of [5; 6; 7; 8] [2; 1; 1] None in
  rep (b_arr x) [0; 3; 1] (fun i => nth (Z.to_nat (nth 0 i 0)) [5; 6; 7; 8] 0) /\ rep (b_arr y) [2; 1; 1] (fun i => nth (Z.to_nat (nth 0 i 0)) [5; 6; 7; 8] 0) /\
  flag_ok x [0; 3; 1] /\ flag_ok y [2; 1; 1] /\
  ht_equal 0 (fun z => z) Z.eqb x y = Ok true /\ allclose 0 Z.eqb x x = Ok true /\
  (match isclose 0 Z.eqb (fun _ _ => true) x x with Ok _ => true | Err _ => false end) = true.
Proof.
  cbn zeta. split; [apply vec_rep; repeat constructor; lia|]. split; [apply vec_rep; repeat constructor; lia|].
  split; [intros H; discriminate H|]. split; [intros H; discriminate H|]. repeat split; vm_compute; reflexivity.
Qed.
