(** C33 (roll), C34 (flip, rot90): where every element goes.
    [rep x cnts G]: the local arrays of [x] together are the global array [G], cut along
    its split axis into pieces of extents [cnts]. *)
From Verif Require Import Base BaseLemmas LayoutModel NdSpec TensorSpec TensorLemmas OpsModel RedistModel ShapeSpec ShapeModel ShapeProps BinModel BinProofs2 RollSpec RollModel RollProofs RollProofs2 RollProofs3 RollProofs4.
Open Scope Z_scope.

(** * C33 *)
(** Along the split axis, on the list of slabs: roll always returns, the layout is
    unchanged and slab [g] ends at position (g + shift) mod n. *)
Theorem C33_roll_slabs : forall (A : Type) (d : dist A) (shift : Z) (dflt : A),
  exists d', roll_split d shift = Some d' /\ lens d' = lens d /\
    forall g, (g < length (glob d))%nat ->
      nth (Z.to_nat ((Z.of_nat g + shift) mod Z.of_nat (length (glob d)))) (glob d') dflt = nth g (glob d) dflt.
Proof.
  intros A d shift dflt. destruct (roll_split_ok d shift dflt) as (d' & E & EL & EG). exists d'. split; [auto|]. split; [auto|].
  intros g Hg. rewrite EG. 
  - fold (wrap_index g shift (length (glob d))). now rewrite wrap_back.
  - pose proof (Z.mod_pos_bound (Z.of_nat g + shift) (Z.of_nat (length (glob d)))). lia.
Qed.
Print Assumptions C33_roll_slabs.

(** Every message sent is received: its receiver has posted a receive for its sender and
    tag, and only one; and no receive stays without a message (C33_roll_slabs returns). *)
Theorem C33_roll_matched : forall (A : Type) (d : dist A) (shift : Z) (q : nat) (m : imsg A),
  (q < length d)%nat -> In m (roll_sends d shift q) ->
  (i_dst m < length d)%nat /\
  length (filter (fun p => Nat.eqb (fst p) q && Nat.eqb (snd p) (i_tag m)) (roll_recvs d shift (i_dst m))) = 1%nat /\
  length (filter (fun m' => Nat.eqb (i_dst m') (i_dst m) && Nat.eqb (i_tag m') (i_tag m)) (roll_sends d shift q)) = 1%nat.
Proof.
  intros A d shift q m Hq HI. destruct m as [r t v].
  set (ls := lens d). set (n := list_sum ls). assert (Lr : length ls = length d) by apply lens_length.
  assert (NE : (0 < nth q ls 0)%nat).
  { unfold ls. rewrite lens_nth. unfold roll_sends in HI. apply in_map_iff in HI as ([j w] & _ & HI). apply in_combine_l, in_seq in HI. lia. }
  rewrite (roll_send_eq d shift q v Hq) in HI. fold ls in HI. fold n in HI. apply in_map_iff in HI as (j & E & Hj). apply in_seq in Hj.
  pose proof (psum_bound ls q j ltac:(lia) ltac:(lia)) as Hg. fold n in Hg. set (g := (psum ls q + j)%nat) in *.
  pose proof (wrap_lt g shift n ltac:(lia)) as Ht. destruct (locate ls _ Ht) as (r' & i & Hr & Hi & El).
  cbv zeta in E. rewrite El, index_map_nth in E by auto. rewrite <- El in E. injection E as <- <- Ev. cbn [i_dst i_tag].
  split; [lia|]. split.
  - unfold roll_recvs. fold ls. fold n. cbv zeta. rewrite filter_map_comm. cbn [fst snd].
    rewrite map_length. replace (length (nth r' d [])) with (nth r' ls 0%nat) by apply lens_nth. rewrite (filter_one _ i); auto.
    intros k Hk. rewrite andb_true_iff, !Nat.eqb_eq. split; [intros [_ W]; lia|].
    intros ->. split; [|lia]. rewrite <- El, wrap_back by auto. unfold g. apply index_map_nth; lia.
  - rewrite (roll_send_eq d shift q v Hq). fold ls. fold n. cbv zeta. rewrite filter_map_comm. cbn [i_dst i_tag].
    rewrite map_length. rewrite (filter_one _ j); [auto|lia|]. intros k Hk. rewrite andb_true_iff, !Nat.eqb_eq. split.
    + intros [_ W]. fold g in W. assert (Hk2 : (psum ls q + k < n)%nat) by (apply psum_bound; lia).
      pose proof (wrap_back (psum ls q + k) shift n Hk2) as W1. pose proof (wrap_back g shift n Hg) as W2. rewrite W in W1. unfold g in *. lia.
    + intros ->. fold g. split; auto. rewrite El. apply index_map_nth; auto.
Qed.
Print Assumptions C33_roll_matched.

(** n-dimensional arrays, any split, layout and process count: element idx of the result
    is the element of x whose index along each rolled axis is smaller by the (summed)
    shift, around the end.  Shape, split and layout are those of x.
    [roll .. = Some (Ok y)]: the call returns y on all ranks (no rank waits for ever). *)
Definition rolled {A} (x : dnd A) (cnts : list Z) (G : list Z -> A) (call : option (res (dnd A))) (sas : list (Z * nat)) : Prop :=
  exists y, call = Some (Ok y) /\ d_gshape y = d_gshape x /\ d_split y = d_split x /\
    rep y cnts (fun idx => G (roll_src (d_gshape x) sas idx)).

Lemma rolled_pairs {A} (dflt : A) (x : dnd A) cnts (G : list Z -> A) sas :
  rep x cnts G -> (0 < length cnts)%nat -> rolled x cnts G (option_map (@Ok _) (roll_pairs dflt x sas)) sas.
Proof.
  intros HR HP. destruct (roll_pairs_ok dflt x G cnts sas HR HP) as (y & -> & Eg & Es & R). exists y. split; [reflexivity|].
  split; [auto|]. split; [auto|]. unfold rep. now rewrite Eg, Es.
Qed.
Lemma sanitize_int n a : valid_axis n a -> exists b, sanitize_axis n (AxInt a) = Ok (AxInt b) /\ Z.to_nat b = norm n a.
Proof.
  intros V. unfold valid_axis in V. unfold sanitize_axis. destruct (Nat.eqb_spec n 0); [lia|]. unfold norm.
  destruct ((0 <=? a) && (a <? Z.of_nat n)) eqn:E; [exists a; split; auto; destruct (Z.ltb_spec a 0); [lia|auto]|].
  destruct (Z.ltb_spec a 0); [|lia].
  replace ((a + Z.of_nat n <? 0) || (Z.of_nat n <=? a + Z.of_nat n)) with false by (symmetry; lia). eauto.
Qed.
Theorem C33_roll_int : forall (A : Type) (dflt : A) (x : dnd A) (G : list Z -> A) (cnts : list Z) (shift a : Z),
  rep x cnts G -> (0 < length cnts)%nat -> valid_axis (length (d_gshape x)) a ->
  rolled x cnts G (roll dflt x (ShInt shift) (AxInt a)) [(shift, norm (length (d_gshape x)) a)].
Proof.
  intros A dflt x G cnts shift a HR HP V. destruct (sanitize_int _ a V) as (b & E & Eb). unfold roll. rewrite E, Eb.
  now apply rolled_pairs.
Qed.
Print Assumptions C33_roll_int.
Theorem C33_roll_axes : forall (A : Type) (dflt : A) (x : dnd A) (G : list Z -> A) (cnts : list Z) (shifts axes : list Z),
  rep x cnts G -> (0 < length cnts)%nat -> (0 < length (d_gshape x))%nat ->
  (forall a, In a axes -> valid_axis (length (d_gshape x)) a) -> length shifts = length axes ->
  rolled x cnts G (roll dflt x (ShSeq shifts) (AxTuple axes)) (combine shifts (map (norm (length (d_gshape x))) axes)).
Proof.
  intros A dflt x G cnts shifts axes HR HP Hn V L.
  destruct (flip_axes_ok (length (d_gshape x)) (AxTuple axes) axes Hn eq_refl V) as (l' & E & El). cbn [flip_axes] in E.
  unfold roll. rewrite E. assert (L' : length l' = length axes) by (rewrite <- (map_length Z.to_nat l'), El, map_length; auto).
  rewrite L', L, Nat.eqb_refl, El. now apply rolled_pairs.
Qed.
Print Assumptions C33_roll_axes.
(** one shift for several axes *)
Theorem C33_roll_int_axes : forall (A : Type) (dflt : A) (x : dnd A) (G : list Z -> A) (cnts : list Z) (shift : Z) (axes : list Z),
  rep x cnts G -> (0 < length cnts)%nat -> (0 < length (d_gshape x))%nat ->
  (forall a, In a axes -> valid_axis (length (d_gshape x)) a) ->
  rolled x cnts G (roll dflt x (ShInt shift) (AxTuple axes)) (map (fun a => (shift, norm (length (d_gshape x)) a)) axes).
Proof.
  intros A dflt x G cnts shift axes HR HP Hn V.
  destruct (flip_axes_ok (length (d_gshape x)) (AxTuple axes) axes Hn eq_refl V) as (l' & E & El). cbn [flip_axes] in E.
  unfold roll. rewrite E. replace (map (fun a => (shift, Z.to_nat a)) l') with (map (fun a => (shift, norm (length (d_gshape x)) a)) axes).
  - now apply rolled_pairs.
  - transitivity (map (fun a => (shift, a)) (map Z.to_nat l')); [rewrite El, map_map; auto | now rewrite map_map].
Qed.
Print Assumptions C33_roll_int_axes.
(** Rolling back restores the array. *)
Theorem C33_roll_back : forall (gsh : list Z) (sas : list (Z * nat)) (idx : list Z), in_bounds gsh idx ->
  roll_src gsh sas (roll_src gsh (map (fun p => (- fst p, snd p)) sas) idx) = idx.
Proof.
  intros gsh sas idx H. apply in_bounds_nth in H as [L B].
  apply (@nth_ext2 _ _ _ 0); [now rewrite roll_src_length|]. rewrite roll_src_length. intros k Hk.
  rewrite !roll_src_nth by auto.
  assert (E : total_shift (map (fun p => (- fst p, snd p)) sas) k = - total_shift sas k).
  { clear. induction sas as [|[s a] sas IH]; [reflexivity|]. cbn [map fst snd]. rewrite !total_shift_cons, IH. destruct (a =? k)%nat; lia. }
  rewrite E, Zminus_mod_idemp_l. replace (nth k idx 0 - - total_shift sas k - total_shift sas k) with (nth k idx 0) by lia.
  apply Z.mod_small, B; auto.
Qed.
Print Assumptions C33_roll_back.
(** An axis out of range, or different numbers of shifts and axes, raise ValueError. *)
Theorem C33_roll_rejects : forall (A : Type) (dflt : A) (x : dnd A) (shifts axes : list Z),
  (0 < length (d_gshape x))%nat ->
  (exists a, In a axes /\ ~ valid_axis (length (d_gshape x)) a) \/
  ((forall a, In a axes -> valid_axis (length (d_gshape x)) a) /\ length shifts <> length axes) ->
  roll dflt x (ShSeq shifts) (AxTuple axes) = Some (Err ValueError).
Proof.
  intros A dflt x shifts axes Hn [E|[V N]]; unfold roll.
  - destruct (LayoutProofs.sanitize_axis_tuple_iff (ndim:=length (d_gshape x)) axes Hn) as [_ H2]. now rewrite H2.
  - destruct (flip_axes_ok (length (d_gshape x)) (AxTuple axes) axes Hn eq_refl V) as (l' & E & El). cbn [flip_axes] in E. rewrite E.
    assert (L' : length l' = length axes) by (rewrite <- (map_length Z.to_nat l'), El, map_length; auto).
    rewrite L'. destruct (Nat.eqb_spec (length shifts) (length axes)); [contradiction|auto].
Qed.
Print Assumptions C33_roll_rejects.
(** Side effect: a list given as shift loses its entries for the split axis (L2475
    deletes from the caller's list), so the same call repeated with it fails. *)
Theorem C33_shift_list_changed : forall (A : Type) (x : dnd A) (s : nat) (shifts : list Z) (axes : list nat),
  d_split x = Some s -> (1 < length (d_locals x))%nat -> length shifts = length axes -> In s axes ->
  (length (shift_after x shifts axes) < length shifts)%nat.
Proof.
  intros A x s shifts axes Es HP L HI. unfold shift_after. rewrite Es.
  replace (1 <? length (d_locals x))%nat with true by (symmetry; now apply Nat.ltb_lt).
  replace (mem_nat s axes) with true by (symmetry; now apply mem_nat_iff). cbn [andb]. rewrite map_length.
  revert axes L HI. induction shifts as [|a sh IH]; intros [|b ax] L HI; cbn in L, HI; try lia; try tauto.
  cbn [combine filter snd]. destruct HI as [->|HI].
  - rewrite Nat.eqb_refl. cbn [negb length]. pose proof (filter_length_le' (fun p : Z * nat => negb (snd p =? s)%nat) (combine sh ax)) as F.
    rewrite combine_length in F. cbn. lia.
  - injection L as L. specialize (IH ax L HI). destruct (negb _); cbn [length]; lia.
Qed.
Print Assumptions C33_shift_list_changed.
(** non-trivial case: 7 rows on 4 ranks (layout 3,0,1,3), rolled by -9 *)
Definition roll_ex : dist nat := [[0; 1; 2]; []; [3]; [4; 5; 6]]%nat.
Example C33_example : roll_split roll_ex (-9) = Some [[2; 3; 4]; []; [5]; [6; 0; 1]]%nat.
Proof. reflexivity. Qed.

(** * C34 *)
(** flip(x, axis): element idx of the result is the element of x at idx mirrored along the
    given axes; shape and split unchanged; along the split axis the result is balanced. *)
Theorem C34_flip : forall (A : Type) (dflt : A) (x : dnd A) (G : list Z -> A) (cnts : list Z) (axis : axis_arg) (l : list Z),
  rep x cnts G -> (0 < length cnts)%nat -> (0 < length (d_gshape x))%nat ->
  let n := length (d_gshape x) in
  match axis with                                   (* the axes meant by the argument *)
  | AxNone => l = map Z.of_nat (seq 0 n)
  | AxInt a => l = [a]
  | AxTuple t => l = t
  | AxOther => False
  end ->
  (forall a, In a l -> valid_axis n a) -> NoDup (map (norm n) l) ->
  exists y cnts', flip dflt x axis = Some (Ok y) /\ d_gshape y = d_gshape x /\ d_split y = d_split x /\
    rep y cnts' (fun idx => G (flip_src (d_gshape x) (map (norm n) l) idx)) /\
    forall s, d_split x = Some s -> In s (map (norm n) l) -> (1 < length cnts)%nat ->
      cnts' = map Z.of_nat (counts_of (Z.to_nat (nth s (d_gshape x) 0)) (length cnts)).
Proof.
  intros A dflt x G cnts axis l HR HP Hn n HA V ND.
  assert (EA : flip_axes n axis = AxTuple l) by (destruct axis; subst; auto; contradiction).
  destruct (flip_ok dflt x G cnts axis l HR HP Hn EA V ND) as (y & E & Eg & Es & R). fold n in R.
  exists y. eexists. split; [exact E|]. split; [auto|]. split; [auto|]. unfold rep. rewrite Eg, Es. split; [exact R|].
  intros s Hs HI HC. rewrite Hs. destruct (in_dec _ _ _); [|contradiction]. apply Nat.ltb_lt in HC. now rewrite HC.
Qed.
Print Assumptions C34_flip.
(** the index map is an involution, so flipping twice gives the array back *)
Theorem C34_flip_twice : forall (gsh : list Z) (axes : list nat) (idx : list Z), length idx = length gsh ->
  flip_src gsh axes (flip_src gsh axes idx) = idx.
Proof.
  intros gsh axes idx L. apply (@nth_ext2 _ _ _ 0); [now rewrite flip_src_length|]. rewrite flip_src_length. intros k Hk.
  rewrite !flip_src_nth by auto. destruct (in_dec _ _ _); lia.
Qed.
Print Assumptions C34_flip_twice.
Theorem C34_flip_rejects : forall (A : Type) (dflt : A) (x : dnd A) (l : list Z),
  (0 < length (d_gshape x))%nat ->
  let n := length (d_gshape x) in
  ((exists a, In a l /\ ~ valid_axis n a) -> flip dflt x (AxTuple l) = Some (Err ValueError)) /\
  ((forall a, In a l -> valid_axis n a) -> ~ NoDup (map (norm n) l) -> flip dflt x (AxTuple l) = Some (Err RuntimeError)).
Proof.
  intros A dflt x l Hn n. split.
  - intros E. unfold flip. fold n. cbn [flip_axes]. destruct (LayoutProofs.sanitize_axis_tuple_iff (ndim:=n) l Hn) as [_ H2]. now rewrite H2.
  - intros V ND. destruct (flip_axes_ok n (AxTuple l) l Hn eq_refl V) as (l' & E & El). unfold flip. fold n. rewrite E, El.
    destruct (nodupb (map (norm n) l)) eqn:EN; [|reflexivity]. apply nodupb_iff in EN. contradiction.
Qed.
Print Assumptions C34_flip_rejects.

(** rot90(x, k, (a0, a1)) of a split array is k mod 4 quarter turns from a0 towards a1;
    an odd number exchanges a0 and a1 as split axis. *)
Theorem C34_rot90 : forall (A : Type) (dflt : A) (x : dnd A) (G : list Z -> A) (cnts : list Z) (k a0 a1 : Z),
  rep x cnts G -> (0 < length cnts)%nat -> d_split x <> None ->
  let n := length (d_gshape x) in let p0 := norm n a0 in let p1 := norm n a1 in
  valid_axis n a0 -> valid_axis n a1 -> p0 <> p1 ->
  let (sh', G') := turns (Z.to_nat (k mod 4)) p0 p1 (d_gshape x, G) in
  exists y cnts', rot90 dflt x k a0 a1 = Some (Ok y) /\ d_gshape y = sh' /\
    d_split y = option_map (fun s => if Z.even k then s else if (s =? p0)%nat then p1 else if (s =? p1)%nat then p0 else s) (d_split x) /\
    rep y cnts' G'.
Proof.
  intros A dflt x G cnts k a0 a1 HR HP _ n p0 p1 V0 V1 N.
  destruct (rot90_ok dflt x G cnts k a0 a1 HR HP V0 V1 N) as (y & cnts' & E & Eg & Es & R). fold n p0 p1 in Eg, Es, R.
  destruct (turns _ _ _ _) as [sh' G']. cbn [fst snd] in *. exists y, cnts'. split; [auto|]. split; [auto|]. split; [|auto].
  rewrite Es. destruct (Z.even k); [now destruct (d_split x)|reflexivity].
Qed.
Print Assumptions C34_rot90.
(** four quarter turns are the identity on shape and elements *)
Theorem C34_full_turn : forall (A : Type) (p0 p1 : nat) (sh : list Z) (G : list Z -> A),
  (p0 < length sh)%nat -> (p1 < length sh)%nat -> p0 <> p1 ->
  fst (turns 4 p0 p1 (sh, G)) = sh /\ forall idx, length idx = length sh -> snd (turns 4 p0 p1 (sh, G)) idx = G idx.
Proof.
  intros A p0 p1 sh G H0 H1 N. cbn [turns turn fst snd].
  assert (T : forall l : list Z, (p0 < length l)%nat -> (p1 < length l)%nat ->
    upd (upd (upd (upd l p0 (nth p1 l 0)) p1 (nth p0 l 0)) p0 (nth p1 (upd (upd l p0 (nth p1 l 0)) p1 (nth p0 l 0)) 0)) p1
        (nth p0 (upd (upd l p0 (nth p1 l 0)) p1 (nth p0 l 0)) 0) = l) by (intros l A0 A1; apply (swap_swap p0 p1 l); auto).
  assert (N' : p1 <> p0) by auto.
  assert (U0 : forall (l : list Z) v w, (p0 < length l)%nat -> nth p0 (upd (upd l p0 w) p1 v) 0 = w)
    by (intros l v w Hl; rewrite upd_other by auto; apply upd_same; auto).
  assert (U1 : forall (l : list Z) v w, (p1 < length l)%nat -> nth p1 (upd (upd l p0 w) p1 v) 0 = v)
    by (intros l v w Hl; apply upd_same; rewrite upd_length; auto).
  split.
  - rewrite !T by (rewrite ?upd_length; auto). reflexivity.
  - intros idx L. f_equal. rewrite !T by (rewrite ?upd_length; auto).
    rewrite ?U0, ?U1 by (rewrite ?upd_length; lia). rewrite ?U0, ?U1 by (rewrite ?upd_length; lia).
    apply (@nth_ext2 _ _ _ 0); [now rewrite !upd_length|]. rewrite !upd_length. intros j Hj.
    destruct (Nat.eq_dec j p1) as [->|M1]; [rewrite U1 by (rewrite !upd_length; lia); lia|].
    destruct (Nat.eq_dec j p0) as [->|M0]; [rewrite U0 by (rewrite !upd_length; lia); lia|].
    now rewrite !upd_other by auto.
Qed.
Print Assumptions C34_full_turn.

(** non-trivial case: a 3 x 2 array cut along axis 0 into 2 + 1 rows *)
Definition flip_ex : dnd Z :=
  mk_dnd [mk_arr [2; 2] (fun idx => nth 0 idx 0 * 10 + nth 1 idx 0); mk_arr [1; 2] (fun idx => (nth 0 idx 0 + 2) * 10 + nth 1 idx 0)] [3; 2] (Some 0%nat).
Example C34_example_rep : rep flip_ex [2; 1] (fun idx => nth 0 idx 0 * 10 + nth 1 idx 0).
Proof.
  unfold rep, flip_ex. cbn [d_gshape d_split d_locals]. split; [reflexivity|]. split; [repeat constructor; lia|].
  split; [cbn; lia|]. split; [repeat constructor; lia|]. split; [reflexivity|].
  intros r t Ht. destruct r as [|[|r]]; cbn [nth_error] in Ht; [injection Ht as <-|injection Ht as <-|destruct r; discriminate];
    (split; [reflexivity|]); intros idx Hi; pose proof (in_bounds_length _ _ Hi) as L; destruct idx as [|i [|j [|]]]; try discriminate; cbv [move_axis_idx upd nth adat firstn zsum fold_right]; lia.
Qed.
Example C34_example_flip : exists y, flip 0 flip_ex (AxInt 0) = Some (Ok y) /\
  map (fun t => map (adat t) (row_major (ash t))) (d_locals y) = [[20; 21; 10; 11]; [0; 1]].
Proof. eexists. split; [vm_compute; reflexivity|]. vm_compute. reflexivity. Qed.
