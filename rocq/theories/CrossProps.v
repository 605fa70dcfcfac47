(** C97: the cross product of two distributed arrays of vectors. *)
From Verif Require Import Base BaseLemmas LayoutModel LayoutProofs NdSpec TensorSpec TensorLemmas NdLemmas OpsModel OpsProofs2 OpsProofs4 OpsProofs5 RedistModel RedistProofs ShapeSpec ShapeModel ShapeProofs ShapeProofs2 ShapeProofs3 ShapeProofs5 ShapeProofs6 ShapeProps BinModel BinOutModel BinProofs BinProofs2 ReshapeModel FactoryModel FactoryProps RollProps ConcatSpec ConcatModel ConcatProps CloseProofs2 CrossSpec CrossModel CrossProofs.
Open Scope Z_scope.

Lemma int_axis_ok n a : valid_axis n a -> int_axis n a = Ok (norm n a).
Proof. intros H. unfold int_axis. destruct (sanitize_int n a H) as (b & -> & E). now rewrite E. Qed.
Lemma bump_ne k p : bump k p <> k.
Proof. unfold bump. destruct (Nat.leb_spec k p); lia. Qed.
Lemma bshapes_same s : bshapes s s = Ok s.
Proof. unfold bshapes, lpad. rewrite Nat.max_id, Nat.sub_diag. cbn [repeat app]. apply bshape_same. Qed.
Lemma remove_upd_same {A} (l : list A) k v : (k < length l)%nat -> remove_at k (upd l k v) = remove_at k l.
Proof.
  intros H. apply (@nth_ext2 _ _ _ v); [now rewrite !remove_at_length by (rewrite ?upd_length; auto); rewrite upd_length|]. intros i Hi. rewrite !remove_at_nth by (rewrite ?upd_length; auto). destruct (Nat.ltb_spec i k); now rewrite upd_other by lia.
Qed.
Lemma upd_insert (l : list Z) k v : (k < length l)%nat -> upd l k v = py_insert (remove_at k l) k v.
Proof. intros H. rewrite <- (insert_remove (upd l k v) k 0) by (rewrite upd_length; auto). now rewrite remove_upd_same, upd_same by auto. Qed.

Section Main.
Context {V : Type} (zero : V) (sub mul : V -> V -> V).

(** one operand: extended and moved *)
Lemma operand_ok (x : dnd V) (G : list Z -> V) cnts a c sp : rep x cnts G -> (0 < length (d_locals x))%nat -> (a < length (d_gshape x))%nat -> (c < length (d_gshape x))%nat ->
  d_split x = option_map (bump a) sp -> let osh := without a (d_gshape x) in let d := nth a (d_gshape x) 0 in (d = 2 \/ d = 3) ->
  (d = 2 -> forall p, sp = Some p -> cnts = zcounts (nth p osh 0) (length (d_locals x))) ->
  exists y z G', extend zero x a = Ok y /\ move y a c = Ok z /\ d_gshape z = py_insert osh c 3 /\ d_split z = option_map (bump c) sp /\ rep z cnts G' /\ length (d_locals z) = length (d_locals x) /\
    forall idx k, in_bounds (py_insert osh c 3) idx -> 0 <= k < 3 -> G' (upd idx c k) = component zero G a d (without c idx) k.
Proof.
  intros HX HP Ha Hc Es osh d Hd HB. assert (Ns : d_split x <> Some a) by (rewrite Es; destruct sp as [p|]; cbn [option_map]; [intros E; injection E as E; now apply bump_ne in E|discriminate]).
  change (without a (d_gshape x)) with (remove_at a (d_gshape x)) in osh.
  assert (Lo : length osh = (length (d_gshape x) - 1)%nat) by (unfold osh; now apply remove_at_length).
  assert (Hsp : forall p, sp = Some p -> (S p < length (d_gshape x))%nat).
  { intros p ->. cbn [option_map] in Es. destruct HX as (_ & _ & R). rewrite Es in R. destruct R as (B & _). unfold bump in B. destruct (Nat.leb_spec a p); lia. }
  destruct (extend_ok zero sub mul x G cnts a HX HP Ha Ns Hd) as (y & E1 & S1 & P1 & R1).
  { intros E s Hs. rewrite (HB E) with (p := match sp with Some p => p | None => 0%nat end) by (destruct sp; [reflexivity|rewrite Es in Hs; discriminate Hs]). rewrite Es in Hs. destruct sp as [p|]; [|discriminate Hs]. injection Hs as <-. unfold osh. now rewrite remove_nth_bump by auto. }
  fold d in R1. assert (Ly : length (d_gshape y) = length (d_gshape x)) by now rewrite S1, upd_length.
  destruct (move_ok y _ cnts a c R1) as (z & G' & E2 & S2 & P2 & P2' & R2 & D2); try (rewrite Ly; auto).
  assert (SZ : d_gshape z = py_insert osh c 3) by (rewrite S2, S1, remove_upd_same, upd_same by auto; reflexivity).
  exists y, z, G'. split; [exact E1|]. split; [exact E2|]. split; [exact SZ|]. split; [|split; [exact R2|split]].
  - rewrite P1, Es in P2, P2'. destruct sp as [p|]; cbn [option_map] in *; [|auto]. apply P2'; [rewrite Ly; now apply Hsp|reflexivity].
  - destruct R2 as [L2 _]. destruct HX as [L0 _]. lia.
  - intros idx k Hi Hk. pose proof (in_bounds_length _ _ Hi) as LI. rewrite py_insert_length in LI. destruct (insert_bounds_gen osh c 3 idx ltac:(lia) Hi) as [Ho _]. change (without c idx) with (remove_at c idx). set (o := remove_at c idx) in *. pose proof (in_bounds_length _ _ Ho) as LO.
    assert (NI : nth a (py_insert o a k) 0 = k) by (rewrite py_insert_nth by lia; rewrite Nat.ltb_irrefl, Nat.eqb_refl; reflexivity).
    transitivity (third zero d a G (py_insert o a k)).
    + rewrite <- D2.
      * rewrite remove_insert by lia. rewrite NI. f_equal. apply upd_insert. lia.
      * rewrite S1, upd_insert by auto. apply (insert_in zero sub mul); [fold osh; lia|exact Ho|exact Hk].
    + unfold third, component. rewrite NI. reflexivity.
Qed.

Lemma cross3_ext (u u' v v' : Z -> V) i : (forall k, 0 <= k < 3 -> u k = u' k) -> (forall k, 0 <= k < 3 -> v k = v' k) -> cross3 sub mul u v i = cross3 sub mul u' v' i.
Proof. intros HU HW. unfold cross3. rewrite !HU, !HW by (apply Z.mod_pos_bound; lia). reflexivity. Qed.

(** C97.  Two arrays with vectors of two or three components along the axes [aa] and [ab], and the same extents elsewhere; [sp]:
    the position of the split axis among the other axes, the same for both, as are the numbers of rows of every process (balanced
    if one array holds plane vectors).  The result holds u x v along [ac], or the third component alone for two arrays of plane
    vectors - then the split axis must come before [ac]. *)
Theorem C97_cross_partial (a b : dnd V) (ca cb : list Z) (Ga Gb : list Z -> V) (axisa axisb axisc axis : Z) (aa ab ac : nat) (sp : option nat) :
  rep a ca Ga -> rep b cb Gb -> length (d_locals a) = length (d_locals b) -> (0 < length (d_locals a))%nat ->
  length (d_gshape a) = length (d_gshape b) -> vector_axes (length (d_gshape a)) axisa axisb axisc axis aa ab ac ->
  let da := nth aa (d_gshape a) 0 in let db := nth ab (d_gshape b) 0 in let osh := without aa (d_gshape a) in
  (da = 2 \/ da = 3) -> (db = 2 \/ db = 3) -> without ab (d_gshape b) = osh ->
  d_split a = option_map (bump aa) sp -> d_split b = option_map (bump ab) sp -> (sp <> None -> ca = cb) ->
  (da = 2 \/ db = 2 -> forall p, sp = Some p -> ca = zcounts (nth p osh 0) (length (d_locals a))) ->
  let plane := (da =? 2) && (db =? 2) in
  (plane = true -> forall p, sp = Some p -> (p < ac)%nat) ->
  let u o := component zero Ga aa da o in let v o := component zero Gb ab db o in
  exists y, cross zero sub mul a b axisa axisb axisc axis = Ok y /\
    if plane then d_gshape y = osh /\ d_split y = sp /\ rep y ca (fun o => cross3 sub mul (u o) (v o) 2)
    else d_gshape y = with_at ac 3 osh /\ d_split y = option_map (bump ac) sp /\
         rep y ca (fun idx => cross3 sub mul (u (without ac idx)) (v (without ac idx)) (nth ac idx 0)).
Proof.
  intros HA HB HL HP HN HV da db osh Hda Hdb ES EPa EPb EC EB plane Hpl u v.
  assert (AX : (if negb (axis =? -1) || ((axisa =? axis) && (axisb =? axis) && (axisc =? axis))
           then do x <- int_axis (length (d_gshape a)) axis; Ok (x, x, x)
           else do x <- int_axis (length (d_gshape a)) axisa; do y <- int_axis (length (d_gshape b)) axisb; do z <- int_axis (length (d_gshape a)) axisc; Ok (x, y, z)) = Ok (aa, ab, ac) /\
           (aa < length (d_gshape a))%nat /\ (ab < length (d_gshape a))%nat /\ (ac < length (d_gshape a))%nat).
  { rewrite <- HN. unfold vector_axes in HV. destruct (Z.eqb_spec axis (-1)) as [->|N]; cbn [negb orb andb] in *.
    - destruct ((axisa =? -1) && (axisb =? -1) && (axisc =? -1)); cbn [negb] in HV.
      + destruct HV as (V1 & -> & -> & ->). rewrite int_axis_ok by auto. pose proof (norm_lt _ _ V1). cbn [bind]. auto.
      + destruct HV as (V1 & V2 & V3 & -> & -> & ->). rewrite !int_axis_ok by auto. cbn [bind]. pose proof (norm_lt _ _ V1). pose proof (norm_lt _ _ V2). pose proof (norm_lt _ _ V3). auto.
    - destruct HV as (V1 & -> & -> & ->). rewrite int_axis_ok by auto. pose proof (norm_lt _ _ V1). cbn [bind]. auto. }
  destruct AX as (AX & Haa & Hab & Hac). unfold cross. rewrite AX. cbn [bind]. clear AX HV.
  assert (NE : forall k, opt_eqb (option_map (bump k) sp) (Some k) = false) by (intros k; destruct sp as [p|]; [|reflexivity]; cbn [option_map opt_eqb]; apply Nat.eqb_neq, bump_ne).
  rewrite EPa, EPb, !NE. cbn [orb]. destruct (Nat.leb_spec (length (d_gshape b)) ab); [lia|].
  change (remove_at aa (d_gshape a)) with osh. change (remove_at ab (d_gshape b)) with (without ab (d_gshape b)). rewrite ES, bshapes_same. cbn [bind].
  destruct (operand_ok a Ga ca aa ac sp HA HP Haa Hac EPa Hda) as (a1 & am & Ga' & E1 & M1 & S1 & P1 & R1 & L1 & D1); [intros E; apply EB; auto|].
  destruct (operand_ok b Gb cb ab ac sp HB) as (b1 & bm & Gb' & E2 & M2 & S2 & P2 & R2 & L2 & D2); auto; try lia.
  { intros E p Hp. rewrite <- EC by congruence. rewrite ES, <- HL. apply EB; auto. }
  rewrite ES in S2, D2. fold osh in S1, D1. fold da in D1. fold db in D2. rewrite E1. cbn [bind]. rewrite E2. cbn [bind]. rewrite M1. cbn [bind]. rewrite M2. cbn [bind]. rewrite P1, P2.
  replace (opt_eqb (option_map (bump ac) sp) (option_map (bump ac) sp)) with true by (destruct sp; cbn; [now rewrite Nat.eqb_refl|reflexivity]). cbn [negb].
  assert (Lo : (ac <= length osh)%nat) by (change osh with (remove_at aa (d_gshape a)); rewrite remove_at_length by auto; lia).
  destruct (locals_ok zero sub mul am bm ca cb Ga' Gb' ac R1 R2) as (ls & E3 & R3); try congruence.
  { rewrite P1. destruct sp; [|now intros X]. intros _. apply EC. discriminate. } { rewrite S1, py_insert_length. lia. } { rewrite S1, py_insert_nth by auto. now rewrite Nat.ltb_irrefl, Nat.eqb_refl. }
  { rewrite P1. destruct sp as [p|]; cbn [option_map]; [intros X; injection X as X; now apply bump_ne in X|discriminate]. }
  rewrite E3. cbn [bind]. fold da db. fold plane.
  assert (R4 : represents (fun idx => cross3 sub mul (u (without ac idx)) (v (without ac idx)) (nth ac idx 0)) (py_insert osh ac 3) (option_map (bump ac) sp) ca ls).
  { rewrite S1, P1 in R3. revert R3. apply represents_ext. intros idx Hi. apply cross3_ext; intros k Hk; [apply D1|apply D2]; auto. }
  destruct plane.
  - eexists. split; [reflexivity|]. cbn [d_gshape d_split]. assert (Hs : match sp with None => True | Some p => (p < ac)%nat end) by (destruct sp; [now apply Hpl|exact I]).
    assert (EBp : option_map (bump ac) sp = sp) by (destruct sp as [p|]; [|reflexivity]; cbn [option_map]; f_equal; unfold bump; destruct (Nat.leb_spec ac p); [lia|reflexivity]).
    split; [reflexivity|]. split; [exact EBp|]. unfold rep. cbn [d_gshape d_split d_locals]. rewrite EBp. pose proof (z_slice_ok zero sub mul _ osh ac sp ca ls Lo Hs R4) as R5. revert R5. apply represents_ext. intros o Ho. pose proof (in_bounds_length _ _ Ho) as LO.
    change (without ac (py_insert o ac 2)) with (remove_at ac (py_insert o ac 2)). rewrite remove_insert by lia. rewrite py_insert_nth by lia. now rewrite Nat.ltb_irrefl, Nat.eqb_refl.
  - eexists. split; [reflexivity|]. split; [reflexivity|]. split; [reflexivity|]. exact R4.
Qed.
End Main.

(** three plane vectors (1,2) (3,4) (5,6) and space vectors (1,0,2) (0,1,1) (2,2,0) on two processes *)
Definition rows_arr (rs : list (list Z)) (w : Z) : arr Z := mk_arr [Z.of_nat (length rs); w] (fun idx => nth (Z.to_nat (nth 1 idx 0)) (nth (Z.to_nat (nth 0 idx 0)) rs []) 0).
Definition ex_a : dnd Z := mk_dnd [rows_arr [[1; 2]; [3; 4]] 2; rows_arr [[5; 6]] 2] [3; 2] (Some 0%nat).
Definition ex_b : dnd Z := mk_dnd [rows_arr [[1; 0; 2]; [0; 1; 1]] 3; rows_arr [[2; 2; 0]] 3] [3; 3] (Some 0%nat).
Definition dump (y : dnd Z) := (map (fun t => (ash t, map (adat t) (row_major (ash t)))) (d_locals y), d_gshape y, d_split y).
Lemma rows_rep rs1 rs2 w : 0 <= w -> rep (mk_dnd [rows_arr rs1 w; rows_arr rs2 w] [Z.of_nat (length (rs1 ++ rs2)); w] (Some 0%nat)) [Z.of_nat (length rs1); Z.of_nat (length rs2)] (adat (rows_arr (rs1 ++ rs2) w)).
Proof.
  intros Hw. split; [reflexivity|]. split; [repeat constructor; cbn; lia|]. cbn [d_split d_gshape d_locals]. split; [cbn; lia|]. split; [repeat constructor; lia|]. split; [cbn; rewrite app_length; lia|].
  intros [|[|r]] t Ht; cbn [nth_error] in Ht; [injection Ht as <-|injection Ht as <-|destruct r; discriminate Ht]; (split; [reflexivity|]); intros idx Hi; apply in_bounds_nth in Hi as [L Hi]; specialize (Hi 0%nat ltac:(cbn; lia)); cbn [upd nth] in Hi; destruct idx as [|i [|j [|]]]; try discriminate L; cbn [nth] in Hi; cbn [rows_arr adat nth move_axis_idx upd firstn zsum fold_right]; f_equal.
  - rewrite Z.add_0_r, app_nth1 by lia. reflexivity.
  - rewrite app_nth2 by lia. f_equal. lia.
Qed.
Example C97_hyps : exists Ga Gb, rep ex_a [2; 1] Ga /\ rep ex_b [2; 1] Gb /\ vector_axes 2 (-1) (-1) (-1) (-1) 1 1 1 /\ [2; 1] = zcounts 3 2 /\ without 1 (d_gshape ex_b) = without 1 (d_gshape ex_a).
Proof. exists (adat (rows_arr ([[1; 2]; [3; 4]] ++ [[5; 6]]) 2)), (adat (rows_arr ([[1; 0; 2]; [0; 1; 1]] ++ [[2; 2; 0]]) 3)). split; [apply rows_rep; lia|]. split; [apply rows_rep; lia|]. split; [cbn; unfold valid_axis; repeat split; lia|]. split; reflexivity. Qed.
Example C97_values : match cross 0 Z.sub Z.mul ex_a ex_b (-1) (-1) (-1) (-1) with Ok y => Some (dump y) | Err _ => None end =
  Some ([([2; 3], [4; -2; -2; 4; -3; 3]); ([1; 3], [0; 0; -2])], [3; 3], Some 0%nat).
Proof. vm_compute. reflexivity. Qed.
(** vectors along axis 0, result along axis 1 *)
Example C97_axes_values : match cross 0 Z.sub Z.mul (mk_dnd [rows_arr [[1; 0]; [2; 1]; [3; 1]] 2] [3; 2] None) (mk_dnd [rows_arr [[0; 1; 0]; [1; 1; 1]] 3] [2; 3] None) 0 1 1 (-1) with Ok y => Some (dump y) | Err _ => None end =
  Some ([([2; 3], [-3; 0; 1; 0; 1; -1])], [2; 3], None).
Proof. vm_compute. reflexivity. Qed.

(** Different distributions of the rows (the test [a.is_balanced and b.is_balanced] is always true, so nothing is redistributed):
    three rows, held as 1 + 2 by one array and as 2 + 1 by the other, give a "3 x 3" result whose processes hold two rows each *)
Theorem C97_unaligned_refuted : exists (a b : dnd Z) Ga Gb y, rep a [1; 2] Ga /\ rep b [2; 1] Gb /\ d_gshape a = [3; 3] /\ d_gshape b = [3; 3] /\ d_split a = Some 0%nat /\ d_split b = Some 0%nat /\
  cross 0 Z.sub Z.mul a b (-1) (-1) (-1) (-1) = Ok y /\ d_gshape y = [3; 3] /\ map ash (d_locals y) = [[2; 3]; [2; 3]].
Proof.
  set (a := mk_dnd [rows_arr [[1; 0; 0]] 3; rows_arr [[0; 1; 0]; [0; 0; 1]] 3] [3; 3] (Some 0%nat)). set (b := mk_dnd [rows_arr [[1; 1; 0]; [0; 1; 0]] 3; rows_arr [[0; 0; 1]] 3] [3; 3] (Some 0%nat)).
  assert (T : match cross 0 Z.sub Z.mul a b (-1) (-1) (-1) (-1) with Ok y => Some (d_gshape y, map ash (d_locals y)) | Err _ => None end = Some ([3; 3], [[2; 3]; [2; 3]])) by (vm_compute; reflexivity).
  destruct (cross 0 Z.sub Z.mul a b (-1) (-1) (-1) (-1)) as [y|] eqn:E; [|discriminate T]. injection T as T1 T2.
  exists a, b. do 2 eexists. exists y. split; [apply (rows_rep [[1; 0; 0]] [[0; 1; 0]; [0; 0; 1]]); lia|]. split; [apply (rows_rep [[1; 1; 0]; [0; 1; 0]] [[0; 0; 1]]); lia|]. do 4 (split; [reflexivity|]). split; [exact E|]. split; [exact T1|exact T2].
Qed.
(** Two arrays of plane vectors along axis 0, split along axis 1: the result has one dimension but split = 1 *)
Theorem C97_planar_split_refuted : exists (a b : dnd Z) y, d_gshape a = [2; 2] /\ d_gshape b = [2; 2] /\ d_split a = Some 1%nat /\ d_split b = Some 1%nat /\
  map ash (d_locals a) = [[2; 1]; [2; 1]] /\ map ash (d_locals b) = [[2; 1]; [2; 1]] /\
  cross 0 Z.sub Z.mul a b (-1) (-1) (-1) 0 = Ok y /\ d_gshape y = [2] /\ d_split y = Some 1%nat.
Proof.
  exists (mk_dnd [rows_arr [[1]; [2]] 1; rows_arr [[3]; [4]] 1] [2; 2] (Some 1%nat)), (mk_dnd [rows_arr [[5]; [6]] 1; rows_arr [[7]; [8]] 1] [2; 2] (Some 1%nat)). eexists. do 6 (split; [reflexivity|]). split; [vm_compute; reflexivity|]. split; reflexivity.
Qed.
