(** flip and rot90: proofs. *)
From Verif Require Import Base BaseLemmas LayoutModel LayoutProofs TensorSpec NdSpec TensorLemmas NdLemmas OpsModel OpsProofs2 OpsProofs3 OpsProofs4 RedistModel RedistProofs ShapeSpec ShapeModel ShapeProofs ShapeProofs3 ShapeProofs4 ShapeProofs5 ShapeProofs6 BinModel BinProofs BinProofs2 SlabLemmas RollSpec RollModel RollProofs RollProofs2.
Open Scope Z_scope.

Lemma to_nat_of_nat_map l : map Z.to_nat (map Z.of_nat l) = l.
Proof. rewrite map_map. rewrite <- (map_id l) at 2. apply map_ext. intros; lia. Qed.

Lemma balance_nd_ok {A} (dflt : A) (x : dnd A) (G : list Z -> A) cnts s :
  represents G (d_gshape x) (Some s) cnts (d_locals x) -> (0 < length cnts)%nat ->
  exists y, balance_nd dflt x s = Ok y /\ d_gshape y = d_gshape x /\ d_split y = d_split x /\
    represents G (d_gshape x) (Some s) (zcounts (nth s (d_gshape x) 0) (length cnts)) (d_locals y).
Proof.
  intros HR HP. pose proof HR as (HL & Hn & Hs & Hc & Hsum & _). set (gsh := d_gshape x) in *.
  destruct (slabs_view _ _ _ _ _ HR) as (LN & GL & V). unfold balance_nd. set (d := map (slabs s) (d_locals x)) in *.
  assert (LD : length d = length cnts) by (unfold d; now rewrite map_length).
  assert (N0 : 0 <= nth s gsh 0) by (rewrite Forall_forall in Hn; apply Hn, nth_In; auto).
  destruct (@balance_lemma _ d ltac:(lia)) as (d' & E & EG & EL & _).
  replace (length (d_locals x)) with (length d) by lia. rewrite E. cbn [bind].
  eexists. split; [reflexivity|]. cbn [d_gshape d_split d_locals]. split; [auto|]. split; [auto|]. fold gsh.
  destruct (zcounts_ok (nth s gsh 0) (length cnts) HP N0) as (Z1 & Z2 & Z3).
  apply unslabs_represents; auto.
  - unfold zcounts. rewrite to_nat_of_nat_map, EL, GL, LD. reflexivity.
  - intros idx z Hb Hl. pose proof (proj1 (in_bounds_nth _ _) Hb) as [L B]. rewrite upd_length in L.
    rewrite EG. apply V; auto.
    + specialize (B s Hs). rewrite upd_same in B by lia. auto.
    + intros k Hk N. specialize (B k Hk). rewrite upd_other in B by auto. auto.
Qed.

(** * flip *)
Lemma nodupb_iff l : nodupb l = true <-> NoDup l.
Proof.
  induction l as [|x t IH]; cbn; [split; [constructor|auto]|]. rewrite andb_true_iff, negb_true_iff. split.
  - intros [H1 H2]. constructor; [|now apply IH]. intros I. apply mem_nat_iff in I. congruence.
  - intros H. inversion H; subst. split; [|now apply IH]. destruct (mem_nat x t) eqn:E; auto. apply mem_nat_iff in E. contradiction.
Qed.
Lemma flip_src_length gsh axes idx : length (flip_src gsh axes idx) = length gsh.
Proof. unfold flip_src. now rewrite map_length, seq_length. Qed.
Lemma flip_src_nth gsh axes idx k : (k < length gsh)%nat ->
  nth k (flip_src gsh axes idx) 0 = if in_dec Nat.eq_dec k axes then nth k gsh 0 - 1 - nth k idx 0 else nth k idx 0.
Proof. intros. unfold flip_src. now rewrite (@nth_map_seq _ (fun k => if in_dec Nat.eq_dec k axes then nth k gsh 0 - 1 - nth k idx 0 else nth k idx 0)). Qed.
Lemma flip_src_bounds gsh axes idx : in_bounds gsh idx -> in_bounds gsh (flip_src gsh axes idx).
Proof.
  intros H. apply in_bounds_nth in H as [L H]. apply in_bounds_nth. rewrite flip_src_length. split; [auto|].
  intros k Hk. rewrite flip_src_nth by auto. specialize (H k Hk). destruct (in_dec _ _ _); lia.
Qed.
Lemma flip_idx_src sh axes idx : length idx = length sh -> flip_idx sh axes idx = flip_src sh axes idx.
Proof.
  intros L. unfold flip_idx, flip_src. rewrite L. apply map_seq_ext. intros k Hk.
  destruct (in_dec Nat.eq_dec k axes) as [I|I]; destruct (mem_nat k axes) eqn:E; auto.
  - apply mem_nat_iff in I. congruence.
  - apply mem_nat_iff in E. contradiction.
Qed.
Lemma torch_flip_ok {A} axes (t : arr A) sh F : agrees t sh F -> agrees (torch_flip t axes) sh (fun idx => F (flip_src sh axes idx)).
Proof.
  intros [S D]. split; [auto|]. intros idx Hi. cbn [torch_flip adat]. rewrite S, flip_idx_src by now apply in_bounds_length.
  apply D. now apply flip_src_bounds.
Qed.

Lemma flip_local_represents {A} axes (G : list Z -> A) gsh split cnts ls :
  represents G gsh split cnts ls ->
  match split with Some s => In s axes -> length cnts = 1%nat | None => True end ->
  represents (fun idx => G (flip_src gsh axes idx)) gsh split cnts (map (fun t => torch_flip t axes) ls).
Proof.
  intros (HL & Hn & HR) HS. split; [now rewrite map_length|]. split; [auto|]. destruct split as [s|].
  - destruct HR as (Hs & Hc & Hsum & HR). split; [auto|]. split; [auto|]. split; [auto|]. intros r t' Ht.
    rewrite nth_error_map in Ht. destruct (nth_error ls r) as [t|] eqn:E; [|discriminate]. injection Ht as <-.
    pose proof (torch_flip_ok axes _ _ _ (HR r t E)) as [S D]. split; [auto|]. intros idx Hi. rewrite D by auto.
    assert (Hr : (r < length cnts)%nat) by (rewrite <- HL; apply nth_error_Some; congruence).
    apply in_bounds_upd_shape in Hi as (LI & Hcs & Hi); auto. f_equal. unfold move_axis_idx.
    apply (@nth_ext2 _ _ _ 0); [now rewrite upd_length, !flip_src_length, upd_length|].
    rewrite upd_length, flip_src_length, upd_length. intros k Hk. rewrite (flip_src_nth gsh) by auto.
    destruct (Nat.eq_dec k s) as [->|N].
    + rewrite !upd_same by (rewrite ?flip_src_length, ?upd_length; lia).
      rewrite flip_src_nth, upd_same by (rewrite ?upd_length; lia).
      destruct (in_dec Nat.eq_dec s axes) as [I|I]; [|auto].
      specialize (HS I). destruct cnts as [|c [|c' cnts]]; cbn in HS, Hr; try lia. replace r with 0%nat in * by lia. cbn in *. lia.
    + rewrite !upd_other by auto. rewrite flip_src_nth by (rewrite upd_length; auto). now rewrite upd_other by auto.
  - intros t' Ht. apply in_map_iff in Ht as (t & <- & Ht). now apply torch_flip_ok, HR.
Qed.
Lemma zsum_app a b : zsum (a ++ b) = zsum a + zsum b.
Proof. unfold zsum. induction a; cbn; lia. Qed.
Lemma zsum_rev l : zsum (rev l) = zsum l.
Proof. induction l as [|x l IH]; auto. cbn [rev]. rewrite zsum_app, IH. unfold zsum. cbn. lia. Qed.

Lemma nth_error_rev {A} (l : list A) r : (r < length l)%nat -> nth_error (rev l) r = nth_error l (length l - S r).
Proof.
  intros H. destruct l as [|x t] eqn:El; [cbn in H; lia|]. rewrite <- El in *. clear El.
  rewrite (nth_error_nth' (rev l) x) by (rewrite rev_length; auto). rewrite (nth_error_nth' l x) by lia. now rewrite rev_nth.
Qed.
(** the parts flipped and handed to the mirrored rank are the flipped array, cut in reverse *)
Lemma flip_mirror_represents {A} axes (G : list Z -> A) gsh s cnts ls :
  represents G gsh (Some s) cnts ls -> In s axes ->
  represents (fun idx => G (flip_src gsh axes idx)) gsh (Some s) (rev cnts) (rev (map (fun t => torch_flip t axes) ls)).
Proof.
  intros (HL & Hn & Hs & Hc & Hsum & HR) HI. split; [now rewrite !rev_length, map_length|]. split; [auto|]. split; [auto|].
  split; [now apply Forall_rev|]. split; [now rewrite zsum_rev|]. intros r t' Ht.
  assert (Hr : (r < length cnts)%nat). { assert (r < length (rev (map (fun t => torch_flip t axes) ls)))%nat by (apply nth_error_Some; congruence). rewrite rev_length, map_length in H. lia. }
  rewrite nth_error_rev in Ht by (rewrite map_length; lia). rewrite map_length in Ht.
  set (q := (length ls - S r)%nat) in *.
  rewrite nth_error_map in Ht. destruct (nth_error ls q) as [t|] eqn:E; [|discriminate]. injection Ht as <-.
  assert (Eq : nth r (rev cnts) 0 = nth q cnts 0) by (rewrite rev_nth by auto; unfold q; now rewrite HL).
  rewrite Eq. pose proof (torch_flip_ok axes _ _ _ (HR q t E)) as [SS D]. split; [auto|]. intros idx Hi. rewrite D by auto.
  assert (Hq : (q < length cnts)%nat) by (unfold q; lia).
  assert (ES : zsum (firstn r (rev cnts)) + nth q cnts 0 + zsum (firstn q cnts) = nth s gsh 0).
  { rewrite <- Hsum. rewrite firstn_rev, zsum_rev. replace (length cnts - r)%nat with (S q) by (unfold q; lia).
    rewrite <- (firstn_skipn (S q) cnts) at 4. rewrite zsum_app, zsum_firstn_S by auto. lia. }
  apply in_bounds_upd_shape in Hi as (LI & Hcs & Hi); auto. f_equal. unfold move_axis_idx.
  apply (@nth_ext2 _ _ _ 0); [now rewrite upd_length, !flip_src_length, upd_length|].
  rewrite upd_length, flip_src_length, upd_length. intros k Hk. rewrite (flip_src_nth gsh) by auto.
  destruct (Nat.eq_dec k s) as [->|N].
  - rewrite !upd_same by (rewrite ?flip_src_length, ?upd_length; lia).
    rewrite flip_src_nth, upd_same by (rewrite ?upd_length; lia).
    destruct (in_dec Nat.eq_dec s axes); [lia|contradiction].
  - rewrite !upd_other by auto. rewrite flip_src_nth by (rewrite upd_length; auto). now rewrite upd_other by auto.
Qed.
Lemma mirror_exchange {A} (fl : list A) d : 
  nb_exchange (map (fun r => [IMsg (length fl - 1 - r)%nat 0%nat (nth r fl d)]) (seq 0 (length fl)))
              (map (fun r => [((length fl - 1 - r)%nat, 0%nat)]) (seq 0 (length fl))) = Some (map (fun t => [t]) (rev fl)).
Proof.
  rewrite (@nb_exchange_ok _ _ _ (fun r _ => nth (length fl - 1 - r) fl d)).
  - f_equal. rewrite map_length, seq_length. apply (@nth_ext2 _ _ _ []); [now rewrite !map_length, seq_length, rev_length|].
    intros r Hr. rewrite map_length, seq_length in Hr. rewrite (@nth_map_seq _ (fun r => map _ _)) by auto.
    rewrite (@nth_map_seq _ (fun r => [((length fl - 1 - r)%nat, 0%nat)])) by auto. cbn [length seq map].
    rewrite nth_indep with (d' := (fun t => [t]) d) by (rewrite map_length, rev_length; auto). rewrite (map_nth (fun t => [t])).
    rewrite rev_nth by auto. do 2 f_equal. lia.
  - intros r k Hr Hk. rewrite map_length, seq_length in Hr. rewrite (@nth_map_seq _ (fun r => [((length fl - 1 - r)%nat, 0%nat)])) in * by auto.
    cbn in Hk. replace k with 0%nat by lia. unfold nb_recv. cbn [nth firstn filter length]. unfold nb_match.
    rewrite (@nth_map_seq _ (fun r => [IMsg (length fl - 1 - r)%nat 0%nat (nth r fl d)])) by lia. cbn [filter i_dst i_tag].
    replace (length fl - 1 - (length fl - 1 - r))%nat with r by lia. rewrite Nat.eqb_refl. reflexivity.
Qed.
Lemma concat_singles {A} (l : list A) : concat (map (fun t => [t]) l) = l.
Proof. induction l; cbn; congruence. Qed.

Lemma flip_axes_ok n axis l : (0 < n)%nat -> flip_axes n axis = AxTuple l -> (forall a, In a l -> valid_axis n a) ->
  exists l', sanitize_axis n (flip_axes n axis) = Ok (AxTuple l') /\ map Z.to_nat l' = map (norm n) l.
Proof.
  intros Hn -> HV. destruct (sanitize_axis_tuple_iff (ndim:=n) l Hn) as [H1 _].
  eexists. split; [apply H1; auto|]. rewrite map_map. apply map_ext_in. intros a Ha. specialize (HV a Ha). unfold valid_axis in HV. unfold norm.
  destruct (Z.ltb_spec a 0).
  - f_equal. rewrite <- (Z_mod_plus_full a 1), Z.mul_1_l. apply Z.mod_small; lia.
  - f_equal. apply Z.mod_small; lia.
Qed.
Lemma flip_ok {A} (dflt : A) (x : dnd A) (G : list Z -> A) cnts axis l :
  let n := length (d_gshape x) in
  represents G (d_gshape x) (d_split x) cnts (d_locals x) -> (0 < length cnts)%nat -> (0 < n)%nat ->
  flip_axes n axis = AxTuple l -> (forall a, In a l -> valid_axis n a) -> NoDup (map (norm n) l) ->
  exists y, flip dflt x axis = Some (Ok y) /\ d_gshape y = d_gshape x /\ d_split y = d_split x /\
    represents (fun idx => G (flip_src (d_gshape x) (map (norm n) l) idx)) (d_gshape x) (d_split x)
      (match d_split x with
       | Some s => if in_dec Nat.eq_dec s (map (norm n) l)
                   then (if (1 <? length cnts)%nat then zcounts (nth s (d_gshape x) 0) (length cnts) else cnts) else cnts
       | None => cnts end) (d_locals y).
Proof.
  intros n HR HP Hn EA HV ND. unfold flip. fold n. destruct (flip_axes_ok n axis l Hn EA HV) as (l' & -> & El).
  rewrite El. replace (nodupb (map (norm n) l)) with true by (symmetry; now apply nodupb_iff). cbn [negb].
  set (axes := map (norm n) l) in *. destruct (d_split x) as [s|] eqn:Es.
  - pose proof HR as (HL & Hnn & Hs & Hc & Hsum & _).
    destruct ((1 <? length (d_locals x))%nat && mem_nat s axes) eqn:EC.
    + apply andb_true_iff in EC as [E1 E2]. apply mem_nat_iff in E2.
      set (fl := map (fun t => torch_flip t axes) (d_locals x)).
      assert (LF : length fl = length (d_locals x)) by (unfold fl; now rewrite map_length). rewrite <- LF.
      rewrite mirror_exchange, concat_singles.
      pose proof (flip_mirror_represents axes G _ s cnts _ HR E2) as R. fold fl in R.
      destruct (balance_nd_ok dflt (mk_dnd (rev fl) (d_gshape x) (Some s)) _ _ s R) as (y & EB & Eg & Esp & R2); [now rewrite rev_length|].
      cbn [d_gshape d_split] in *. rewrite EB. exists y. split; [auto|]. split; [auto|]. split; [auto|].
      destruct (in_dec _ _ _); [|contradiction]. rewrite <- HL, E1. rewrite rev_length in R2. rewrite HL. auto.
    + eexists. split; [reflexivity|]. cbn [d_gshape d_split d_locals]. split; [auto|]. split; [auto|].
      replace (if in_dec _ _ _ then _ else _) with cnts.
      2:{ destruct (in_dec _ _ _) as [I|I]; auto. apply mem_nat_iff in I. rewrite I, andb_true_r in EC. now rewrite <- HL, EC. }
      apply flip_local_represents; auto. intros I. apply mem_nat_iff in I. rewrite I, andb_true_r in EC. rewrite HL in EC.
      apply Nat.ltb_ge in EC. lia.
  - eexists. split; [reflexivity|]. cbn [d_gshape d_split d_locals]. split; [auto|]. split; [auto|]. now apply flip_local_represents.
Qed.
