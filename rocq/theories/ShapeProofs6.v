(** moveaxis, swapaxes, flatten, stack: the array operations. *)
From Verif Require Import Base ShapeSpec BaseLemmas LayoutModel LayoutProofs NdSpec TensorSpec TensorLemmas NdLemmas OpsModel OpsProofs2 OpsProofs3 OpsProofs4 OpsProofs5 OpsProofs6 RedistModel RedistProofs ShapeModel ShapeProofs ShapeProofs2 ShapeProofs3 ShapeProofs4 ShapeProofs5.
From Coq Require Import Permutation Sorted.
Open Scope Z_scope.

(** transpose by an explicit permutation of natural axes, in terms of element moves *)
Lemma transpose_nat {A} (x : dnd A) (G : list Z -> A) cnts o :
  represents G (d_gshape x) (d_split x) cnts (d_locals x) -> perm_axes (length (d_gshape x)) o ->
  exists y G', transpose x (Some (map Z.of_nat o)) = Ok y /\
    d_gshape y = map (fun a => nth a (d_gshape x) 0) o /\
    match d_split x with None => d_split y = None
                       | Some s => exists p, d_split y = Some p /\ nth_error o p = Some s end /\
    represents G' (d_gshape y) (d_split y) cnts (d_locals y) /\
    forall idx, in_bounds (d_gshape x) idx -> G' (map (fun a => nth a idx 0) o) = G idx.
Proof.
  intros HR HP. set (n := length (d_gshape x)).
  assert (B : forall k, In k o -> (k < n)%nat) by (intros; now apply HP).
  destruct (transpose_ok x G cnts (map Z.of_nat o) o HR) as (y & E & Eg & Es & R).
  - intros a Ha. apply in_map_iff in Ha as (k & <- & Hk). specialize (B k Hk). unfold n in B. lia.
  - rewrite map_map. rewrite <- (map_id o) at 1. apply map_ext_in. intros k Hk. unfold norm.
    destruct (Z.ltb_spec (Z.of_nat k) 0); lia.
  - auto.
  - exists y, (fun idx' => G (inv_idx o idx')). repeat (split; auto).
    intros idx Hi. f_equal. pose proof (inv_pidx n o HP idx) as I. unfold pidx in I. apply I.
    now apply in_bounds_length in Hi.
Qed.

Lemma norm_axes_ok n l : l <> [] \/ (0 < n)%nat -> (forall a, In a l -> - Z.of_nat n <= a < Z.of_nat n) -> (0 < n)%nat ->
  norm_axes n l = Ok (map (norm n) l).
Proof.
  intros _ H Hn. unfold norm_axes, sanitize_axis. destruct (Nat.eqb_spec n 0); [lia|].
  destruct (existsb _ _) eqn:E.
  - apply existsb_exists in E as (d & Hd & E). apply in_map_iff in Hd as (a & <- & Ha). specialize (H a Ha).
    destruct (Z.ltb_spec a 0); lia.
  - cbn [bind]. rewrite map_map. reflexivity.
Qed.
Lemma norm_lt n a : - Z.of_nat n <= a < Z.of_nat n -> (norm n a < n)%nat.
Proof. unfold norm. destruct (Z.ltb_spec a 0); lia. Qed.

Lemma moveaxis_ok {A} (x : dnd A) (G : list Z -> A) cnts src dst :
  let n := length (d_gshape x) in
  represents G (d_gshape x) (d_split x) cnts (d_locals x) -> (0 < n)%nat ->
  length src = length dst ->
  (forall a, In a src -> - Z.of_nat n <= a < Z.of_nat n) -> (forall a, In a dst -> - Z.of_nat n <= a < Z.of_nat n) ->
  NoDup (map (norm n) src) -> NoDup (map (norm n) dst) ->
  exists o y G', moveaxis x src dst = Ok y /\ perm_axes n o /\
    (forall i s d, nth_error (map (norm n) src) i = Some s -> nth_error (map (norm n) dst) i = Some d -> nth d o 0%nat = s) /\
    drop_axes (map (norm n) dst) o = drop_axes (map (norm n) src) (seq 0 n) /\
    d_gshape y = map (fun a => nth a (d_gshape x) 0) o /\
    match d_split x with None => d_split y = None
                       | Some s => exists p, d_split y = Some p /\ nth_error o p = Some s end /\
    represents G' (d_gshape y) (d_split y) cnts (d_locals y) /\
    forall idx, in_bounds (d_gshape x) idx -> G' (map (fun a => nth a idx 0) o) = G idx.
Proof.
  intros n HR Hn HL Bs Bd Ns Nd.
  destruct (moveaxis_order_spec n (map (norm n) src) (map (norm n) dst)) as (P & S & D); auto.
  { now rewrite !map_length. }
  { intros k Hk. apply in_map_iff in Hk as (a & <- & Ha). apply norm_lt; auto. }
  { intros k Hk. apply in_map_iff in Hk as (a & <- & Ha). apply norm_lt; auto. }
  set (o := moveaxis_order n (map (norm n) src) (map (norm n) dst)) in *.
  destruct (transpose_nat x G cnts o HR P) as (y & G' & E & Eg & Es & R & I).
  exists o, y, G'. split; [|repeat (split; auto)].
  unfold moveaxis. fold n. rewrite !norm_axes_ok; auto. cbn [bind]. rewrite !map_length, HL, Nat.eqb_refl. exact E.
Qed.

Lemma swap_nth {A} (d : A) p1 p2 l k : (p1 < length l)%nat -> (p2 < length l)%nat -> (k < length l)%nat ->
  nth k (swap_list d p1 p2 l) d = nth (if (k =? p1)%nat then p2 else if (k =? p2)%nat then p1 else k) l d.
Proof.
  intros. unfold swap_list. destruct (Nat.eqb_spec k p2) as [->|N2].
  - rewrite upd_same by (rewrite upd_length; auto). destruct (Nat.eqb_spec p2 p1) as [->|]; auto.
  - rewrite upd_other by auto. destruct (Nat.eqb_spec k p1) as [->|]; [now rewrite upd_same|now rewrite upd_other].
Qed.
Lemma swap_length {A} (d : A) p1 p2 l : length (swap_list d p1 p2 l) = length l.
Proof. unfold swap_list. now rewrite !upd_length. Qed.
Lemma swap_perm n p1 p2 : (p1 < n)%nat -> (p2 < n)%nat -> perm_axes n (swap_list 0%nat p1 p2 (seq 0 n)).
Proof.
  intros H1 H2. apply is_perm_spec. unfold is_perm. rewrite swap_length, seq_length, Nat.eqb_refl. simpl.
  apply forallb_forall. intros k Hk. apply in_seq in Hk. apply memb_in.
  set (j := if (k =? p1)%nat then p2 else if (k =? p2)%nat then p1 else k).
  assert (Hj : (j < n)%nat) by (unfold j; destruct (k =? p1)%nat; [auto|destruct (k =? p2)%nat; lia]).
  replace k with (nth j (swap_list 0%nat p1 p2 (seq 0 n)) 0%nat).
  - apply nth_In. rewrite swap_length, seq_length. auto.
  - rewrite swap_nth by (rewrite seq_length; auto). rewrite seq_nth.
    + unfold j. destruct (Nat.eqb_spec k p1), (Nat.eqb_spec k p2); subst; repeat match goal with |- context[(?a =? ?b)%nat] => destruct (Nat.eqb_spec a b) end; lia.
    + destruct (j =? p1)%nat; [auto|]. destruct (j =? p2)%nat; auto.
Qed.
Lemma swap_map (l : list Z) p1 p2 n : length l = n -> (p1 < n)%nat -> (p2 < n)%nat ->
  map (fun a => nth a l 0) (swap_list 0%nat p1 p2 (seq 0 n)) = swap_list 0 p1 p2 l.
Proof.
  intros <- H1 H2. apply (@nth_ext2 _ _ _ 0); [now rewrite map_length, !swap_length, seq_length|].
  intros i Hi. rewrite map_length, swap_length, seq_length in Hi.
  rewrite (nth_indep _ _ (nth 0%nat l 0)) by (rewrite map_length, swap_length, seq_length; auto).
  rewrite (map_nth (fun a => nth a l 0)). rewrite !swap_nth by (rewrite ?seq_length; auto).
  rewrite seq_nth; [now simpl|]. destruct (i =? p1)%nat; [auto|]. destruct (i =? p2)%nat; auto.
Qed.
Lemma py_pos_ok n a : - Z.of_nat n <= a < Z.of_nat n -> py_pos n a = Ok (norm n a).
Proof.
  intros H. unfold py_pos, norm. destruct (Z.leb_spec 0 a), (Z.ltb_spec a (Z.of_nat n)), (Z.leb_spec (- Z.of_nat n) a), (Z.ltb_spec a 0); simpl; auto; lia.
Qed.
Lemma swapaxes_ok {A} (x : dnd A) (G : list Z -> A) cnts a1 a2 :
  let n := length (d_gshape x) in
  represents G (d_gshape x) (d_split x) cnts (d_locals x) ->
  - Z.of_nat n <= a1 < Z.of_nat n -> - Z.of_nat n <= a2 < Z.of_nat n ->
  let p1 := norm n a1 in let p2 := norm n a2 in
  exists y G', swapaxes x a1 a2 = Ok y /\
    d_gshape y = swap_list 0 p1 p2 (d_gshape x) /\
    d_split y = option_map (fun s => if (s =? p1)%nat then p2 else if (s =? p2)%nat then p1 else s) (d_split x) /\
    represents G' (d_gshape y) (d_split y) cnts (d_locals y) /\
    forall idx, in_bounds (d_gshape x) idx -> G' (swap_list 0 p1 p2 idx) = G idx.
Proof.
  intros n HR B1 B2 p1 p2. pose proof (norm_lt _ _ B1) as L1. pose proof (norm_lt _ _ B2) as L2.
  pose proof (swap_perm n p1 p2 L1 L2) as P.
  destruct (transpose_nat x G cnts _ HR P) as (y & G' & E & Eg & Es & R & I).
  exists y, G'. split; [|split; [|split; [|split]]]; auto.
  - unfold swapaxes. fold n. rewrite !py_pos_ok by auto. cbn [bind]. exact E.
  - rewrite Eg. apply swap_map; auto.
  - destruct (d_split x) as [s|] eqn:Esx; [|auto]. destruct Es as (p & -> & Ep). cbn [option_map]. f_equal.
    assert (Lp : (p < n)%nat) by (rewrite <- (seq_length n 0), <- (swap_length 0%nat p1 p2); apply nth_error_Some; congruence).
    apply nth_error_nth with (d:=0%nat) in Ep. rewrite swap_nth in Ep by (rewrite seq_length; auto).
    rewrite seq_nth in Ep by (destruct (p =? p1)%nat; [auto|]; destruct (p =? p2)%nat; auto).
    destruct (Nat.eqb_spec p p1), (Nat.eqb_spec p p2), (Nat.eqb_spec s p1), (Nat.eqb_spec s p2); lia.
  - intros idx Hi. rewrite <- (swap_map idx p1 p2 n); auto. now apply in_bounds_length in Hi.
Qed.

(** * resplit to another axis *)
Lemma firstn_seq' k i n : firstn k (seq i n) = seq i (Nat.min k n).
Proof. revert i n; induction k as [|k IH]; intros i [|n]; simpl; auto. now rewrite IH. Qed.
Lemma counts_Z n P : (0 < P)%nat -> zsum (map Z.of_nat (counts_of n P)) = Z.of_nat n /\
  forall r, (r < P)%nat -> zsum (firstn r (map Z.of_nat (counts_of n P))) = Z.of_nat (fst (chunk_1d n r P)) /\
    nth r (map Z.of_nat (counts_of n P)) 0 = Z.of_nat (snd (chunk_1d n r P)).
Proof.
  intros HP.
  assert (K : forall r, (r <= P)%nat -> zsum (firstn r (map Z.of_nat (counts_of n P))) = Z.of_nat (cstart n r P)).
  { induction r as [|r IH]; intros Hr; [now rewrite cstart_0|].
    rewrite cstart_S by auto. unfold counts_of in *. rewrite map_map, firstn_map in *.
    rewrite firstn_seq' in *. replace (Nat.min (S r) P) with (S r) by lia. replace (Nat.min r P) with r in IH by lia.
    rewrite seq_S, map_app, zsum_app, IH by lia. simpl. rewrite clen_val. lia. }
  split.
  - rewrite <- (cstart_P n HP) at 2. rewrite <- K by lia. rewrite firstn_all2; auto.
    unfold counts_of. rewrite !map_length, seq_length. auto.
  - intros r Hr. split; [apply K; lia|]. unfold counts_of. rewrite map_map.
    rewrite (@nth_map_seq _ _ P) by auto. rewrite <- clen_val. auto.
Qed.

Lemma resplit_to_represents {A} (d : A) (G : list Z -> A) (x : dnd A) cnts b :
  represents G (d_gshape x) (d_split x) cnts (d_locals x) -> d_split x <> None -> (b < length (d_gshape x))%nat ->
  (0 < length (d_locals x))%nat ->
  let x' := resplit_to d b x in
  d_gshape x' = d_gshape x /\ d_split x' = Some b /\ length (d_locals x') = length (d_locals x) /\
  represents G (d_gshape x) (Some b) (map Z.of_nat (counts_of (Z.to_nat (nth b (d_gshape x) 0)) (length (d_locals x)))) (d_locals x').
Proof.
  intros HR Hs Hb HP x'. destruct x as [ls gsh sp]. cbn [d_gshape d_split d_locals] in *.
  destruct sp as [s|]; [|congruence]. pose proof (gather_agrees _ _ _ _ _ d HR) as GA.
  unfold x', resplit_to. cbn [d_gshape d_split d_locals].
  split; [auto|]. split; [auto|]. split; [now rewrite map_length, seq_length|].
  destruct HR as (Hlen & Hn & _).
  set (P := length ls) in *. set (size := Z.to_nat (nth b gsh 0)).
  destruct (counts_Z size P HP) as [CS CR].
  assert (Hb0 : 0 <= nth b gsh 0) by (rewrite Forall_forall in Hn; apply Hn, nth_In; auto).
  assert (Hc : Forall (fun c => 0 <= c) (map Z.of_nat (counts_of size P))) by (apply Forall_forall; intros c Hc; apply in_map_iff in Hc as (k & <- & _); lia).
  split; [unfold counts_of; rewrite !map_length, seq_length; auto|]. split; [auto|]. split; [auto|].
  split; [auto|]. split; [rewrite CS; unfold size; lia|].
  intros r t Ht. assert (Hr : (r < P)%nat) by (rewrite <- (seq_length P 0), <- (map_length (fun r => let (off, len) := chunk_1d size r P in
        mk_arr (upd gsh b (Z.of_nat len)) (fun idx => adat (gather gsh s ls d) (upd idx b (nth b idx 0 + Z.of_nat off)))) (seq 0 P)); apply nth_error_Some; congruence).
  assert (Es : nth_error (seq 0 P) r = Some r) by (rewrite nth_error_nth' with (d:=0%nat) by (rewrite seq_length; auto); rewrite seq_nth; auto).
  rewrite nth_error_map, Es in Ht. cbn [option_map] in Ht.
  destruct (CR r Hr) as [C1 C2]. rewrite C1, C2. destruct (chunk_1d size r P) as [off len]. cbn [fst snd] in *.
  injection Ht as <-. split; [reflexivity|]. cbn [ash adat]. intros idx Hi.
  unfold move_axis_idx. apply GA. apply (move_in_bounds gsh b (map Z.of_nat (counts_of size P)) r) in Hi || idtac.
  rewrite <- C1 at 1. apply (move_in_bounds gsh b (map Z.of_nat (counts_of size P)) r); auto.
  - rewrite CS. unfold size. lia.
  - unfold counts_of. rewrite !map_length, seq_length. auto.
  - rewrite C2. auto.
Qed.

(** * flatten *)
Lemma flat_blocks {A} (rest : list Z) (ls : list (arr A)) : forall cnts (G : list Z -> A),
  length ls = length cnts -> Forall (fun c => 0 <= c) cnts ->
  (forall r t, nth_error ls r = Some t ->
     agrees t (nth r cnts 0 :: rest) (fun idx => G (move_axis_idx 0 (zsum (firstn r cnts)) idx))) ->
  concat (map flat ls) = map G (row_major (zsum cnts :: rest)).
Proof.
  induction ls as [|t ls IH]; intros [|c cnts] G HL Hc H; simpl in HL; try lia; [reflexivity|].
  inversion Hc; subst.
  change (concat (map flat (t :: ls))) with (flat t ++ concat (map flat ls)).
  rewrite (IH cnts (fun idx => G (move_axis_idx 0 c idx))); auto.
  - destruct (H 0%nat t eq_refl) as [Esh Ed]. cbn [nth firstn] in *.
    change (zsum (c :: cnts)) with (c + zsum cnts). cbn [row_major].
    rewrite zr_app by (auto using zsum_nonneg). rewrite flat_map_app', map_app. f_equal.
    + unfold flat. rewrite Esh. cbn [row_major]. apply map_map_ext. intros i Hi. rewrite Ed.
      * f_equal. change (zsum []) with 0. unfold move_axis_idx. apply in_flat_map in Hi as (z & _ & Hi).
        apply in_map_iff in Hi as (i' & <- & _). simpl. f_equal. lia.
      * apply in_row_major. cbn [row_major]. auto.
    + rewrite flat_map_map, !map_flat_map. apply flat_map_ext_in. intros z Hz. rewrite !map_map.
      apply map_map_ext. intros i' _. f_equal. unfold move_axis_idx. simpl. f_equal. lia.
  - intros r t' Ht. specialize (H (S r) t' Ht) as [Esh Ed]. split; [auto|]. intros idx Hi.
    cbn [nth firstn] in *. rewrite Ed by auto. f_equal. unfold move_axis_idx. rewrite Esh in * || idtac.
    destruct idx as [|z i']; [inversion Hi|]. simpl. f_equal. change (zsum (c :: firstn r cnts)) with (c + zsum (firstn r cnts)). lia.
Qed.
Lemma flatten_ok {A} (d : A) (x : dnd A) (G : list Z -> A) cnts :
  represents G (d_gshape x) (d_split x) cnts (d_locals x) ->
  (0 < length (d_locals x))%nat ->
  let P := length (d_locals x) in
  exists y, flatten d P x = Ok (y, match d_split x with None => None | Some _ => Some 0%nat end) /\ length y = P /\
   match d_split x with
   | None => forall l, In l y -> l = map G (row_major (d_gshape x))
   | Some _ => glob y = map G (row_major (d_gshape x)) /\ lens y = counts_of (length (row_major (d_gshape x))) P
   end.
Proof.
  intros HR HP P. unfold flatten. destruct (d_split x) as [s|] eqn:Es.
  - assert (K : exists cnts', let x' := if (0 <? s)%nat then resplit_to d 0 x else x in
        length (d_locals x') = P /\ represents G (d_gshape x) (Some 0%nat) cnts' (d_locals x')).
    { destruct (Nat.ltb_spec 0 s).
      - assert (L0 : (s < length (d_gshape x))%nat) by apply HR. rewrite <- Es in HR.
        destruct (resplit_to_represents d G x cnts 0 HR ltac:(congruence) ltac:(lia) HP) as (_ & _ & L & R). eauto.
      - replace s with 0%nat in HR by lia. eauto. }
    destruct K as (cnts' & L & R). set (x' := if (0 <? s)%nat then resplit_to d 0 x else x) in *.
    assert (FB : glob (map flat (d_locals x')) = map G (row_major (d_gshape x))).
    { destruct R as (Hlen & Hn & H0 & Hc & Hsum & HR'). destruct (d_gshape x) as [|n0 rest]; [simpl in H0; lia|].
      simpl in Hsum. subst n0. apply flat_blocks; auto. }
    destruct (@balance_lemma _ (map flat (d_locals x'))) as (y & E & Eg & El & _); [rewrite map_length, L; auto|].
    rewrite map_length, L in E. rewrite E. cbn [bind]. exists y. split; [auto|].
    rewrite FB in Eg, El. rewrite map_length in El. rewrite map_length, L in El.
    split; [|split; auto]. rewrite <- (lens_length y), El. unfold counts_of. now rewrite map_length, seq_length.
  - eexists. split; [reflexivity|]. split; [apply map_length|]. intros l Hl. apply in_map_iff in Hl as (t & <- & Ht).
    destruct HR as (_ & _ & HR). destruct (HR t Ht) as [Esh Ed]. unfold flat. rewrite Esh. apply map_map_ext. intros i Hi.
    apply Ed. now apply in_row_major.
Qed.

(** * stack *)
Lemma insert_bounds_gen sh k m idx : (k <= length sh)%nat -> in_bounds (py_insert sh k m) idx ->
  in_bounds sh (remove_at k idx) /\ 0 <= nth k idx 0 < m.
Proof.
  intros Hk H. apply in_bounds_nth in H as [HL H]. rewrite py_insert_length in *. split.
  - apply in_bounds_nth. split; [rewrite remove_at_length by lia; lia|]. intros i Hi.
    rewrite remove_at_nth by lia. destruct (Nat.ltb_spec i k).
    + specialize (H i ltac:(lia)). rewrite py_insert_nth in H by auto. destruct (Nat.ltb_spec i k); [auto|lia].
    + specialize (H (S i) ltac:(lia)). rewrite py_insert_nth in H by auto.
      destruct (Nat.ltb_spec (S i) k); [lia|]. destruct (Nat.eqb_spec (S i) k); [lia|].
      now replace (S i - 1)%nat with i in H by lia.
  - specialize (H k ltac:(lia)). rewrite py_insert_nth in H by auto. now rewrite Nat.ltb_irrefl, Nat.eqb_refl in H.
Qed.
Lemma eqb_idx_refl a : eqb_idx a a = true. Proof. now apply eqb_idx_eq. Qed.
Lemma stack_ok {A} (d : A) (xs : list (dnd A)) (Gs : list (list Z -> A)) gsh split cnts a :
  (2 <= length xs)%nat ->
  Forall2 (fun x G => d_gshape x = gsh /\ d_split x = split /\ represents G gsh split cnts (d_locals x)) xs Gs ->
  - Z.of_nat (length gsh + 1) <= a < Z.of_nat (length gsh + 1) ->
  let k := norm (length gsh + 1) a in
  exists y, stack d xs (AxInt a) = Ok y /\
    d_gshape y = py_insert gsh k (Z.of_nat (length xs)) /\
    d_split y = option_map (bump k) split /\
    represents (fun idx => nth (Z.to_nat (nth k idx 0)) Gs (fun _ => d) (remove_at k idx)) (d_gshape y) (d_split y) cnts (d_locals y).
Proof.
  intros H2 HF Ha k. destruct xs as [|x0 [|x1 xs]]; simpl in H2; try lia.
  set (L := x0 :: x1 :: xs) in *. unfold stack. cbn [L].
  assert (H0 : d_gshape x0 = gsh /\ d_split x0 = split /\ length (d_locals x0) = length cnts).
  { inversion HF as [|? ? ? ? (E1 & E2 & R)]; subst. repeat split; auto. apply R. }
  destruct H0 as (E1 & E2 & L0). rewrite E1, E2.
  pose proof (norm_lt _ _ Ha) as Hk. fold k in Hk.
  rewrite (@sanitize_axis_int_ok (length gsh + 1) k a); [|lia|unfold k, norm; destruct (Z.ltb_spec a 0); lia].
  cbn [bind]. rewrite Nat2Z.id.
  assert (LG : length Gs = length L) by (symmetry; eapply Forall2_len; eauto).
  assert (Hx : forall i x, nth_error L i = Some x -> exists G, nth_error Gs i = Some G /\ d_gshape x = gsh /\ d_split x = split /\ represents G gsh split cnts (d_locals x)).
  { clear - HF. induction HF as [|x G L Gs H HF IH]; intros [|i] y E; simpl in *; try discriminate; eauto.
    injection E as <-. exists G. auto. }
  set (dead := mk_arr [] (fun _ => d)).
  set (shr := fun r => match split with Some s => upd gsh s (nth r cnts 0) | None => gsh end).
  set (off := fun r idx => match split with Some s => move_axis_idx s (zsum (firstn r cnts)) idx | None => idx end).
  assert (Hloc : forall r i x, (r < length cnts)%nat -> nth_error L i = Some x ->
            exists G, nth_error Gs i = Some G /\ agrees (nth r (d_locals x) dead) (shr r) (fun idx => G (off r idx))).
  { intros r i x Hr E. destruct (Hx i x E) as (G & EG & _ & _ & R). exists G. split; auto.
    destruct R as (RL & _ & R). destruct (nth_error (d_locals x) r) as [t|] eqn:Et; [|apply nth_error_None in Et; lia].
    rewrite (nth_error_nth _ _ _ Et). unfold shr, off. destruct split as [s|].
    - apply R. auto.
    - destruct R with t as [S1 S2]; [eapply nth_error_In; eauto|]. split; auto. }
  assert (Hlsh : forall r, (k <= length (shr r))%nat) by (intros r; unfold shr; destruct split; rewrite ?upd_length; lia).
  assert (K : forall r, In r (seq 0 (length cnts)) -> exists t,
     stack_local d (map (fun x => nth r (d_locals x) dead) L) k = Ok t /\
     agrees t (py_insert (shr r) k (Z.of_nat (length L))) (fun idx => nth (Z.to_nat (nth k idx 0)) Gs (fun _ => d) (off r (remove_at k idx)))).
  { intros r Hr. apply in_seq in Hr. unfold stack_local. cbn [L map].
    assert (S0 : forall x, In x L -> ash (nth r (d_locals x) dead) = shr r).
    { intros x Hin. apply In_nth_error in Hin as (i & E). destruct (Hloc r i x ltac:(lia) E) as (G & _ & AG). apply AG. }
    change (nth r (d_locals x0) dead :: nth r (d_locals x1) dead :: map (fun x => nth r (d_locals x) dead) xs) with (map (fun x => nth r (d_locals x) dead) L).
    rewrite (S0 x0) by (left; auto).
    replace (forallb _ _) with true; [|symmetry; apply forallb_forall; intros t Ht; apply in_map_iff in Ht as (x & <- & Hin); rewrite S0 by auto; apply eqb_idx_refl].
    eexists. split; [reflexivity|]. rewrite map_length. split; [reflexivity|]. cbn [adat ash]. intros idx Hi.
    apply insert_bounds_gen in Hi as [Hi1 Hi2]; [|apply Hlsh]. rewrite nth_error_map.
    destruct (nth_error L (Z.to_nat (nth k idx 0))) as [x|] eqn:E; [|apply nth_error_None in E; lia].
    cbn [option_map]. destruct (Hloc r _ x ltac:(lia) E) as (G & EG & AG).
    rewrite (nth_error_nth _ _ _ EG). now apply AG. }
  rewrite L0. destruct (all_ok_Q _ _ _ K) as (ls & El & F). match goal with |- context[all_ok ?m] => replace (all_ok m) with (Ok ls) by (symmetry; exact El) end. cbn [bind].
  eexists. split; [reflexivity|]. cbn [d_gshape d_split d_locals]. split; [reflexivity|].
  split; [destruct split; reflexivity|].
  assert (HR0 : exists G0, represents G0 gsh split cnts (d_locals x0)).
  { destruct (Hx 0%nat x0 eq_refl) as (G & _ & _ & _ & R). eauto. }
  destruct HR0 as (G0 & RL & Rn & Rs).
  split; [apply Forall2_len in F; rewrite seq_length in F; auto|].
  split; [apply Forall_insert; auto; lia|].
  destruct split as [s|].
  - destruct Rs as (Hs & Hc & Hsum & _). unfold bump.
    assert (Hb : (bump k s < S (length gsh))%nat) by (unfold bump; destruct (k <=? s)%nat; lia).
    fold (bump k s). split; [rewrite py_insert_length; auto|]. split; [auto|]. split.
    + rewrite Hsum. rewrite <- (remove_nth_bump (py_insert gsh k (Z.of_nat (length L))) k s 0) by (rewrite py_insert_length; lia).
      now rewrite remove_insert by lia.
    + intros r t Ht. destruct (Forall2_nth_error _ _ _ F r t Ht) as (r' & Er & AG).
      assert (r' = r) as -> by (apply nth_error_nth with (d:=0%nat) in Er as Er'; assert (r < length cnts)%nat by (rewrite <- (seq_length (length cnts) 0); apply nth_error_Some; congruence); rewrite seq_nth in Er' by auto; lia).
      unfold shr, off in AG. destruct AG as [A1 A2]. rewrite insert_upd in A1 by lia. split; [exact A1|].
      intros idx Hi. rewrite insert_upd in A2 by lia. rewrite A2 by exact Hi.
      assert (LI : length idx = S (length gsh)) by (apply in_bounds_length in Hi; rewrite upd_length, py_insert_length in Hi; auto).
      unfold move_axis_idx. rewrite remove_upd by lia. rewrite upd_other by (unfold bump; destruct (Nat.leb_spec k s); lia).
      rewrite remove_nth_bump by lia. auto.
  - intros t Ht. apply In_nth_error in Ht as (r & Ht). destruct (Forall2_nth_error _ _ _ F r t Ht) as (r' & Er & AG). exact AG.
Qed.
