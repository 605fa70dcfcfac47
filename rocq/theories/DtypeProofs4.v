(** Top-level statements about datatypes and resplit. *)
From Verif Require Import Base BaseLemmas LayoutModel LayoutProofs TensorSpec TensorLemmas DtypeModel DtypeSpec DtypeProofs DtypeProofs2 DtypeProofs3.
From Coq Require Import Permutation.
Open Scope Z_scope.

Lemma sumz_zsum l : sumz l = zsum l. Proof. reflexivity. Qed.

Lemma dist_counts {V} G w gshape a counts (locals : list (tensor V)) : (a < length gshape)%nat ->
  distributed G w gshape a counts locals -> map (fun t => nth a (tshape t) 0) locals = counts.
Proof.
  intros Ha [L [_ [_ H]]]. apply nth_ext2 with 0; rewrite map_length; auto.
  intros p Hp. destruct (nth_error locals p) as [t|] eqn:E; [|apply nth_error_None in E; lia].
  rewrite (nth_map' (fun t => nth a (tshape t) 0) locals p 0 t) by auto. rewrite (nth_error_nth _ _ _ E).
  destruct (H p t E) as [-> _]. now apply upd_same.
Qed.
Lemma dist_shape {V} G w gshape a counts (locals : list (tensor V)) t : (a < length gshape)%nat ->
  distributed G w gshape a counts locals -> In t locals ->
  tshape t = upd gshape a (nth a (tshape t) 0) /\ length (tstride t) = length gshape.
Proof.
  intros Ha [L [_ [_ H]]] Ht. apply In_nth_error in Ht. destruct Ht as [p E]. destruct (H p t E) as [E1 [E2 _]].
  split; auto. rewrite E1 at 1. f_equal. rewrite E1. symmetry. now apply upd_same.
Qed.
Lemma dist_data {V} G w gshape a counts (locals : list (tensor V)) p idx d : 
  distributed G w gshape a counts locals -> (p < length locals)%nat ->
  in_bounds (tshape (nth p locals d)) idx ->
  read (tmem (nth p locals d)) w (tstride (nth p locals d)) idx = G (upd idx a (zsum (firstn p counts) + nth a idx 0)).
Proof.
  intros [L [_ [_ H]]] Hp Hi. destruct (nth_error locals p) as [t|] eqn:E; [|apply nth_error_None in E; lia].
  rewrite (nth_error_nth _ _ _ E) in *. destruct (H p t E) as [_ [_ E3]]. now apply E3.
Qed.

Theorem resplit_none_ok {V} (G : list Z -> V) w gshape a counts locals :
  0 < w -> (a < length gshape)%nat -> Forall (fun n => 1 <= n) gshape -> zprod gshape <= 2147483647 ->
  distributed G w gshape a counts locals -> strides_below 2147483648 locals ->
  exists ws, resplit_none w gshape a locals = Ok ws /\ delivers w gshape G ws.
Proof.
  intros Hw Ha Hg Hl D Hs. pose proof (dist_counts _ _ _ _ _ _ Ha D) as Ec. destruct (D) as [L [Hc [Hsum _]]].
  apply (gather_spec V w gshape a locals G); rewrite ?Ec; auto.
  - intros t Ht. destruct (dist_shape _ _ _ _ _ _ t Ha D Ht). split; [auto|]. split; auto.
    eapply Forall_impl; [|exact (Hs t Ht)]. simpl. rewrite CL_val. intros; lia.
  - intros p idx Hp Hi. eapply dist_data; eauto.
Qed.

Lemma zbal_counts n P : zbal (Z.of_nat n) P = map Z.of_nat (counts_of n P).
Proof.
  unfold zbal, counts_of. rewrite map_map. apply map_ext. intros r.
  rewrite <- Nat2Z.inj_div, <- Nat2Z.inj_mod.
  destruct (Nat.ltb_spec r (n mod P)); destruct (Z.ltb_spec (Z.of_nat r) (Z.of_nat (n mod P))); lia.
Qed.
Lemma zsum_map_nat l : zsum (map Z.of_nat l) = Z.of_nat (list_sum l).
Proof. induction l; simpl; auto. rewrite list_sum_cons. unfold zsum in *. lia. Qed.
Lemma zbal_nth n P q : (q < P)%nat -> nth q (zbal (Z.of_nat n) P) 0 = Z.of_nat (clen n q P).
Proof. intros. rewrite zbal_counts. rewrite (nth_map' Z.of_nat _ q 0 0%nat) by (now rewrite counts_of_length). now rewrite counts_of_nth. Qed.
Lemma zbal_psum n P q : (q < P)%nat -> zsum (firstn q (zbal (Z.of_nat n) P)) = Z.of_nat (cstart n q P).
Proof. intros. rewrite zbal_counts, firstn_map, zsum_map_nat. fold (psum (counts_of n P) q). now rewrite counts_of_psum by lia. Qed.

Theorem resplit_inplace_ok {V} (G : list Z -> V) w gshape s1 s2 counts locals q :
  0 < w -> (s1 < length gshape)%nat -> (s2 < length gshape)%nat -> s1 <> s2 ->
  Forall (fun n => 0 <= n <= 2 ^ 24) gshape ->
  distributed G w gshape s1 counts locals -> strides_below 2147483647 locals -> (q < length locals)%nat ->
  let (start, len) := chunk_1d (Z.to_nat (nth s2 gshape 0)) q (length locals) in
  let (rshape, r) := resplit_axis_inplace w gshape s1 s2 locals q in
  rshape = upd gshape s2 (Z.of_nat len) /\
  exists ws, r = Ok ws /\ delivers w rshape (fun idx => G (shift_axis s2 (Z.of_nat start) idx)) ws.
Proof.
  intros Hw H1 H2 Hne Hg D Hs Hq.
  pose proof (dist_counts _ _ _ _ _ _ H1 D) as Ec. destruct (D) as [L [Hc [Hsum _]]]. rewrite sumz_zsum in Hsum.
  assert (Hg1 : forall i, (i < length gshape)%nat -> 0 <= nth i gshape 0 <= 16777216) by (intros i Hi; rewrite Forall_forall in Hg; apply Hg, nth_In; auto).
  set (n2 := Z.to_nat (nth s2 gshape 0)). assert (En2 : nth s2 gshape 0 = Z.of_nat n2) by (unfold n2; specialize (Hg1 s2 H2); lia).
  destruct (chunk_1d n2 q (length locals)) as [start len] eqn:Echk.
  assert (Est : start = cstart n2 q (length locals)) by (unfold cstart; now rewrite Echk).
  assert (Eln : len = clen n2 q (length locals)) by (unfold clen; now rewrite Echk).
  unfold resplit_axis_inplace. rewrite Ec.
  assert (Ed2 : tile_dims gshape s1 counts (length locals) s2 = zbal (Z.of_nat n2) (length locals)).
  { rewrite <- En2. apply tile_dims_bal; auto; lia. }
  assert (Ed1 : tile_dims gshape s1 counts (length locals) s1 = counts).
  { unfold tile_dims. rewrite Nat.eqb_refl. rewrite <- (map_id counts) at 2. apply map_ext_in. intros c Hci.
    apply (In_nth _ _ 0) in Hci. destruct Hci as [p [Hp <-]]. pose proof (zsum_le counts p Hc Hp). specialize (Hg1 s1 H1). apply fl32_id. lia. }
  rewrite Ed2, zbal_nth by lia. rewrite <- Eln. split; [reflexivity|].
  pose proof (exchange_spec V w gshape s1 s2 locals G q (tile_dims gshape s1 counts (length locals)) (tile_dims gshape s1 counts (length locals))
     Hw H1 H2 Hne Hg Hq (zbal (Z.of_nat n2) (length locals))) as X. rewrite Ec in X.
  rewrite zbal_nth, zbal_psum in X by auto. rewrite <- Eln, <- Est in X. apply X; auto; clear X.
  - apply zbal_nonneg. lia.
  - apply zbal_length.
  - rewrite zbal_sum by lia. auto.
  - intros t Ht. destruct (dist_shape _ _ _ _ _ _ t H1 D Ht). split; [auto|]. split; auto.
    all: eapply Forall_impl; [|exact (Hs t Ht)]; simpl; rewrite CL_val; intros; lia.
  - intros p idx Hp Hi. eapply dist_data; eauto.
Qed.

Theorem resplit_outofplace_ok {V} (G : list Z -> V) w gshape s1 s2 locals q :
  0 < w -> (s1 < length gshape)%nat -> (s2 < length gshape)%nat -> s1 <> s2 ->
  Forall (fun n => 0 <= n <= 2 ^ 24) gshape ->
  distributed G w gshape s1 (map Z.of_nat (counts_of (Z.to_nat (nth s1 gshape 0)) (length locals))) locals ->
  strides_below 2147483647 locals -> (q < length locals)%nat ->
  let (start, len) := chunk_1d (Z.to_nat (nth s2 gshape 0)) q (length locals) in
  let (rshape, r) := resplit_axis w gshape s1 s2 locals q in
  rshape = upd gshape s2 (Z.of_nat len) /\
  exists ws, r = Ok ws /\ delivers w rshape (fun idx => G (shift_axis s2 (Z.of_nat start) idx)) ws.
Proof.
  intros Hw H1 H2 Hne Hg D Hs Hq.
  set (counts := map Z.of_nat (counts_of (Z.to_nat (nth s1 gshape 0)) (length locals))) in *.
  pose proof (dist_counts _ _ _ _ _ _ H1 D) as Ec. destruct (D) as [L [Hc [Hsum _]]]. rewrite sumz_zsum in Hsum.
  assert (Hg1 : forall i, (i < length gshape)%nat -> 0 <= nth i gshape 0 <= 16777216) by (intros i Hi; rewrite Forall_forall in Hg; apply Hg, nth_In; auto).
  set (n2 := Z.to_nat (nth s2 gshape 0)). assert (En2 : nth s2 gshape 0 = Z.of_nat n2) by (unfold n2; specialize (Hg1 s2 H2); lia).
  destruct (chunk_1d n2 q (length locals)) as [start len] eqn:Echk.
  assert (Est : start = cstart n2 q (length locals)) by (unfold cstart; now rewrite Echk).
  assert (Eln : len = clen n2 q (length locals)) by (unfold clen; now rewrite Echk).
  unfold resplit_axis. rewrite Ec.
  assert (Hsmall : forall l, Forall (fun n => 0 <= n) l -> zsum l <= 16777216 -> map fl32 l = l).
  { intros l Hl Hz. rewrite <- (map_id l) at 2. apply map_ext_in. intros c Hci.
    apply (In_nth _ _ 0) in Hci. destruct Hci as [p [Hp <-]]. pose proof (zsum_le l p Hl Hp). apply fl32_id. lia. }
  change (map (fun r => nth s2 gshape 0 / Z.of_nat (length locals) + (if Z.of_nat r <? nth s2 gshape 0 mod Z.of_nat (length locals) then 1 else 0)) (seq 0 (length locals)))
    with (zbal (nth s2 gshape 0) (length locals)).
  rewrite En2.
  assert (Eb : counts = zbal (nth s1 gshape 0) (length locals)).
  { unfold counts. rewrite <- zbal_counts. f_equal. specialize (Hg1 s1 H1). lia. }
  set (bal := zbal (Z.of_nat n2) (length locals)).
  assert (Hbn : Forall (fun n => 0 <= n) bal) by (apply zbal_nonneg; lia).
  assert (Hbs : zsum bal = nth s2 gshape 0) by (unfold bal; rewrite zbal_sum by lia; auto).
  assert (Eq1 : nth q bal 0 = Z.of_nat len) by (unfold bal; rewrite zbal_nth by auto; now rewrite Eln).
  assert (Eq2 : zsum (firstn q bal) = Z.of_nat start) by (unfold bal; rewrite zbal_psum by auto; now rewrite Est).
  rewrite Eq1. split; [reflexivity|].
  pose proof (exchange_spec V w gshape s1 s2 locals G q (tile_dims gshape s1 counts (length locals)) (tile_dims gshape s2 bal (length locals))
     Hw H1 H2 Hne Hg Hq bal) as X. rewrite Ec in X.
  rewrite Eq1, Eq2 in X. apply X; auto; clear X.
  - apply zbal_length.
  - unfold tile_dims. rewrite Nat.eqb_refl. apply Hsmall; auto. rewrite Hsum. apply Hg1; auto.
  - unfold bal. rewrite <- En2. apply tile_dims_bal; auto; lia.
  - rewrite Eb. apply tile_dims_bal; auto; lia.
  - unfold tile_dims. rewrite Nat.eqb_refl. apply Hsmall; auto. rewrite Hbs. apply Hg1; auto.
  - intros t Ht. destruct (dist_shape _ _ _ _ _ _ t H1 D Ht). split; [auto|]. split; auto.
    all: eapply Forall_impl; [|exact (Hs t Ht)]; simpl; rewrite CL_val; intros; lia.
  - intros p idx Hp Hi. eapply dist_data; eauto.
Qed.

Theorem from_none_ok {V} (G : list Z -> V) w gshape a r P t :
  (a < length gshape)%nat -> (r < P)%nat -> Forall (fun n => 0 <= n) gshape ->
  holds_slab G w gshape a 0 (nth a gshape 0) t ->
  holds_slab G w gshape a (Z.of_nat (fst (chunk_1d (Z.to_nat (nth a gshape 0)) r P)))
    (Z.of_nat (snd (chunk_1d (Z.to_nat (nth a gshape 0)) r P))) (resplit_from_none w gshape a r P t).
Proof.
  intros Ha Hr Hg [E1 [E2 E3]]. unfold resplit_from_none.
  set (n := Z.to_nat (nth a gshape 0)).
  assert (En : nth a gshape 0 = Z.of_nat n) by (unfold n; rewrite Forall_forall in Hg; specialize (Hg _ (nth_In gshape 0 Ha)); lia).
  destruct (chunk_1d n r P) as [start len] eqn:Ech. cbn [fst snd].
  assert (Hb : (start + len <= n)%nat).
  { assert (start = cstart n r P) by (unfold cstart; now rewrite Ech). assert (len = clen n r P) by (unfold clen; now rewrite Ech).
    pose proof (cstart_S n r (P:=P) ltac:(lia)). subst start len.
    pose proof (counts_of_psum n (P:=P) (r:=S r) ltac:(lia) ltac:(lia)). pose proof (psum_le_sum (counts_of n P) (S r)).
    rewrite counts_of_sum in * by lia. lia. }
  assert (Eu : upd gshape a (nth a gshape 0) = gshape).
  { apply nth_ext2 with 0; rewrite upd_length; auto. intros i Hi. destruct (Nat.eq_dec i a) as [->|]; [now apply upd_same|now apply upd_other]. }
  rewrite Eu in E1. unfold holds_slab. cbn [tshape tstride tmem]. rewrite E1. split; [reflexivity|]. split; auto.
  intros idx Hi. pose proof (in_bounds_length _ _ Hi) as Li. rewrite upd_length in Li.
  specialize (E3 (shift_axis a (Z.of_nat start) idx)). unfold read in *.
  replace (w * dot idx (tstride t) + w * (Z.of_nat start * nth a (tstride t) 0)) with (w * dot (shift_axis a (Z.of_nat start) idx) (tstride t)).
  - rewrite E3.
    + unfold shift_axis. f_equal. apply nth_ext2 with 0; rewrite !upd_length; auto. intros i Hi2.
      destruct (Nat.eq_dec i a) as [->|]; [rewrite !upd_same by (rewrite ?upd_length; lia); lia|now rewrite !upd_other by auto].
    + rewrite E1. apply in_bounds_nth in Hi. rewrite upd_length in Hi. destruct Hi as [_ Hi]. apply in_bounds_nth. unfold shift_axis. rewrite upd_length. split; auto.
      intros i Hi2. specialize (Hi i Hi2). destruct (Nat.eq_dec i a) as [->|].
      * rewrite upd_same in Hi |- * by lia. lia.
      * rewrite upd_other in Hi |- * by auto. auto.
  - unfold shift_axis.
    assert (Ed : forall st, length st = length idx -> dot (upd idx a (Z.of_nat start + nth a idx 0)) st = dot idx st + Z.of_nat start * nth a st 0).
    { intros st Lst. assert (Es : st = upd st a (nth a st 0)).
      { apply nth_ext2 with 0; rewrite ?upd_length; auto. intros i Hi2. destruct (Nat.eq_dec i a) as [->|]; [rewrite upd_same; auto; lia|now rewrite upd_other]. }
      rewrite Es at 1. rewrite dot_upd by lia. lia. }
    rewrite Ed by lia. lia.
Qed.

(** ** transport between strided buffers *)
Theorem transport {V} w sh st1 st2 (m1 m2 : mem V) b1 b2 :
  0 < w -> Forall (fun n => 0 <= n) sh -> length st1 = length sh -> length st2 = length sh ->
  (forall i j, in_bounds sh i -> in_bounds sh j -> dot i st2 = dot j st2 -> i = j) ->
  as_buffer w sh st1 None None = Ok b1 -> as_buffer w sh st2 None None = Ok b2 ->
  exists ws, pair_up (simple_positions b2) (simple_positions b1) m1 = Ok ws /\
  forall ws', Permutation ws ws' ->
    (forall idx, in_bounds sh idx -> read (writes m2 ws') w st2 idx = read m1 w st1 idx) /\
    (forall addr, (forall idx, in_bounds sh idx -> addr <> w * dot idx st2) -> writes m2 ws' addr = m2 addr).
Proof.
  intros Hw Hs L1 L2 Hinj B1 B2. apply as_buffer_spec in B1, B2; auto. rewrite B1, B2. unfold pair_up, offsets_of.
  rewrite !map_length, Nat.eqb_refl. eexists. split; [reflexivity|]. rewrite map_map, combine_map2.
  set (ws := map _ (row_major sh)). intros ws' Hp.
  assert (N : NoDup (map fst ws)).
  { unfold ws. rewrite map_map. cbn [fst]. apply NoDup_map_inj_on; [|apply NoDup_row_major].
    intros x y Hx Hy E. apply in_row_major in Hx, Hy. apply Hinj; auto. nia. }
  split.
  - intros idx Hi. unfold read. eapply writes_perm; [exact Hp|exact N|]. unfold ws. apply in_map_iff. exists idx.
    split; auto. now apply in_row_major.
  - intros addr Hn. apply writes_not_in. intros Hin.
    apply (Permutation_in _ (Permutation_sym (Permutation_map fst Hp))) in Hin. unfold ws in Hin. rewrite map_map in Hin.
    apply in_map_iff in Hin. destruct Hin as [j [E Hj]]. apply in_row_major in Hj. apply (Hn j Hj). auto.
Qed.
