(** C27-C31, C51: the random number generator. *)
From Verif Require Import Base BaseLemmas TensorSpec TensorLemmas NdSpec LayoutModel LayoutProofs DtypeModel DtypeProofs3 OpsModel ShapeModel ShapeProofs6 RandSpec RandModel RandProofs RandProofs2 RandProofs3 RandProofs4 RandProofs5.
From Coq Require Import Permutation.
Open Scope Z_scope.

Definition even_pieces (shape : list Z) (split : option nat) (P : nat) : list Z :=
  match split with None => repeat 0 P | Some s => map Z.of_nat (counts_of (Z.to_nat (nth s shape 0)) P) end.

Lemma share_end_spos shape split P r : (r < P)%nat ->
  share_end shape split (even_pieces shape split P) r = spos shape split P r + slen shape split P r.
Proof.
  intros Hr. destruct split as [s|]; cbn [share_end even_pieces spos slen]; [|lia].
  set (l := map _ _). assert (HL : (r < length l)%nat) by (unfold l; rewrite map_length, counts_of_length; auto).
  assert (zsum (firstn (S r) l) = zsum (firstn r l) + nth r l 0); [|rewrite H; ring].
  clearbody l. clear - HL. revert r HL. induction l as [|x l IH]; intros [|r] H; cbn [length] in *; try lia.
  - cbn. lia.
  - change (firstn (S (S r)) (x :: l)) with (x :: firstn (S r) l). change (firstn (S r) (x :: l)) with (x :: firstn r l).
    cbn [nth]. change (zsum (x :: firstn (S r) l)) with (x + zsum (firstn (S r) l)).
    change (zsum (x :: firstn r l)) with (x + zsum (firstn r l)). rewrite IH by lia. lia.
Qed.

(** C27: ht.random.rand / randint (Threefry) with split None or 0: on every number of
    processes the global array is the same, element number p (row-major) being value p
    of the stream started at the current counter; afterwards the counter has advanced
    by the number of counters used.  Restrictions ([_partial]): at most 2^24 elements;
    no rank's share ends exactly where the low counter word overflows; split 0 or None. *)
Theorem C27_rand_partial : forall (b : Z) (F : Z * Z -> Z * Z) (c : Z) (shape : list Z) (split : option nat) (P : nat),
  (b = 32 \/ b = 64) -> 0 <= c -> Forall (fun n => 0 < n) shape -> (0 < P)%nat ->
  (split = None \/ (split = Some 0%nat /\ shape <> [])) ->
  zprod shape <= 2 ^ 24 ->
  (forall r, (r < P)%nat -> c mod 2 ^ b + (share_end shape split (even_pieces shape split P) r + 1) / 2 <> 2 ^ b) ->
  exists locals,
    (forall r, (r < P)%nat -> exists t, nth_error locals r = Some t /\
       random_words b F c shape split r P = Ok (t, (c + (zprod shape + 1) / 2) mod 2 ^ 128)) /\
    represents (fun idx => stream b (fun x y => F (x, y)) c (dot idx (cstrides shape)))
               shape split (even_pieces shape split P) locals.
Proof.
  intros b F c shape split P Hb Hc Hsh HP HS HT HC.
  exists (map (rlocal b F c shape split P) (seq 0 P)). split.
  - intros r Hr. exists (rlocal b F c shape split P r). split.
    + rewrite nth_error_map, (nth_error_nth' _ 0%nat) by (now rewrite seq_length). now rewrite seq_nth.
    + apply random_words_ok; auto; try lia.
      * destruct HS as [->|[-> N]]; auto. destruct shape; [easy|cbn; lia].
      * intros q Hq. rewrite <- share_end_spos by auto. auto.
  - apply random_represents; auto.
Qed.
Print Assumptions C27_rand_partial.

(** For any split axis the ranks together hold exactly the values 0 .. total-1 of the
    stream, in rank order (each local array row-major): no value is lost or used twice. *)
Theorem C27_any_split_partial : forall (b : Z) (F : Z * Z -> Z * Z) (c : Z) (shape : list Z) (s P : nat),
  (b = 32 \/ b = 64) -> 0 <= c -> Forall (fun n => 0 < n) shape -> (0 < P)%nat -> (s < length shape)%nat ->
  zprod shape <= 2 ^ 24 ->
  (forall r, (r < P)%nat -> c mod 2 ^ b + (share_end shape (Some s) (even_pieces shape (Some s) P) r + 1) / 2 <> 2 ^ b) ->
  exists locals,
    length locals = P /\
    (forall r, (r < P)%nat -> exists t, nth_error locals r = Some t /\
       ash t = upd shape s (nth r (even_pieces shape (Some s) P) 0) /\
       random_words b F c shape (Some s) r P = Ok (t, (c + (zprod shape + 1) / 2) mod 2 ^ 128)) /\
    concat (map (fun t => map (adat t) (row_major (ash t))) locals) =
    map (stream b (fun x y => F (x, y)) c) (zr (zprod shape)).
Proof.
  intros b F c shape s P Hb Hc Hsh HP HS HT HC.
  exists (map (rlocal b F c shape (Some s) P) (seq 0 P)). split; [now rewrite map_length, seq_length|]. split.
  - intros r Hr. exists (rlocal b F c shape (Some s) P r). split; [|split; [reflexivity|]].
    + rewrite nth_error_map, (nth_error_nth' _ 0%nat) by (now rewrite seq_length). now rewrite seq_nth.
    + apply random_words_ok; auto; try lia. intros q Hq. rewrite <- share_end_spos by auto. auto.
  - rewrite map_map. apply concat_flat; auto. easy.
Qed.
Print Assumptions C27_any_split_partial.

(** the hypotheses are met: 3 processes, 5 x 3 array, counter in the middle of a carry *)
Example C27_instance : exists t,
  random_words 32 (fun x => x) (2 ^ 32 - 4) [5; 3] (Some 0%nat) 1 3 = Ok (t, 2 ^ 32 + 4) /\
  map (adat t) (row_major (ash t)) = [0; -1; 1; 0; 1; 1] /\
  (forall r, (r < 3)%nat -> (2 ^ 32 - 4) mod 2 ^ 32 + (share_end [5; 3] (Some 0%nat) (even_pieces [5; 3] (Some 0%nat) 3) r + 1) / 2 <> 2 ^ 32).
Proof.
  eexists. split; [vm_compute; reflexivity|]. split; [vm_compute; reflexivity|].
  intros r Hr. destruct r as [|[|[|r]]]; [vm_compute; easy..|lia].
Qed.

(** What fails: with another split axis the global array depends on the number of
    processes.  The same draw of shape 2 x 2 with split = 1: element [0,1] is stream
    value 1 on one process and stream value 2 on two. *)
Theorem C27_split_axis_refuted : forall F : Z * Z -> Z * Z, exists t1 t2 c,
  random_words 32 F 0 [2; 2] (Some 1%nat) 0 1 = Ok (t1, c) /\
  random_words 32 F 0 [2; 2] (Some 1%nat) 1 2 = Ok (t2, c) /\
  adat t1 [0; 1] = stream 32 (fun x y => F (x, y)) 0 1 /\
  adat t2 [0; 0] = stream 32 (fun x y => F (x, y)) 0 2.    (* the second rank holds column 1 *)
Proof. intros F. do 3 eexists. repeat (split; [reflexivity|]). reflexivity. Qed.
Print Assumptions C27_split_axis_refuted.

(** A share that ends exactly at the overflow of the low word gets a wrong high word
    (x_0[-0:] += 1 increments everything). *)
Theorem C27_carry_refuted : exists t c,
  random_words 32 (fun x => x) (2 ^ 32 - 1) [2] None 0 1 = Ok (t, c) /\
  map (adat t) (row_major (ash t)) = [1; -1] /\
  map (stream 32 (fun x y => (x, y)) (2 ^ 32 - 1)) (zr 2) = [0; -1].
Proof. do 2 eexists. repeat (split; [vm_compute; reflexivity|]). vm_compute; reflexivity. Qed.
Print Assumptions C27_carry_refuted.

Lemma big_vals (b : Z) F a m sl (lsh : Z) : 25 <= b -> 0 <= a -> 0 <= m -> a + m < 2 ^ b ->
  slice_lo sl + slice_hi sl <= 2 * m -> lsh = 2 * m - slice_lo sl - slice_hi sl ->
  let vals := local_values F (x0_seq b 0 a (a + m)) (x1_seq b a (a + m)) sl in
  Z.of_nat (length vals) = lsh /\
  forall k, 0 <= k < lsh -> nth (Z.to_nat k) vals 0 = stream b (fun x y => F (x, y)) 0 (2 * a + slice_lo sl + k).
Proof.
  intros Hb Ha Hm HL HS -> vals. unfold vals.
  pose proof (values_ok b F 0 a m sl ltac:(lia) ltac:(lia) Ha Hm ltac:(lia)) as V. cbv zeta in V.
  change (Z.land 0 (mcount b)) with 0 in V. change (Z.shiftr (Z.land 0 (Z.shiftl (mcount b) b)) b) with (Z.shiftr 0 b) in V.
  rewrite Z.shiftr_0_l in V. rewrite !Z.add_0_l in V. rewrite V; auto.
  2:{ lia. }
  split; [rewrite map_length, zrange_length; lia|]. intros k Hk.
  rewrite nth_indep with (d' := stream b (fun x y => F (x, y)) 0 0) by (rewrite map_length, zrange_length; lia).
  rewrite map_nth, zrange_nth by auto. auto.
Qed.

(** Above 2^24 elements the counter is advanced in float32: after drawing 2^24 + 1
    values the next draw starts with the value that was just handed out. *)
Theorem C27_counter_float32_refuted : forall F : Z * Z -> Z * Z, exists t c,
  random_words 32 F 0 [16777217] None 0 1 = Ok (t, c) /\
  adat t [16777216] = stream 32 (fun x y => F (x, y)) c 0.
Proof.
  intros F. unfold random_words, counter_sequence. cbv zeta. rewrite !Z.land_0_l, ?Z.shiftr_0_l.
  assert (L0 : local_range [16777217] None 0 1 0 = Ok (0, 0 + 8388609, (false, true), [16777217])) by reflexivity.
  rewrite L0. cbn [bind]. clear L0.
  destruct (big_vals 32 F 0 8388609 (false, true) 16777217 ltac:(vm_compute; congruence) ltac:(vm_compute; congruence) ltac:(vm_compute; congruence) ltac:(vm_compute; reflexivity) ltac:(vm_compute; congruence) ltac:(vm_compute; reflexivity)) as [L V].
  set (vals := local_values _ _ _ _) in *. rewrite L. clearbody vals. assert (Z1 : zprod [16777217] = 16777217) by reflexivity. rewrite Z1, Z.eqb_refl.
  do 2 eexists. split; [reflexivity|]. cbn [adat]. change (ravel [16777217] [16777216]) with 16777216.
  rewrite V by lia. change (2 * 0 + slice_lo (false, true) + 16777216) with 16777216.
  change (Z.land (0 + (fl32 16777217 + 1) / 2) (2 ^ 128 - 1)) with 8388608. reflexivity.
Qed.
Print Assumptions C27_counter_float32_refuted.

(** ... and the ranks' starting positions are computed in float32: with 2 * (2^24 + 1)
    elements on two processes, rank 1 starts with the value rank 0 ends with. *)
Theorem C27_starts_float32_refuted : forall F : Z * Z -> Z * Z, exists t0 t1 c,
  random_words 32 F 0 [33554434] (Some 0%nat) 0 2 = Ok (t0, c) /\
  random_words 32 F 0 [33554434] (Some 0%nat) 1 2 = Ok (t1, c) /\
  ash t0 = [16777217] /\ ash t1 = [16777217] /\ adat t0 [16777216] = adat t1 [0].
Proof.
  intros F.
  assert (C : map Z.of_nat (counts_of (Z.to_nat 33554434) 2) = [16777217; 16777217]).
  { remember (Z.to_nat 33554434) as N. assert (HN : Z.of_nat N = 33554434) by lia. clear HeqN.
    assert (M0 : (N mod 2 = 0)%nat) by (apply Nat2Z.inj; rewrite Nat2Z.inj_mod, HN; reflexivity).
    assert (Q0 : Z.of_nat (N / 2) = 16777217) by (rewrite Nat2Z.inj_div, HN; reflexivity).
    unfold counts_of. rewrite M0. remember (N / 2)%nat as Q. cbn [seq map Nat.ltb Nat.leb]. f_equal; [|f_equal]; lia. }
  assert (D : forall r, (r < 2)%nat -> Z.of_nat (snd (chunk_1d (Z.to_nat 33554434) r 2)) = 16777217).
  { intros r Hr. destruct (counts_Z (Z.to_nat 33554434) 2 ltac:(lia)) as [_ K]. destruct (K r Hr) as [_ <-].
    rewrite C. destruct r as [|[|r]]; [reflexivity..|lia]. }
  unfold random_words, counter_sequence. cbv zeta. rewrite !Z.land_0_l, ?Z.shiftr_0_l.
  assert (L0 : local_range [33554434] (Some 0%nat) 0 2 0 = Ok (0, 0 + 8388609, (false, true), [16777217])).
  { unfold local_range. cbn [nth]. replace (33554434 =? 0) with false by reflexivity. cbv iota. rewrite C, D by lia. reflexivity. }
  assert (L1 : local_range [33554434] (Some 0%nat) 1 2 0 = Ok (8388608, 8388608 + 8388609, (false, true), [16777217])).
  { unfold local_range. cbn [nth]. replace (33554434 =? 0) with false by reflexivity. cbv iota. rewrite C, D by lia. reflexivity. }
  rewrite L0, L1. cbn [bind].
  destruct (big_vals 32 F 0 8388609 (false, true) 16777217 ltac:(vm_compute; congruence) ltac:(vm_compute; congruence) ltac:(vm_compute; congruence) ltac:(vm_compute; reflexivity) ltac:(vm_compute; congruence) ltac:(vm_compute; reflexivity)) as [A0 V0].
  destruct (big_vals 32 F 8388608 8388609 (false, true) 16777217 ltac:(vm_compute; congruence) ltac:(vm_compute; congruence) ltac:(vm_compute; congruence) ltac:(vm_compute; reflexivity) ltac:(vm_compute; congruence) ltac:(vm_compute; reflexivity)) as [A1 V1].
  set (v0 := local_values F (x0_seq 32 0 0 (0 + 8388609)) _ _) in *. clearbody v0. set (v1 := local_values _ _ _ _) in *.
  rewrite A0, A1. clearbody v1. assert (Z1 : zprod [16777217] = 16777217) by reflexivity. rewrite Z1, Z.eqb_refl.
  do 3 eexists. split; [reflexivity|]. split; [reflexivity|]. split; [reflexivity|]. split; [reflexivity|].
  cbn [adat]. change (ravel [16777217] [16777216]) with 16777216. change (ravel [16777217] [0]) with 0.
  rewrite V0, V1 by lia. reflexivity.
Qed.
Print Assumptions C27_starts_float32_refuted.

(** C28: for every seed the 32-bit and the 64-bit cipher are bijections on pairs of
    words: different counters never give the same pair, every pair occurs. *)
Theorem C28_threefry32_bijective : forall seed, bijective_on (word_pair 32) (threefry32 seed).
Proof. exact threefry32_bij. Qed.
Print Assumptions C28_threefry32_bijective.
Theorem C28_threefry64_bijective : forall seed, bijective_on (word_pair 64) (threefry64 seed).
Proof. exact threefry64_bij. Qed.
Print Assumptions C28_threefry64_bijective.
(** Counters below 2^(2b) have different word pairs, so no pair repeats within a period. *)
Theorem C28_no_repetition : forall b n m, (b = 32 \/ b = 64) -> 0 <= n < 2 ^ (2 * b) -> 0 <= m < 2 ^ (2 * b) ->
  let F s := if b =? 32 then threefry32 s else threefry64 s in
  forall seed, F seed (hi_word b n, lo_word b n) = F seed (hi_word b m, lo_word b m) -> n = m.
Proof.
  intros b n m Hb Hn Hm F seed E. assert (B1 : 1 <= b) by lia. unfold F in E.
  assert (W : forall k, word_pair b (hi_word b k, lo_word b k)) by (intros k; split; apply (wrapb_word b); lia).
  assert (EQ : (hi_word b n, lo_word b n) = (hi_word b m, lo_word b m)).
  { destruct Hb as [-> | ->]; cbn [Z.eqb] in E.
    - destruct (threefry32_bij seed) as (_ & I & _). apply I; auto.
    - destruct (threefry64_bij seed) as (_ & I & _). apply I; auto. }
  injection EQ as EH EL. unfold hi_word, lo_word in EH, EL.
  apply (f_equal (fun z => z mod 2 ^ b)) in EH, EL. change (sword b) with (wrapb b) in *. rewrite !wrapb_mod in EH, EL by lia.
  pose proof (pow2_pos b ltac:(lia)). replace (2 ^ (2 * b)) with (2 ^ b * 2 ^ b) in * by (rewrite <- Z.pow_add_r by lia; f_equal; lia).
  rewrite (Z.mod_small (n / 2 ^ b)), (Z.mod_small (m / 2 ^ b)) in EH;
    try (split; [apply Z.div_pos; lia|apply Z.div_lt_upper_bound; lia]).
  rewrite (Z.div_mod n (2 ^ b)), (Z.div_mod m (2 ^ b)) by lia. congruence.
Qed.
Print Assumptions C28_no_repetition.
Example C28_instance : word_pair 32 (5, -7) /\ threefry32 42 (5, -7) <> threefry32 42 (5, -8).
Proof. split; [split; vm_compute; split; congruence|vm_compute; congruence]. Qed.

(** C29: seeding gives the same stream whatever happened before (same algorithm, same
    rank): all later draws coincide. *)
Theorem C29_seed : forall rank P g1 g2 s hist1 hist2 ds, g_alg g1 = g_alg g2 ->
  let r := Z.of_nat rank in
  draws rank P (seed r (after_draws rank P g1 hist1) s) ds = draws rank P (seed r (after_draws rank P g2 hist2) s) ds.
Proof.
  assert (A : forall rank P h g, g_alg (after_draws rank P g h) = g_alg g).
  { intros rank P h. induction h as [|d t IH]; intros g; [reflexivity|]. cbn [after_draws]. rewrite IH.
    destruct d; cbn; auto. destruct (g_alg g) eqn:E; cbn; auto. destruct (g_seed g), (g_counter g); cbn; auto.
    destruct (random_words _ _ _ _ _ _ _) as [[a c]|e]; cbn; auto. }
  intros rank P g1 g2 s h1 h2 ds E r. f_equal. unfold seed. rewrite !A, E. reflexivity.
Qed.
Print Assumptions C29_seed.

Definition uses_counter (d : draw) : Prop := match d with DRand _ _ _ => True | DPerm => False end.
(** Threefry: restoring a saved state, into the same or any other generator, reproduces
    all further rand / randint / randn draws.  Restriction: not permutation / randperm. *)
Theorem C29_state_round_trip_partial : forall rank P g hist s1 c1 other, 
  g_alg g = Threefry -> g_seed g = Some s1 -> g_counter g = Some c1 ->
  let g1 := after_draws rank P g hist in
  exists g2, set_state (Z.of_nat rank) other (get_state g1) = Ok g2 /\ get_state g2 = get_state g1 /\
    forall ds, Forall uses_counter ds -> draws rank P g2 ds = draws rank P g1 ds.
Proof.
  assert (ST : forall rank P h g s c, g_alg g = Threefry -> g_seed g = Some s -> g_counter g = Some c ->
    let g1 := after_draws rank P g h in g_alg g1 = Threefry /\ g_seed g1 = Some s /\ exists c', g_counter g1 = Some c').
  { intros rank P h. induction h as [|d t IH]; intros g s c A Sg C; cbn [after_draws]; [cbv zeta; eauto|].
    destruct d as [b sh sp|]; cbn [do_draw].
    - rewrite A, Sg, C. destruct (random_words _ _ _ _ _ _ _) as [[a c']|e]; cbn [fst].
      + apply (IH _ s c'); auto.
      + apply (IH _ s c); auto.
    - cbn [fst]. eapply IH; cbn; eauto. }
  assert (EQ : forall rank P ds a b, g_alg a = Threefry -> g_alg b = Threefry -> g_seed a = g_seed b -> g_counter a = g_counter b ->
     Forall uses_counter ds -> draws rank P a ds = draws rank P b ds).
  { intros rank P ds. induction ds as [|d t IH]; intros a b Aa Ab Es Ec F; [reflexivity|]. inversion_clear F.
    destruct d as [w sh sp|]; [|easy]. cbn [draws do_draw]. rewrite Aa, Ab, Es, Ec.
    destruct (g_seed b) as [s|] eqn:Sb; destruct (g_counter b) as [c|] eqn:Cb.
    2-4: f_equal; apply IH; congruence.
    destruct (random_words _ _ _ _ _ _ _) as [[x c']|e]; f_equal; apply IH; cbn; congruence. }
  intros rank P g h s1 c1 other A S C g1. destruct (ST rank P h g s1 c1 A S C) as (A1 & S1 & c' & C1). fold g1 in A1, S1, C1.
  unfold get_state at 1. rewrite A1, S1, C1. cbn [set_state]. eexists. split; [reflexivity|]. split.
  - unfold get_state. rewrite A1, S1, C1. reflexivity.
  - intros ds F. apply EQ; cbn; auto.
Qed.
Print Assumptions C29_state_round_trip_partial.
Definition g_example : rng := seed 0 (mk_rng Threefry None None None (0, 0%nat)) 7.
Example C29_instance : g_alg g_example = Threefry /\ g_seed g_example = Some 7 /\ g_counter g_example = Some 0. Proof. auto. Qed.

(** Batchparallel (the default): restoring the state just saved rewinds the generator,
    the next draw repeats the first one after seeding. *)
Theorem C29_batchparallel_rewinds_refuted : forall rank P b sh sp,
  let g0 := seed (Z.of_nat rank) (mk_rng Batchparallel None None None (0, 0%nat)) 7 in
  let g1 := after_draws rank P g0 [DRand b sh sp] in
  exists g2, set_state (Z.of_nat rank) g1 (get_state g1) = Ok g2 /\
    draws rank P g2 [DRand b sh sp] = draws rank P g0 [DRand b sh sp] /\
    draws rank P g2 [DRand b sh sp] <> draws rank P g1 [DRand b sh sp].
Proof. intros. eexists. split; [reflexivity|]. split; [reflexivity|]. cbn. congruence. Qed.
Print Assumptions C29_batchparallel_rewinds_refuted.
(** Threefry: the same happens to permutations. *)
Theorem C29_permutation_rewinds_refuted : forall rank P,
  let g1 := after_draws rank P g_example [DPerm] in
  exists g2, set_state (Z.of_nat rank) g1 (get_state g1) = Ok g2 /\
    draws rank P g2 [DPerm] = draws rank P g_example [DPerm] /\ draws rank P g2 [DPerm] <> draws rank P g1 [DPerm].
Proof. intros. eexists. split; [reflexivity|]. split; [reflexivity|]. cbn. congruence. Qed.
(** Restoring a Batchparallel state while Threefry is active does not switch back. *)
Theorem C29_set_state_algorithm_refuted : forall rank s, exists g2,
  set_state rank g_example (Batchparallel, Some s, None) = Ok g2 /\ g_alg g2 = Threefry.
Proof. intros. eexists. split; reflexivity. Qed.

(** C31: random.permutation(x) of an array split along axis 0 in the even layout: row i
    of the result is row p[i] of x; the rows are rearranged, none lost or duplicated;
    the layout is kept. *)
Theorem C31_permutation_partial : forall (A : Type) (x0 : A) (d : dist A) (p : list nat),
  (0 < length d)%nat -> lens d = counts_of (length p) (length d) -> is_permutation (length p) p ->
  exists d', permutation0 d p = Some (Ok d') /\
    glob d' = map (fun k => nth k (glob d) x0) p /\ Permutation (glob d') (glob d) /\ lens d' = lens d.
Proof.
  intros A x0 d p HP HL Hp. rewrite (permutation_ok d p x0 HP HL Hp). eexists. split; [reflexivity|].
  assert (G := permutation_glob d p x0 HP). unfold glob at 1. rewrite G. split; [reflexivity|]. split.
  - unfold glob at 1. rewrite G.
    assert (E : map (fun k => nth k (glob d) x0) (seq 0 (length p)) = glob d).
    { rewrite <- (glob_len d p HP HL). apply map_nth_seq. }
    eapply Permutation_trans; [|apply Permutation_refl'; exact E]. apply Permutation_map. destruct Hp as (L & N & B).
    apply NoDup_Permutation; [auto|apply seq_NoDup|]. intros k. rewrite in_seq. split; [intros K; specialize (B k K); lia|].
    intros K. apply (perm_in (length p)); [split; auto|lia].
  - rewrite HL. unfold lens. rewrite map_map. unfold counts_of. apply map_ext_in. intros r Hr.
    rewrite map_length, seq_length. apply LayoutProofs.clen_val.
Qed.
Print Assumptions C31_permutation_partial.

(** Every message that is sent has a receive posted for it on its destination. *)
Theorem C31_sends_received : forall (A : Type) (x0 : A) (d : dist A) (p : list nat) q msgs m,
  (0 < length d)%nat -> lens d = counts_of (length p) (length d) -> is_permutation (length p) p ->
  (q < length d)%nat -> perm_sends d p q = Ok msgs -> In m msgs ->
  (p_dst m < length d)%nat /\ In (q, p_tag m) (perm_recvs d p (p_dst m)).
Proof.
  intros A x0 d p q msgs m HP HL Hp Hq E Hm. rewrite (sends_ok d p x0 HP HL Hp q Hq) in E. injection E as <-.
  now apply (sends_received d p x0 HP HL Hp).
Qed.
Print Assumptions C31_sends_received.
Example C31_instance : lens [[10; 11]; [12]; [13]] = counts_of 4 3 /\ is_permutation 4 [2; 0; 3; 1]%nat /\
  permutation0 [[10; 11]; [12]; [13]] [2; 0; 3; 1]%nat = Some (Ok [[12; 10]; [13]; [11]]).
Proof.
  split; [reflexivity|]. split; [|reflexivity]. split; [reflexivity|]. split.
  - repeat constructor; cbn; intuition lia.
  - cbn. intuition lia.
Qed.

(** Arrays that are not evenly distributed: a row is lost, or the call never returns. *)
Theorem C31_unbalanced_refuted :
  permutation0 [[]; [1; 2]] [0; 1]%nat = Some (Ok [[]; [1]]) /\ permutation0 [[]; [1; 2]] [1; 0]%nat = None.
Proof. split; reflexivity. Qed.
Print Assumptions C31_unbalanced_refuted.

(** C51: randint(low, high): every value lies in [low, high), for every random word. *)
Theorem C51_randint_range : forall b low high v, (b = 32 \/ b = 64) -> is_word b v -> is_word b low -> is_word b (high - 1) ->
  low < high -> high - low < 2 ^ (b - 1) ->
  low <= randint_value b low high v < high.
Proof.
  intros b low high v Hb Hv Hl Hh HL HS. unfold randint_value.
  pose proof (Z.mod_pos_bound (wrapb b (Z.abs v)) (high - low) ltac:(lia)).
  rewrite wrapb_id; [lia|lia|]. unfold is_word in *. lia.
Qed.
Print Assumptions C51_randint_range.
Example C51_instance : randint_value 32 (-5) 10 (-2147483648) = 2 /\ is_word 32 (-2147483648). Proof. split; [reflexivity|]. vm_compute. split; congruence. Qed.
