(** C76: outer. *)
From Verif Require Import Base BaseLemmas LayoutModel LayoutProofs NdSpec TensorSpec TensorLemmas SchedModel RingModel RingProofs OpsModel OpsProofs5 ShapeModel ConcatProofs3 DiffProofs2 OuterModel OuterProofs.
Open Scope nat_scope.

(** the vector [x] on [P] processes holds the elements [g] *)
Definition vec_holds {A} (P : nat) (g : list A) (x : vec A) : Prop :=
  length (v_loc x) = P /\
  if v_split x then glob (v_loc x) = g else forall l, In l (v_loc x) -> l = g.
(** layout: replicated, or cut as ht.array(..., split=0) cuts it *)
Definition canonical {A} (x : vec A) : Prop :=
  v_split x = true -> lens (v_loc x) = counts_of (length (glob (v_loc x))) (length (v_loc x)).
Definition extents {A} (x : vec A) : list Z := map Z.of_nat (lens (v_loc x)).

Lemma cstart_bound n P j : 0 < P -> j <= P -> cstart n j P <= n.
Proof.
  intros HP Hj. pose proof (cstart_P n HP) as E.
  assert (G : forall k, j <= k -> cstart n j P <= cstart n k P).
  { intros k Hk. induction Hk as [|k Hk IHk]; [lia|]. rewrite cstart_S by auto. lia. }
  specialize (G P Hj). lia.
Qed.
Lemma chunks_glob {A} (l : list A) P : 0 < P -> forall k, k <= P ->
  concat (map (fun r => sub l (cstart (length l) r P) (clen (length l) r P)) (seq 0 k)) = firstn (cstart (length l) k P) l.
Proof.
  intros HP k. induction k as [|k IH]; intros Hk; [rewrite cstart_0 by auto; reflexivity|].
  rewrite seq_S, map_app, concat_app, IH by lia. cbn [map concat]. rewrite app_nil_r, cstart_S by auto. cbn [plus].
  unfold sub. set (a := cstart (length l) k P). set (b := clen (length l) k P).
  rewrite <- (firstn_skipn a l) at 3. rewrite firstn_app.
  assert (La : length (firstn a l) <= a) by (rewrite firstn_length; lia).
  assert (Ha : a <= length l) by (apply cstart_bound; lia).
  rewrite firstn_length, Nat.min_l by auto. rewrite (firstn_all2 (firstn a l)) by lia.
  replace (a + b - a) with b by lia. reflexivity.
Qed.
Lemma nth_holds {A} P (g : list A) x r : vec_holds P g x -> v_split x = false -> r < P -> nth r (v_loc x) [] = g.
Proof. intros [L H] E Hr. rewrite E in H. apply H, nth_In. lia. Qed.
Lemma resplit0_spec {A} P (g : list A) x : 0 < P -> vec_holds P g x -> canonical x ->
  vec_holds P g (resplit0 x) /\ v_split (resplit0 x) = true /\ lens (v_loc (resplit0 x)) = counts_of (length g) P.
Proof.
  intros HP H C. unfold resplit0. destruct (v_split x) eqn:E.
  - split; [auto|]. split; [auto|]. specialize (C E). destruct H as [L H]. rewrite E in H. now rewrite C, H, L.
  - assert (EM : map (fun r => let '(st, len) := chunk_1d (length (nth r (v_loc x) [])) r (length (v_loc x)) in sub (nth r (v_loc x) []) st len) (seq 0 (length (v_loc x)))
       = map (fun r => sub g (cstart (length g) r P) (clen (length g) r P)) (seq 0 P)).
    { destruct H as [L H'] eqn:EH. rewrite L. apply map_ext_in. intros r Hr. apply in_seq in Hr.
      rewrite (nth_holds P g x r H E) by lia. unfold cstart, clen. destruct (chunk_1d (length g) r P). reflexivity. }
    cbv zeta. rewrite EM. cbn [v_loc v_split]. split; [|split; [reflexivity|]].
    + split; cbn [v_loc v_split]; [now rewrite map_length, seq_length|]. unfold glob. rewrite chunks_glob by lia. rewrite cstart_P by auto. apply firstn_all.
    + unfold lens. rewrite map_map. apply (nth_ext _ _ 0 0); [now rewrite map_length, seq_length, counts_of_length|].
      intros r Hr. rewrite map_length, seq_length in Hr. rewrite nth_map_seq, counts_of_nth by auto.
      unfold sub. rewrite firstn_length, skipn_length.
      assert (G : forall j, j <= P -> cstart (length g) j P <= length g).
      { intros j Hj. now apply cstart_bound. }
      specialize (G (Datatypes.S r) ltac:(lia)). rewrite cstart_S in G by auto. lia.
Qed.
Lemma resplit0_split {A} P (g : list A) x : 0 < P -> vec_holds P g x -> vec_holds P g (resplit0 x) /\ v_split (resplit0 x) = true.
Proof.
  intros HP H. destruct (v_split x) eqn:E; [unfold resplit0; now rewrite E|].
  destruct (resplit0_spec P g x HP H) as (H1 & H2 & _); auto. intros E'. congruence.
Qed.
Lemma vlen_holds {A} P (g : list A) x : 0 < P -> vec_holds P g x -> vlen x = length g.
Proof. intros HP H. unfold vlen. destruct (v_split x) eqn:E; [destruct H as [_ H]; rewrite E in H; now rewrite H|]. now rewrite (nth_holds P g x 0 H E HP). Qed.
Lemma piece_glob {A} P (g : list A) x r i d : vec_holds P g x -> v_split x = true -> i < length (nth r (v_loc x) []) ->
  nth i (nth r (v_loc x) []) d = nth (psum (lens (v_loc x)) r + i) g d.
Proof. intros [_ H] E Hi. rewrite E in H. rewrite <- H. symmetry. now apply glob_nth. Qed.

Section Outer.
Context {A C : Type}.
Variables (mul : A -> A -> C) (zero : C) (dflt : A).
(** The value at (i, j) is the product of element i of the first and element j of the second vector. *)
Definition outer_product (ga gb : list A) (idx : list Z) : C :=
  mul (nth (Z.to_nat (nth 0 idx 0%Z)) ga dflt) (nth (Z.to_nat (nth 1 idx 0%Z)) gb dflt).

Lemma bounds2 m n idx : in_bounds [m; n] idx -> exists i j, idx = [i; j] /\ (0 <= i < m)%Z /\ (0 <= j < n)%Z.
Proof. intros H. inversion H as [|? i ? l H1 H2]; subst. inversion H2 as [|? j ? l' H3 H4]; subst. inversion H4; subst. eauto. Qed.

Lemma nth_combine_seq {X} (os : list X) : forall P r p, nth_error (combine (seq 0 P) os) r = Some p -> fst p = r /\ nth_error os r = Some (snd p).
Proof.
  intros P r p H. assert (G : forall k m (os : list X) r, nth_error (combine (seq m k) os) r = Some p -> fst p = m + r /\ nth_error os r = Some (snd p)).
  { induction k as [|k IH]; intros m [|o os'] [|r'] E; cbn in E; try discriminate.
    - injection E as <-. cbn. split; [lia|auto].
    - apply IH in E. cbn. split; [lia|tauto]. }
  apply (G P 0) in H. cbn in H. exact H.
Qed.

(** Which operand stays where it is, which one travels *)
Definition stays (split : option nat) (a b : vec A) : vec A := match split with Some 1 => b | _ => a end.
Definition travels (split : option nat) (a b : vec A) : vec A := match split with Some 1 => a | _ => b end.

(** C76.  For every number of processes, all vectors, every layout of the operand that stays
    and canonical layouts of the one that travels, outer is the outer product; the result is
    split as asked for (0 when split is None and an operand is split), with the pieces
    of the operand that stays. *)
Theorem C76_outer P ga gb a b split :
  0 < P -> vec_holds P ga a -> vec_holds P gb b ->
  In split [None; Some 0; Some 1] -> canonical (travels split a b) ->
  exists y a' b', outer mul zero dflt split a b = (Ok y, a', b') /\
    d_gshape y = [Z.of_nat (length ga); Z.of_nat (length gb)] /\
    d_split y = (if ((1 <? P) && negb (match split with None => true | _ => false end)) || v_split a || v_split b
                 then Some (match split with Some 1 => 1 | _ => 0 end) else None) /\
    represents (outer_product ga gb) (d_gshape y) (d_split y) (extents (stays split a' b')) (d_locals y) /\
    vec_holds P ga a' /\ vec_holds P gb b'.
Proof.
  intros HP Ha Hb Hs HC.
  pose proof (vlen_holds P ga a HP Ha) as Va. pose proof (vlen_holds P gb b HP Hb) as Vb.
  unfold outer. rewrite Va, Vb. replace (length (v_loc a)) with P by (symmetry; apply Ha).
  replace (match split with None => false | Some _ => true end) with (negb (match split with None => true | _ => false end)) by (now destruct split).
  destruct (((1 <? P) && negb (match split with None => true | _ => false end)) || v_split a || v_split b) eqn:Br.
  2:{ apply orb_false_iff in Br as [Br Eb]. apply orb_false_iff in Br as [_ Ea].
      eexists _, a, b. split; [reflexivity|]. split; [reflexivity|]. split; [reflexivity|]. split; [|auto].
      cbn [d_locals d_split d_gshape]. split; [|split].
      - unfold extents. rewrite !map_length, seq_length, lens_length. unfold stays. destruct split as [[|[|]]|]; symmetry; try apply Ha; apply Hb.
      - repeat constructor; lia.
      - intros t Ht. apply in_map_iff in Ht as (r & <- & Hr). apply in_seq in Hr. split; [reflexivity|]. intros idx Hi. cbn [adat]. unfold outer_product.
        rewrite (nth_holds P ga a r Ha Ea), (nth_holds P gb b r Hb Eb) by lia. reflexivity. }
  clear Br. set (a' := resplit0 a). set (b' := resplit0 b).
  destruct (resplit0_split P ga a HP Ha) as [Ha' Ea]. destruct (resplit0_split P gb b HP Hb) as [Hb' Eb]. fold a' in Ha', Ea. fold b' in Hb', Eb.
  destruct (Nat.eq_dec (match split with Some 1 => 1 | _ => 0 end) 1) as [E1|E1].
  - (* a travels *)
    assert (split = Some 1) as -> by (destruct split as [[|[|]]|]; cbn in *; try discriminate; reflexivity).
    cbn [travels] in HC. destruct (resplit0_spec P ga a HP Ha HC) as (_ & _ & Can). fold a' in Can.
    assert (Gl : glob (v_loc a') = ga) by (destruct Ha' as [_ H]; rewrite Ea in H; exact H).
    destruct (@ring_result_ok A C zero dflt P (fun u w => mul w u) (v_loc b') (v_loc a')) as (os & E & L & H); [auto|apply Ha'|now rewrite Gl|].
    rewrite Gl in E, H. cbn [hd]. rewrite E. cbn [bind]. eexists _, a', b'. split; [reflexivity|]. split; [reflexivity|]. split; [reflexivity|]. split; [|auto].
    cbn [d_locals d_split d_gshape stays]. split; [|split].
    + unfold extents. rewrite !map_length, combine_length, seq_length, lens_length, L. replace (length (v_loc b')) with P by (symmetry; apply Hb'). lia.
    + repeat constructor; lia.
    + split; [cbn; lia|]. split; [unfold extents; apply Forall_forall; intros c Hc; apply in_map_iff in Hc as (n & <- & _); lia|].
      split; [unfold extents; rewrite zsum_lens; destruct Hb' as [_ Hg]; rewrite Eb in Hg; rewrite Hg; reflexivity|].
      intros r t Et. rewrite nth_error_map in Et. destruct (nth_error _ r) as [p|] eqn:Ep in Et; [|discriminate]. injection Et as <-.
      apply nth_combine_seq in Ep as [Ef Eo]. rewrite Ef.
      assert (Hn : nth r (extents b') 0%Z = Z.of_nat (length (nth r (v_loc b') []))).
      { unfold extents. change 0%Z with (Z.of_nat 0). rewrite map_nth. now rewrite lens_nth. }
      split; [cbn; now rewrite Hn|]. intros idx Hi. cbn [upd] in Hi. rewrite Hn in Hi.
      apply bounds2 in Hi as (i & j & -> & Hi1 & Hj1). cbn [adat nth]. unfold outer_product, move_axis_idx. cbn [upd nth].
      rewrite (H r (snd p)) by (auto; lia). f_equal.
      rewrite (piece_glob P gb b' r (Z.to_nat j) dflt Hb' Eb) by lia. f_equal.
      unfold extents. rewrite psum_zsum_nat. lia.
  - (* b travels *)
    assert (HC' : canonical b) by (destruct split as [[|[|]]|]; cbn in *; auto; try (now exfalso); destruct Hs as [?|[?|[?|[]]]]; discriminate).
    destruct (resplit0_spec P gb b HP Hb HC') as (_ & _ & Can). fold b' in Can.
    assert (Gl : glob (v_loc b') = gb) by (destruct Hb' as [_ H]; rewrite Eb in H; exact H).
    destruct (@ring_result_ok A C zero dflt P mul (v_loc a') (v_loc b')) as (os & E & L & H); [auto|apply Hb'|now rewrite Gl|].
    rewrite Gl in E, H.
    exists (mk_dnd (map (fun p => mk_arr [Z.of_nat (length (nth (fst p) (v_loc a') [])); Z.of_nat (length gb)]
                (fun i => o_acc (snd p) (Z.to_nat (nth 0 i 0%Z)) (Z.to_nat (nth 1 i 0%Z)))) (combine (seq 0 P) os))
              [Z.of_nat (length ga); Z.of_nat (length gb)] (Some 0)), a', b'.
    split; [destruct Hs as [<-|[<-|[<-|[]]]]; [| |now exfalso]; cbv zeta; cbn [hd]; rewrite E; reflexivity|].
    split; [reflexivity|]. split; [destruct Hs as [<-|[<-|[<-|[]]]]; [| |now exfalso]; reflexivity|]. split; [|auto].
    assert (stays split a' b' = a') as -> by (destruct Hs as [<-|[<-|[<-|[]]]]; [| |now exfalso]; reflexivity).
    cbn [d_locals d_split d_gshape]. split; [|split].
    + unfold extents. rewrite !map_length, combine_length, seq_length, lens_length, L. replace (length (v_loc a')) with P by (symmetry; apply Ha'). lia.
    + repeat constructor; lia.
    + split; [cbn; lia|]. split; [unfold extents; apply Forall_forall; intros c Hc; apply in_map_iff in Hc as (n & <- & _); lia|].
      split; [unfold extents; rewrite zsum_lens; destruct Ha' as [_ Hg]; rewrite Ea in Hg; rewrite Hg; reflexivity|].
      intros r t Et. rewrite nth_error_map in Et. destruct (nth_error _ r) as [p|] eqn:Ep in Et; [|discriminate]. injection Et as <-.
      apply nth_combine_seq in Ep as [Ef Eo]. rewrite Ef.
      assert (Hn : nth r (extents a') 0%Z = Z.of_nat (length (nth r (v_loc a') []))).
      { unfold extents. change 0%Z with (Z.of_nat 0). rewrite map_nth. now rewrite lens_nth. }
      split; [cbn; now rewrite Hn|]. intros idx Hi. cbn [upd] in Hi. rewrite Hn in Hi.
      apply bounds2 in Hi as (i & j & -> & Hi1 & Hj1). cbn [adat nth]. unfold outer_product, move_axis_idx. cbn [upd nth].
      rewrite (H r (snd p)) by (auto; lia). f_equal.
      rewrite (piece_glob P ga a' r (Z.to_nat i) dflt Ha' Ea) by lia. f_equal.
      unfold extents. rewrite psum_zsum_nat. lia.
Qed.

(** The ring as a message-passing program (each process: blocking Send to the right, then
    Recv from the left, P - 1 times): when sends are buffered, every execution runs to the
    end after at most 2 (P - 1) P steps, cannot get stuck before, leaves no message behind, and
    its result is the one C76_outer is about. *)
Theorem C76_all_schedules P n val (kept trav : dist A) k c :
  2 <= P ->
  let start := map (start zero dflt P n val kept trav) (seq 0 P) in
  let prog := ring_start P (@o_out A C) (o_inc dflt P n val kept trav) (P - 1) start in
  steps k prog c ->
  k <= 2 * (P - 1) * P /\
  (final c \/ exists c', step_send c c' \/ step_recv c c') /\
  (final c -> st c = ring_result zero dflt P n val kept trav /\ net c = []).
Proof.
  intros HP start prog H. assert (L : length start = P) by (unfold start; now rewrite map_length, seq_length).
  split; [exact (ring_terminates (Err OutOfFuel) HP L H)|]. split; [exact (ring_progress (Err OutOfFuel) HP L H)|]. intros F.
  exact (ring_final (Err OutOfFuel) HP L H F).
Qed.
(** ... but with synchronous sends (as for messages above the eager limit) every process
    waits in its first Send: the program deadlocks at once. *)
Theorem C76_needs_buffering_refuted P n val (kept trav : dist A) :
  2 <= P ->
  let start := map (start zero dflt P n val kept trav) (seq 0 P) in
  let prog := ring_start P (@o_out A C) (o_inc dflt P n val kept trav) (P - 1) start in
  ~ final prog /\ forall c, ~ (step_recv prog c \/ step_sync prog c).
Proof.
  intros HP start prog. assert (L : length start = P) by (unfold start; now rewrite map_length, seq_length).
  apply (ring_stuck _ _ _ HP L); lia.
Qed.

(** an error in the ring stays *)
Lemma ok_before P n val (kept trav : dist A) s0 m : (forall r, r < P -> exists o, nth r (ring_rounds P (@o_out A C) (o_inc dflt P n val kept trav) (Err OutOfFuel) (Datatypes.S m) s0) (Err OutOfFuel) = Ok o) ->
  forall r, r < P -> exists o, nth r (ring_rounds P (@o_out A C) (o_inc dflt P n val kept trav) (Err OutOfFuel) m s0) (Err OutOfFuel) = Ok o.
Proof.
  intros H r Hr. destruct (H r Hr) as (o & E). cbn [ring_rounds] in E. unfold ring_round in E. rewrite nth_map_seq in E by auto.
  destruct (nth r (ring_rounds _ _ _ _ m s0) _) eqn:Es; [eauto|]. cbn in E. discriminate.
Qed.
Lemma ok_first P n val (kept trav : dist A) s0 m : 1 <= m -> (forall r, r < P -> exists o, nth r (ring_rounds P (@o_out A C) (o_inc dflt P n val kept trav) (Err OutOfFuel) m s0) (Err OutOfFuel) = Ok o) ->
  forall r, r < P -> exists o, nth r (ring_rounds P (@o_out A C) (o_inc dflt P n val kept trav) (Err OutOfFuel) 1 s0) (Err OutOfFuel) = Ok o.
Proof.
  induction m as [|m IH]; [lia|]. intros Hm H. destruct (Nat.eq_dec m 0) as [->|]; [exact H|]. apply IH; [lia|]. now apply ok_before.
Qed.
Lemma all_ok_nth {X} (l : list (res X)) os d : all_ok l = Ok os -> forall r, r < length l -> exists o, nth r l d = Ok o.
Proof.
  revert os. induction l as [|s l IH]; intros os E r Hr; [cbn in Hr; lia|]. cbn in E. destruct s as [x|]; [|discriminate]. cbn in E.
  destruct (all_ok l) as [os'|] eqn:E'; [|discriminate]. destruct r as [|r]; [cbn; eauto|]. cbn. eapply IH; [reflexivity|cbn in Hr; lia].
Qed.
(** if the ring does not fail, the travelling operand was canonical *)
Lemma ring_ok_canonical P val (kept trav : dist A) os : 2 <= P -> length trav = P ->
  all_ok (ring_result zero dflt P (length (glob trav)) val kept trav) = Ok os -> lens trav = counts_of (length (glob trav)) P.
Proof.
  intros HP LT E. set (N := length (glob trav)) in *.
  assert (H1 : forall q, q < P -> length (nth q trav []) = clen N q P \/ length (nth q trav []) = 1).
  { intros q Hq. pose proof (all_ok_nth _ _ (Err OutOfFuel) E) as H.
    assert (H' : forall r, r < P -> exists o, nth r (ring_rounds P (@o_out A C) (o_inc dflt P N val kept trav) (Err OutOfFuel) (P - 1) (map (start zero dflt P N val kept trav) (seq 0 P))) (Err OutOfFuel) = Ok o).
    { intros r Hr. apply H. unfold ring_result. destruct (P - 1) eqn:EP; [lia|]. cbn. unfold ring_round. now rewrite map_length, seq_length. }
    clear H. set (r := right P q). assert (Hr : r < P) by (unfold r, right; destruct (Nat.eqb_spec q (P - 1)); lia).
    assert (Hl : left P r = q) by (unfold r, left, right; destruct (Nat.eqb_spec q (P - 1)); [subst; reflexivity|]; destruct (Nat.eqb_spec (q + 1) 0); lia).
    destruct (ok_first P N val kept trav _ (P - 1) ltac:(lia) H' r Hr) as (o & Eo).
    pose proof Eo as Eo2. cbn [ring_rounds] in Eo. unfold ring_round in Eo. rewrite !nth_map_seq in Eo by (auto; rewrite ?Hl; auto).
    rewrite Hl in Eo. unfold o_inc in Eo.
    destruct (start zero dflt P N val kept trav r) as [o1|] eqn:E1; [|discriminate]. cbn [bind] in Eo.
    assert (Es : exists z, start zero dflt P N val kept trav q = Ok z).
    { destruct (ok_before P N val kept trav (map (start zero dflt P N val kept trav) (seq 0 P)) 0) with (r := q) as (z & Ez); auto.
      - intros r0 Hr0. apply (ok_first P N val kept trav _ (P - 1) ltac:(lia) H' r0 Hr0).
      - cbn in Ez. rewrite nth_map_seq in Ez by auto. eauto. }
    destruct Es as (z & Ez). rewrite Ez in Eo. cbn [o_out] in Eo.
    assert (Erun : o_run z = nth q trav []).
    { unfold start in Ez. destruct (if Nat.eqb _ 0 then _ else _) in Ez; [|discriminate]. cbn in Ez. injection Ez as <-. reflexivity. }
    rewrite Erun in Eo. destruct (Nat.ltb _ _) in Eo; [discriminate|].
    assert (EA : actual_origin P r 0 = q) by (unfold actual_origin; rewrite Hl; cbn; lia).
    rewrite EA in Eo. unfold lmap in Eo. rewrite lens_nth in Eo.
    rewrite firstn_app, Nat.sub_diag, firstn_all in Eo. cbn [firstn] in Eo. rewrite app_nil_r in Eo.
    unfold assign in Eo. unfold clen. destruct (chunk_1d N q P) as [st len]. cbn [snd].
    destruct (Nat.eqb_spec (length (nth q trav [])) len); [auto|]. destruct (Nat.eqb_spec (length (nth q trav [])) 1); [auto|].
    cbn in Eo. discriminate. }
  assert (HS : list_sum (lens trav) = list_sum (counts_of N P)) by (rewrite counts_of_sum by lia; unfold N; now rewrite glob_length).
  assert (G : forall (l l' : list nat), length l = length l' -> list_sum l = list_sum l' ->
     (forall q, q < length l -> nth q l 0 <= nth q l' 0) \/ (forall q, q < length l -> nth q l' 0 <= nth q l 0) -> l = l').
  { clear. assert (G1 : forall (l l' : list nat), length l = length l' -> (forall q, q < length l -> nth q l 0 <= nth q l' 0) -> list_sum l <= list_sum l' /\ (list_sum l = list_sum l' -> l = l')).
    { induction l as [|x l IH]; intros [|y l'] L H; try discriminate; [auto|]. cbn in L. pose proof (H 0 ltac:(cbn; lia)) as H0. cbn in H0.
      destruct (IH l') as [I1 I2]; [lia|intros q Hq; apply (H (Datatypes.S q)); cbn; lia|]. change (list_sum (x :: l)) with (x + list_sum l). change (list_sum (y :: l')) with (y + list_sum l'). split; [lia|].
      intros E. f_equal; [lia|apply I2; lia]. }
    intros l l' L E [H|H]; [now apply G1|]. symmetry. apply G1; auto. now rewrite <- L. }
  apply G; [now rewrite lens_length, counts_of_length|auto|].
  destruct (Nat.le_gt_cases 1 (clen N (P - 1) P)) as [Hc|Hc].
  - left. intros q Hq. rewrite lens_length, LT in Hq. rewrite lens_nth, counts_of_nth by auto.
    pose proof (@clen_mono N q (P - 1) P ltac:(lia)). destruct (H1 q Hq); lia.
  - right. intros q Hq. rewrite lens_length, LT in Hq. rewrite lens_nth, counts_of_nth by auto.
    pose proof (@clen_mono N q (P - 1) P ltac:(lia)). destruct (H1 q Hq); lia.
Qed.
(** Never silently wrong: on two or more processes, whatever the layouts of the operands, if
    outer returns, its result is the outer product. *)
Theorem C76_never_silently_wrong P ga gb a b split y a' b' :
  2 <= P -> vec_holds P ga a -> vec_holds P gb b -> In split [None; Some 0; Some 1] ->
  outer mul zero dflt split a b = (Ok y, a', b') ->
  d_gshape y = [Z.of_nat (length ga); Z.of_nat (length gb)] /\
  represents (outer_product ga gb) (d_gshape y) (d_split y) (extents (stays split a' b')) (d_locals y).
Proof.
  intros HP Ha Hb Hs E. assert (HC : canonical (travels split a b)).
  { intros Et. unfold outer in E. rewrite (vlen_holds P ga a), (vlen_holds P gb b) in E by (auto; lia).
    replace (length (v_loc a)) with P in E by (symmetry; apply Ha).
    assert (Br : ((1 <? P) && (match split with None => false | _ => true end)) || v_split a || v_split b = true).
    { apply orb_true_iff. destruct split as [[|[|]]|]; cbn in Et; rewrite ?Et, ?orb_true_r; auto. }
    rewrite Br in E. destruct (resplit0_split P ga a ltac:(lia) Ha) as [Ha' Ea]. destruct (resplit0_split P gb b ltac:(lia) Hb) as [Hb' Eb].
    destruct Hs as [<-|[<-|[<-|[]]]]; cbn [travels] in *; injection E as E _ _.
    1,2: destruct (all_ok _) as [os|] eqn:Eo in E; [|discriminate];
      assert (Er : resplit0 b = b) by (unfold resplit0; now rewrite Et); rewrite Er in *;
      destruct Hb' as [Lb Gb]; rewrite Eb in Gb; rewrite Lb; eapply ring_ok_canonical; [auto|auto|]; rewrite Gb; exact Eo.
    destruct (all_ok _) as [os|] eqn:Eo in E; [|discriminate].
    assert (Er : resplit0 a = a) by (unfold resplit0; now rewrite Et). rewrite Er in *.
    destruct Ha' as [La Ga]; rewrite Ea in Ga; rewrite La; eapply ring_ok_canonical; [auto|auto|]; rewrite Ga; exact Eo. }
  destruct (C76_outer P ga gb a b split ltac:(lia) Ha Hb Hs HC) as (y' & a2 & b2 & E2 & H1 & _ & H3 & _).
  rewrite E in E2. injection E2 as <- <- <-. auto.
Qed.
End Outer.
Print Assumptions C76_never_silently_wrong.
Print Assumptions C76_outer.
Print Assumptions C76_all_schedules.
Print Assumptions C76_needs_buffering_refuted.

Definition c76_a := mk_vec [[2]; [3; 5; 7]; []]%Z true.
Definition c76_b := mk_vec [[1; 10]; [1; 10]; [1; 10]]%Z false.
Example C76_hypotheses : vec_holds 3 [2; 3; 5; 7]%Z c76_a /\ vec_holds 3 [1; 10]%Z c76_b /\ canonical (travels None c76_a c76_b).
Proof.
  split; [split; reflexivity|]. split; [|discriminate]. split; [reflexivity|]. cbn. intros l [<-|[<-|[<-|[]]]]; reflexivity.
Qed.
Definition shown (r : res (dnd Z) * vec Z * vec Z) : res (list (list Z)) :=
  do y <- fst (fst r); Ok (map (fun t => map (adat t) (row_major (ash t))) (d_locals y)).
Example C76_instance : shown (outer Z.mul 0%Z 0%Z None c76_a c76_b) = Ok [[2; 20]; [3; 30; 5; 50; 7; 70]; []]%Z.
Proof. reflexivity. Qed.
Example C76_instance_columns : shown (outer Z.mul 0%Z 0%Z (Some 1) (mk_vec [[2; 3]; [5]; [7]]%Z true) c76_b)
  = Ok [[2; 3; 5; 7]; [20; 30; 50; 70]; []]%Z.
Proof. reflexivity. Qed.

(** A travelling operand in another layout: the slices are computed for the canonical
    layout, and the assignment fails. *)
Theorem C76_unbalanced_refuted : exists a b,
  vec_holds 2 [2; 3]%Z a /\ vec_holds 2 [1; 10; 100; 1000]%Z b /\
  fst (fst (outer Z.mul 0%Z 0%Z None a b)) = Err RuntimeError.
Proof. exists (mk_vec [[2]; [3]]%Z true), (mk_vec [[1; 10; 100]; [1000]]%Z true). repeat split. Qed.
(** The operands are changed: a replicated operand comes back split. *)
Theorem C76_operands_changed_refuted : exists a b y a' b',
  vec_holds 2 [2; 3]%Z a /\ vec_holds 2 [1; 10]%Z b /\ v_split b = false /\
  outer Z.mul 0%Z 0%Z None a b = (Ok y, a', b') /\ v_split b' = true /\ v_loc b' = [[1]; [10]]%Z.
Proof.
  exists (mk_vec [[2]; [3]]%Z true), (mk_vec [[1; 10]; [1; 10]]%Z false). eexists _, _, _.
  split; [split; reflexivity|]. split; [split; [reflexivity|]; cbn; intros l [<-|[<-|[]]]; reflexivity|]. split; [reflexivity|]. split; [reflexivity|]. split; reflexivity.
Qed.
Print Assumptions C76_unbalanced_refuted.
Print Assumptions C76_operands_changed_refuted.
