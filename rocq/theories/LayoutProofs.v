(** Proofs for the layout properties. *)
From Verif Require Import Base BaseLemmas PySpec LayoutModel LayoutSpec.
From Coq Require Import Permutation.
Set Implicit Arguments.

(* ---------- chunk ---------- *)

Definition cstart n r P := fst (chunk_1d n r P).
Definition clen n r P := snd (chunk_1d n r P).

Lemma cstart_0 n P : 0 < P -> cstart n 0 P = 0.
Proof. intros; unfold cstart, chunk_1d. destruct (Nat.ltb_spec 0 (n mod P)); simpl; lia. Qed.

Lemma cstart_S n r P : 0 < P -> cstart n (S r) P = cstart n r P + clen n r P.
Proof.
  intros; unfold cstart, clen, chunk_1d.
  destruct (Nat.ltb_spec r (n mod P)); destruct (Nat.ltb_spec (S r) (n mod P)); simpl; nia.
Qed.

Lemma cstart_P n P : 0 < P -> cstart n P P = n.
Proof.
  intros; unfold cstart, chunk_1d. destruct (Nat.ltb_spec P (n mod P)); simpl; nia.
Qed.

Lemma clen_val n r P : clen n r P = n / P + (if r <? n mod P then 1 else 0).
Proof. unfold clen, chunk_1d. destruct (r <? n mod P); simpl; lia. Qed.

Lemma clen_mono n r1 r2 P : r1 <= r2 -> clen n r2 P <= clen n r1 P <= clen n r2 P + 1.
Proof.
  intros. rewrite !clen_val.
  destruct (Nat.ltb_spec r1 (n mod P)); destruct (Nat.ltb_spec r2 (n mod P)); lia.
Qed.

Lemma seq_glue a b c : seq a b ++ seq (a + b) c = seq a (b + c).
Proof. symmetry; apply seq_app. Qed.

Lemma chunk_tiles n P : 0 < P ->
  tiles (map (fun r => (cstart n r P, cstart n r P + clen n r P)) (seq 0 P)) n.
Proof.
  intros HP. unfold tiles. rewrite map_map. simpl.
  assert (G : forall k, concat (map (fun r => seq (cstart n r P) (cstart n r P + clen n r P - cstart n r P)) (seq 0 k))
              = seq 0 (cstart n k P)).
  { induction k; [now rewrite cstart_0|].
    rewrite seq_S, map_app, concat_app, IHk. simpl. rewrite app_nil_r, cstart_S by auto.
    replace (cstart n k P + clen n k P - cstart n k P) with (clen n k P) by lia.
    apply (seq_glue 0). }
  rewrite G, cstart_P by auto. reflexivity.
Qed.

Lemma sanitize_axis_int_ok ndim s a :
  s < ndim -> (a = Z.of_nat s \/ a = Z.of_nat s - Z.of_nat ndim)%Z ->
  sanitize_axis ndim (AxInt a) = Ok (AxInt (Z.of_nat s)).
Proof.
  intros H Ha. unfold sanitize_axis. destruct (Nat.eqb_spec ndim 0) as [Hz|Hz]; [lia|].
  destruct ((0 <=? a)%Z && (a <? Z.of_nat ndim)%Z) eqn:E1.
  - do 2 f_equal; lia.
  - destruct (Z.ltb_spec a 0).
    + destruct ((a + Z.of_nat ndim <? 0)%Z || (Z.of_nat ndim <=? a + Z.of_nat ndim)%Z) eqn:E2; [lia|].
      do 2 f_equal; lia.
    + lia.
Qed.

Lemma chunk_value shape a s r P :
  0 < P -> s < length shape -> (a = Z.of_nat s \/ a = Z.of_nat s - Z.of_nat (length shape))%Z ->
  chunk shape (AxInt a) r P =
  Ok (cstart (nth s shape 0) r P,
      map (fun i => if Nat.eqb i s then clen (nth s shape 0) r P else nth i shape 0) (seq 0 (length shape)),
      map (fun i => if Nat.eqb i s then (cstart (nth s shape 0) r P, cstart (nth s shape 0) r P + clen (nth s shape 0) r P)
                    else (0, nth i shape 0)) (seq 0 (length shape))).
Proof.
  intros HP Hs Ha. unfold chunk. rewrite (sanitize_axis_int_ok Hs Ha). cbn [bind].
  destruct (Nat.eqb_spec P 0); [lia|]. rewrite Nat2Z.id.
  destruct (chunk_1d (nth s shape 0) r P) as [st len] eqn:E.
  unfold cstart, clen. rewrite E. cbn [fst snd]. replace (st + len - st) with len by lia. reflexivity.
Qed.

Lemma chunk_partition_lemma : forall shape a s P,
  0 < P -> s < length shape ->
  (a = Z.of_nat s \/ a = Z.of_nat s - Z.of_nat (length shape))%Z ->
  exists cs : list (nat * list nat * list (nat * nat)),
    length cs = P /\
    (forall r, r < P -> chunk shape (AxInt a) r P = Ok (nth r cs (0, [], []))) /\
    tiles (map (fun c => nth s (snd c) (0, 0)) cs) (nth s shape 0) /\
    (forall r, r < P ->
       let '(off, lshape, slices) := nth r cs (0, [], []) in
       length lshape = length shape /\ length slices = length shape /\
       off = fst (nth s slices (0, 0)) /\
       nth s lshape 0 = snd (nth s slices (0, 0)) - fst (nth s slices (0, 0)) /\
       (forall k, k < length shape -> k <> s ->
          nth k lshape 0 = nth k shape 0 /\ nth k slices (0, 0) = (0, nth k shape 0))).
Proof.
  intros shape a s P HP Hs Ha.
  set (f := fun r => (cstart (nth s shape 0) r P,
      map (fun i => if Nat.eqb i s then clen (nth s shape 0) r P else nth i shape 0) (seq 0 (length shape)),
      map (fun i => if Nat.eqb i s then (cstart (nth s shape 0) r P, cstart (nth s shape 0) r P + clen (nth s shape 0) r P)
                    else (0, nth i shape 0)) (seq 0 (length shape)))).
  exists (map f (seq 0 P)). split; [|split; [|split]].
  - now rewrite map_length, seq_length.
  - intros r Hr. rewrite (chunk_value shape r HP Hs Ha). rewrite nth_map_seq by auto. reflexivity.
  - rewrite map_map. erewrite map_seq_ext; [apply chunk_tiles; auto|].
    intros i Hi. unfold f. cbn [fst snd]. rewrite nth_map_seq by auto. now rewrite Nat.eqb_refl.
  - intros r Hr. rewrite nth_map_seq by auto. unfold f. cbn [fst snd].
    rewrite !map_length, !seq_length, !nth_map_seq by auto. rewrite Nat.eqb_refl. cbn [fst snd].
    repeat split; auto; try lia.
    + rewrite nth_map_seq by auto. destruct (Nat.eqb_spec k s); [congruence|auto].
    + rewrite nth_map_seq by auto. destruct (Nat.eqb_spec k s); [congruence|auto].
Qed.

Lemma chunk_balance_lemma : forall shape a s P r1 r2 o1 l1 sl1 o2 l2 sl2,
  0 < P -> s < length shape ->
  (a = Z.of_nat s \/ a = Z.of_nat s - Z.of_nat (length shape))%Z ->
  r1 <= r2 < P ->
  chunk shape (AxInt a) r1 P = Ok (o1, l1, sl1) ->
  chunk shape (AxInt a) r2 P = Ok (o2, l2, sl2) ->
  nth s l2 0 <= nth s l1 0 <= nth s l2 0 + 1.
Proof.
  intros shape a s P r1 r2 o1 l1 sl1 o2 l2 sl2 HP Hs Ha Hr E1 E2.
  rewrite (chunk_value shape _ HP Hs Ha) in E1. rewrite (chunk_value shape _ HP Hs Ha) in E2.
  inversion E1; inversion E2; subst. rewrite !nth_map_seq, Nat.eqb_refl by auto.
  apply clen_mono; lia.
Qed.

Lemma chunk_none_lemma : forall shape split r P,
  (split = AxNone \/ shape = []) ->
  chunk shape split r P = Ok (0, shape, map (fun e => (0, e)) shape).
Proof.
  intros shape split r P [H|H]; subst.
  - unfold chunk, sanitize_axis. destruct (Nat.eqb (length shape) 0); reflexivity.
  - unfold chunk, sanitize_axis. cbn. reflexivity.
Qed.

Lemma chunk_sparse_lemma : forall n r P, 0 < P -> r < P ->
  exists off l sl, chunk [n] (AxInt 0) r P = Ok (off, l, sl) /\
     chunk_sparse n r P = (off, off + nth 0 l 0).
Proof.
  intros n r P HP Hr. rewrite (chunk_value (s:=0) (a:=0%Z) [n] r HP) by (simpl; auto; lia).
  do 3 eexists. split; [reflexivity|]. unfold chunk_sparse, cstart, clen. cbn.
  destruct (chunk_1d n r P); reflexivity.
Qed.

(* ---------- counts / displs ---------- *)
Lemma displs_from_length acc c : length (displs_from acc c) = length c.
Proof. revert acc; induction c; intros; simpl; auto. Qed.
Lemma displs_from_nth acc c r : r < length c -> nth r (displs_from acc c) 0 = acc + psum c r.
Proof.
  revert acc r; induction c as [|x c IH]; intros acc [|r] H; simpl in *; try lia.
  - rewrite psum_0; lia.
  - rewrite IH, psum_cons by lia. lia.
Qed.
Lemma counts_of_length n P : length (counts_of n P) = P.
Proof. unfold counts_of; now rewrite map_length, seq_length. Qed.
Lemma counts_of_nth n P r : r < P -> nth r (counts_of n P) 0 = clen n r P.
Proof. intros. unfold counts_of. rewrite nth_map_seq by auto. now rewrite clen_val. Qed.
Lemma counts_of_psum n P r : 0 < P -> r <= P -> psum (counts_of n P) r = cstart n r P.
Proof.
  intros HP. induction r; intros; [now rewrite cstart_0|].
  rewrite psum_S by (rewrite counts_of_length; lia). rewrite IHr, counts_of_nth, cstart_S by lia. lia.
Qed.
Lemma counts_of_sum n P : 0 < P -> list_sum (counts_of n P) = n.
Proof.
  intros. rewrite <- (psum_all (counts_of n P) (k:=P)) by (rewrite counts_of_length; lia).
  rewrite counts_of_psum by lia. apply cstart_P; auto.
Qed.

Lemma counts_displs_lemma : forall shape s r0 P, 0 < P -> s < length shape -> r0 < P ->
  let '(counts, displs, oshape) := counts_displs_shape shape s r0 P in
  length counts = P /\ length displs = P /\
  list_sum counts = nth s shape 0 /\
  tiles (map (fun cd => (snd cd, snd cd + fst cd)) (combine counts displs)) (nth s shape 0) /\
  (forall r, r < P -> exists l sl,
     chunk shape (AxInt (Z.of_nat s)) r P = Ok (nth r displs 0, l, sl) /\ nth s l 0 = nth r counts 0) /\
  oshape = upd shape s (P * nth r0 counts 0).
Proof.
  intros shape s r0 P HP Hs Hr0. unfold counts_displs_shape.
  set (n := nth s shape 0).
  rewrite displs_from_length, counts_of_length. repeat split; auto.
  - apply counts_of_sum; auto.
  - assert (E : map (fun cd => (snd cd, snd cd + fst cd)) (combine (counts_of n P) (displs_from 0 (counts_of n P)))
              = map (fun r => (cstart n r P, cstart n r P + clen n r P)) (seq 0 P)).
    { apply nth_ext with (0,0) (0,0).
      - rewrite !map_length, combine_length, displs_from_length, counts_of_length, seq_length. lia.
      - intros i Hi. rewrite map_length, combine_length, displs_from_length, counts_of_length in Hi.
        rewrite nth_map_seq by lia.
        rewrite nth_indep with (d' := (fun cd => (snd cd, snd cd + fst cd)) (0,0))
          by (rewrite map_length, combine_length, displs_from_length, counts_of_length; lia).
        rewrite (map_nth (fun cd => (snd cd, snd cd + fst cd))), combine_nth by (now rewrite displs_from_length).
        cbn [fst snd]. rewrite displs_from_nth, counts_of_nth, counts_of_psum by (rewrite ?counts_of_length; lia). reflexivity. }
    rewrite E. apply chunk_tiles; auto.
  - intros r Hr. rewrite (chunk_value (s:=s) shape r HP Hs) by auto.
    do 2 eexists. fold n. split.
    + rewrite displs_from_nth, counts_of_psum by (rewrite ?counts_of_length; lia). reflexivity.
    + rewrite nth_map_seq by auto. rewrite Nat.eqb_refl, counts_of_nth by auto. reflexivity.
Qed.

(* ---------- sanitize_axis ---------- *)
Lemma sanitize_axis_int_iff : forall ndim a, 0 < ndim ->
  (forall b, sanitize_axis ndim (AxInt a) = Ok (AxInt b) <->
     (- Z.of_nat ndim <= a < Z.of_nat ndim /\ 0 <= b < Z.of_nat ndim /\ b = a mod Z.of_nat ndim)%Z)
  /\ (~ (- Z.of_nat ndim <= a < Z.of_nat ndim)%Z -> sanitize_axis ndim (AxInt a) = Err ValueError).
Proof.
  intros ndim a Hn. split.
  - intros b. unfold sanitize_axis. destruct (Nat.eqb_spec ndim 0) as [Hz|Hz]; [lia|].
    set (n := Z.of_nat ndim) in *.
    assert (Hnz : (0 < n)%Z) by (unfold n; lia). clearbody n.
    destruct ((0 <=? a)%Z && (a <? n)%Z) eqn:E1.
    + split; [intros [= <-]|intros (H1 & H2 & ->)].
      * rewrite Z.mod_small by lia; lia.
      * rewrite Z.mod_small by lia; reflexivity.
    + destruct (Z.ltb_spec a 0).
      * destruct ((a + n <? 0)%Z || (n <=? a + n)%Z) eqn:E2.
        -- split; [discriminate|intros; exfalso; lia].
        -- assert (a mod n = a + n)%Z.
           { rewrite <- (Z_mod_plus_full a 1 n). rewrite Z.mul_1_l. apply Z.mod_small; lia. }
           split; [intros [= <-]|intros (H1 & H2 & ->)]; [lia|congruence].
      * destruct ((a <? 0)%Z || (n <=? a)%Z) eqn:E2; [|lia].
        split; [discriminate|intros; exfalso; lia].
  - intros Ha. unfold sanitize_axis. destruct (Nat.eqb_spec ndim 0) as [Hz|Hz]; [lia|].
    destruct ((0 <=? a)%Z && (a <? Z.of_nat ndim)%Z) eqn:E1; [lia|].
    destruct (Z.ltb_spec a 0).
    + destruct ((a + Z.of_nat ndim <? 0)%Z || (Z.of_nat ndim <=? a + Z.of_nat ndim)%Z) eqn:E2; [auto|lia].
    + destruct ((a <? 0)%Z || (Z.of_nat ndim <=? a)%Z) eqn:E2; [auto|lia].
Qed.

Lemma existsb_false_forall {A} (f : A -> bool) l : existsb f l = false <-> (forall x, In x l -> f x = false).
Proof.
  induction l; simpl; [firstorder|]. rewrite orb_false_iff, IHl. firstorder (subst; auto).
Qed.

Lemma sanitize_axis_tuple_iff : forall ndim l, 0 < ndim ->
  ((forall a, In a l -> (- Z.of_nat ndim <= a < Z.of_nat ndim)%Z) ->
     sanitize_axis ndim (AxTuple l) = Ok (AxTuple (map (fun a => (a mod Z.of_nat ndim)%Z) l)))
  /\ ((exists a, In a l /\ ~ (- Z.of_nat ndim <= a < Z.of_nat ndim)%Z) ->
     sanitize_axis ndim (AxTuple l) = Err ValueError).
Proof.
  intros ndim l Hn. unfold sanitize_axis. destruct (Nat.eqb_spec ndim 0) as [Hz|Hz]; [lia|].
  set (n := Z.of_nat ndim) in *. assert (Hnz : (0 < n)%Z) by (unfold n; lia). clearbody n.
  split.
  - intros H.
    assert (E : map (fun d => if (d <? 0)%Z then (d + n)%Z else d) l = map (fun a => (a mod n)%Z) l).
    { apply map_ext_in. intros a Ha. specialize (H a Ha). destruct (Z.ltb_spec a 0).
      - symmetry. rewrite <- (Z_mod_plus_full a 1 n). rewrite Z.mul_1_l. apply Z.mod_small; lia.
      - symmetry. apply Z.mod_small; lia. }
    rewrite E. replace (existsb _ _) with false; auto. symmetry. apply existsb_false_forall.
    intros x Hx. apply in_map_iff in Hx. destruct Hx as (a & <- & _).
    pose proof (Z.mod_pos_bound a n Hnz). lia.
  - intros (a & Ha & Hout). replace (existsb _ _) with true; auto. symmetry. apply existsb_exists.
    exists (if (a <? 0)%Z then (a + n)%Z else a). split.
    + apply in_map_iff. exists a; auto.
    + destruct (Z.ltb_spec a 0); lia.
Qed.

Lemma sanitize_axis_idem : forall ndim ax b, sanitize_axis ndim ax = Ok b -> sanitize_axis ndim b = Ok b.
Proof.
  intros ndim ax b. destruct (Nat.eq_dec ndim 0) as [->|Hn].
  - unfold sanitize_axis. cbn. intros [= <-]; reflexivity.
  - destruct ax as [|a|l|].
    + unfold sanitize_axis. destruct (Nat.eqb_spec ndim 0) as [Hz|Hz]; [lia|]. intros [= <-]. reflexivity.
    + intros H. assert (exists c, b = AxInt c) as [c ->].
      { revert H; unfold sanitize_axis. destruct (Nat.eqb_spec ndim 0); [lia|].
        repeat (match goal with |- context[if ?x then _ else _] => destruct x end); intros [= <-]; eauto. }
      apply sanitize_axis_int_iff in H; [|lia]. apply sanitize_axis_int_iff; [lia|].
      destruct H as (H1 & H2 & H3). rewrite (Z.mod_small c) by lia. lia.
    + intros H. destruct (sanitize_axis_tuple_iff (ndim:=ndim) l ltac:(lia)) as [H1 H2].
      destruct (forallb (fun a => (- Z.of_nat ndim <=? a)%Z && (a <? Z.of_nat ndim)%Z) l) eqn:E.
      * rewrite forallb_forall in E. rewrite H1 in H by (intros a Ha; specialize (E a Ha); lia).
        injection H as <-. destruct (sanitize_axis_tuple_iff (ndim:=ndim) (map (fun a => (a mod Z.of_nat ndim)%Z) l) ltac:(lia)) as [H3 _].
        rewrite H3.
        -- do 2 f_equal. rewrite map_map. apply map_ext. intros a. apply Z.mod_mod; lia.
        -- intros a Ha. apply in_map_iff in Ha. destruct Ha as (c & <- & _).
           pose proof (Z.mod_pos_bound c (Z.of_nat ndim) ltac:(lia)). lia.
      * rewrite H2 in H; [discriminate|].
        assert (~ (forall a, In a l -> ((- Z.of_nat ndim <=? a)%Z && (a <? Z.of_nat ndim)%Z) = true)).
        { intros C. apply forallb_forall in C. congruence. }
        clear - H0. induction l as [|x l IH].
        -- exfalso; apply H0; intros a [].
        -- destruct (((- Z.of_nat ndim <=? x)%Z && (x <? Z.of_nat ndim)%Z)) eqn:E.
           ++ destruct IH as (a & Ha & Hb).
              { intros C; apply H0. intros a [<-|Ha]; auto. }
              exists a; split; simpl; auto.
           ++ exists x; split; simpl; auto. lia.
    + unfold sanitize_axis. destruct (Nat.eqb_spec ndim 0) as [Hz|Hz]; [lia|]. discriminate.
Qed.

Lemma sanitize_axis_misc : forall ndim,
  sanitize_axis ndim AxNone = Ok AxNone /\
  (0 < ndim -> sanitize_axis ndim AxOther = Err TypeError) /\
  (forall ax, sanitize_axis 0 ax = Ok AxNone).
Proof.
  intros ndim. unfold sanitize_axis. repeat split.
  - destruct (Nat.eqb ndim 0); auto.
  - intros; destruct (Nat.eqb_spec ndim 0) as [Hz|Hz]; auto; lia.
Qed.

(* ---------- broadcasting ---------- *)
Definition dmerge (a b : nat) : nat := if Nat.eqb a 1 then b else a.
Definition dcompat (a b : nat) : Prop := a = b \/ a = 1 \/ b = 1.

Lemma bmerge_spec : forall r s, length s <= length r ->
  match bmerge r s with
  | Some t => length t = length r /\ (forall k, dcompat (nth k r 1) (nth k s 1)) /\
              (forall k, nth k t 1 = dmerge (nth k r 1) (nth k s 1))
  | None => exists k, ~ dcompat (nth k r 1) (nth k s 1)
  end.
Proof.
  induction r as [|x r IH]; intros [|y s] H; cbn [bmerge length] in *; try lia.
  - unfold dcompat, dmerge; repeat split; auto; intros [|k]; cbn; auto.
  - unfold dcompat, dmerge. split; auto. split.
    + intros [|k]; simpl; auto.
    + intros [|k]; cbn [nth]; [destruct (Nat.eqb_spec x 1)|destruct (Nat.eqb_spec (nth k r 1) 1)]; auto.
  - specialize (IH s ltac:(lia)). destruct (bmerge r s) as [t|].
    + destruct IH as (L & C & V).
      destruct (Nat.eqb y 1 || Nat.eqb y x) eqn:E.
      * simpl. split; [lia|]. unfold dcompat, dmerge in *. split; intros [|k]; cbn [nth]; auto.
        -- lia.
        -- destruct (Nat.eqb_spec x 1); lia.
      * destruct (Nat.eqb_spec x 1).
        -- simpl. split; [lia|]. subst. unfold dcompat, dmerge in *. split; intros [|k]; cbn [nth]; auto.
        -- exists 0. unfold dcompat; cbn. lia.
    + destruct IH as [k Hk]. exists (S k). cbn. exact Hk.
Qed.

(** all shapes pairwise-with-accumulator *)
Lemma bmerge_all_spec : forall ss r, (forall s, In s ss -> length s <= length r) ->
  match bmerge_all r ss with
  | Some t => length t = length r /\
       (forall k v, nth k t 1 = v -> v <> 1 -> (nth k r 1 = v \/ exists s, In s ss /\ nth k (rev s) 1 = v)) /\
       (forall k, nth k r 1 = nth k t 1 \/ nth k r 1 = 1) /\
       (forall k s, In s ss -> nth k (rev s) 1 = nth k t 1 \/ nth k (rev s) 1 = 1)
  | None => exists k, (exists s, In s ss /\ ~ dcompat (nth k r 1) (nth k (rev s) 1))
              \/ (exists s s', In s ss /\ In s' ss /\ ~ dcompat (nth k (rev s) 1) (nth k (rev s') 1))
  end.
Proof.
  induction ss as [|s ss IH]; intros r H; cbn [bmerge_all].
  - repeat split; auto. intros k s [].
  - pose proof (bmerge_spec r (rev s)) as B.
    rewrite rev_length in B. specialize (B (H s (or_introl eq_refl))).
    destruct (bmerge r (rev s)) as [t|].
    + destruct B as (L & C & V).
      specialize (IH t). rewrite L in IH. specialize (IH (fun s' Hs' => H s' (or_intror Hs'))).
      destruct (bmerge_all t ss) as [u|].
      * destruct IH as (L' & I1 & I2 & I3). split; [lia|]. repeat split.
        -- intros k v E Hv. destruct (I1 k v E Hv) as [E'|(s' & Hs' & E')].
           ++ rewrite V in E'. unfold dmerge in E'. destruct (Nat.eqb_spec (nth k r 1) 1); auto.
              right; exists s; simpl; auto.
           ++ right; exists s'; simpl; auto.
        -- intros k. specialize (I2 k). rewrite V in I2. unfold dmerge in I2. destruct (Nat.eqb_spec (nth k r 1) 1); auto; lia.
        -- intros k s' [<-|Hs']; auto. specialize (I2 k); rewrite V in I2. specialize (C k). unfold dmerge, dcompat in *.
           destruct (Nat.eqb_spec (nth k r 1) 1); lia.
      * destruct IH as [k [(s' & Hs' & D)|(s1 & s2 & H1 & H2 & D)]].
        -- exists k. rewrite V in D. unfold dmerge, dcompat in *. destruct (Nat.eqb_spec (nth k r 1) 1).
           ++ right. exists s, s'; simpl; auto.
           ++ left. exists s'. simpl; auto.
        -- exists k. right. exists s1, s2; simpl; auto.
    + destruct B as [k D]. exists k. left. exists s; simpl; auto.
Qed.

Lemma nth_repeat1 m k : nth k (repeat 1 m) 1 = 1.
Proof. revert k; induction m; intros [|k]; simpl; auto. Qed.

Lemma max_len_in (ss : list (list nat)) s : In s ss -> length s <= fold_right Nat.max 0 (map (@length nat) ss).
Proof. induction ss; simpl; intros []; subst; try lia; specialize (IHss H); lia. Qed.

Lemma broadcast_shapes_spec : forall ss,
  let m := fold_right Nat.max 0 (map (@length nat) ss) in
  match broadcast_shapes ss with
  | Ok c => length c = m /\
       (forall k v, ext c k = v -> v <> 1 -> exists s, In s ss /\ ext s k = v) /\
       (forall k s, In s ss -> ext s k = ext c k \/ ext s k = 1)
  | Err e => e = ValueError /\ exists k s s', In s ss /\ In s' ss /\ ~ dcompat (ext s k) (ext s' k)
  end.
Proof.
  intros ss m. unfold broadcast_shapes. fold m.
  pose proof (bmerge_all_spec ss (repeat 1 m)) as B. rewrite repeat_length in B.
  specialize (B (max_len_in ss)). unfold ext.
  destruct (bmerge_all (repeat 1 m) ss) as [t|].
  - rewrite rev_length, rev_involutive. destruct B as (L & B1 & B2 & B3). repeat split; auto.
    intros k v E Hv. destruct (B1 k v E Hv) as [E'|E']; auto. rewrite nth_repeat1 in E'. congruence.
  - split; auto. destruct B as [k [(s & Hs & D)|(s & s' & H1 & H2 & D)]].
    + rewrite nth_repeat1 in D. unfold dcompat in D. lia.
    + exists k, s, s'; auto.
Qed.

Lemma ext_ext (a b : list nat) : length a = length b -> (forall k, ext a k = ext b k) -> a = b.
Proof.
  intros L E. rewrite <- (rev_involutive a), <- (rev_involutive b). f_equal.
  apply nth_ext with 1 1; [now rewrite !rev_length|]. intros n _. apply E.
Qed.

Lemma broadcast_shape_iff : forall a b,
  (forall c, broadcast_shape a b = Ok c <-> compatible a b /\ is_broadcast a b c) /\
  (~ compatible a b -> broadcast_shape a b = Err ValueError).
Proof.
  intros a b. unfold broadcast_shape. pose proof (broadcast_shapes_spec [a; b]) as B.
  cbn [map fold_right] in B. rewrite Nat.max_0_r in B.
  assert (K : forall c', broadcast_shapes [a; b] = Ok c' -> compatible a b /\ is_broadcast a b c').
  { intros c' E. rewrite E in B. cbv zeta in B. destruct B as (L & B1 & B2).
    assert (Ha := fun k => B2 k a (or_introl eq_refl)).
    assert (Hb := fun k => B2 k b (or_intror (or_introl eq_refl))).
    split.
    - intros k. specialize (Ha k); specialize (Hb k). lia.
    - split; [lia|]. intros k. specialize (Ha k); specialize (Hb k). specialize (B1 k _ eq_refl).
      destruct (Nat.eqb_spec (ext a k) 1); [|lia].
      destruct Hb as [Hb|Hb]; auto. destruct (Nat.eq_dec (ext c' k) 1); [lia|].
      destruct (B1 n) as (s & [<-|[<-|[]]] & Es); lia. }
  split.
  - intros c. split; [apply K|].
    intros (C & I). destruct (broadcast_shapes [a; b]) as [c'|e] eqn:E.
    + f_equal. destruct (K c' eq_refl) as (_ & L' & I'). destruct I as (L & I).
      apply ext_ext; [lia|]. intros k. now rewrite I, I'.
    + destruct B as (_ & k & s & s' & Hs & Hs' & D). exfalso. apply D. specialize (C k). unfold dcompat.
      simpl in Hs, Hs'. destruct Hs as [<-|[<-|[]]]; destruct Hs' as [<-|[<-|[]]]; lia.
  - intros N. destruct (broadcast_shapes [a; b]) as [c'|e] eqn:E.
    + destruct (K c' eq_refl). contradiction.
    + destruct B; subst; auto.
Qed.

(** value-level characterisation is order independent *)
Lemma max_len_perm (s1 s2 : list (list nat)) : Permutation s1 s2 ->
  fold_right Nat.max 0 (map (@length nat) s1) = fold_right Nat.max 0 (map (@length nat) s2).
Proof. induction 1; simpl; lia. Qed.

Lemma broadcast_shapes_set : forall s1 s2,
  (forall s, In s s1 <-> In s s2) ->
  fold_right Nat.max 0 (map (@length nat) s1) = fold_right Nat.max 0 (map (@length nat) s2) ->
  broadcast_shapes s1 = broadcast_shapes s2.
Proof.
  intros s1 s2 I M. pose proof (broadcast_shapes_spec s1) as B1. pose proof (broadcast_shapes_spec s2) as B2.
  destruct (broadcast_shapes s1) as [c1|e1], (broadcast_shapes s2) as [c2|e2].
  - f_equal. destruct B1 as (L1 & U1 & V1), B2 as (L2 & U2 & V2). apply ext_ext; [lia|].
    intros k. specialize (U1 k _ eq_refl). specialize (U2 k _ eq_refl).
    destruct (Nat.eq_dec (ext c1 k) 1) as [E1|E1].
    + destruct (Nat.eq_dec (ext c2 k) 1) as [E2|E2]; [lia|].
      destruct (U2 E2) as (s & Hs & Es). apply I in Hs. destruct (V1 k s Hs); lia.
    + destruct (U1 E1) as (s & Hs & Es). apply I in Hs. destruct (V2 k s Hs); lia.
  - destruct B1 as (L1 & U1 & V1), B2 as (_ & k & s & s' & Hs & Hs' & D). exfalso. apply D.
    apply I in Hs, Hs'. unfold dcompat. destruct (V1 k s Hs), (V1 k s' Hs'); lia.
  - destruct B2 as (L1 & U1 & V1), B1 as (_ & k & s & s' & Hs & Hs' & D). exfalso. apply D.
    apply I in Hs, Hs'. unfold dcompat. destruct (V1 k s Hs), (V1 k s' Hs'); lia.
  - destruct B1, B2; subst; auto.
Qed.

Lemma broadcast_shapes_perm : forall s1 s2, Permutation s1 s2 -> broadcast_shapes s1 = broadcast_shapes s2.
Proof.
  intros s1 s2 P. apply broadcast_shapes_set.
  - intros s; split; apply Permutation_in; auto. now apply Permutation_sym.
  - now apply max_len_perm.
Qed.

Lemma broadcast_comm : forall a b, broadcast_shape a b = broadcast_shape b a.
Proof. intros. apply broadcast_shapes_perm, perm_swap. Qed.

Lemma broadcast_unit : forall a, broadcast_shape a [] = Ok a /\ broadcast_shape a a = Ok a.
Proof.
  intros a. split; apply broadcast_shape_iff; split.
  - intros k. unfold ext; simpl. destruct k; auto.
  - split; [simpl; lia|]. intros k. unfold ext at 3; simpl. destruct (Nat.eqb_spec (ext a k) 1); auto. rewrite e. destruct k; auto.
  - intros k; auto.
  - split; [simpl; lia|]. intros k. destruct (Nat.eqb (ext a k) 1); auto.
Qed.

(** broadcasting pairwise, in either association, equals broadcasting all at once *)
Lemma broadcast_assoc_r : forall a b c,
  (do ab <- broadcast_shape a b; broadcast_shape ab c) = broadcast_shapes [a; b; c].
Proof.
  intros a b c. unfold broadcast_shape.
  pose proof (broadcast_shapes_spec [a; b]) as B1. pose proof (broadcast_shapes_spec [a; b; c]) as B3.
  cbv zeta in *. cbn [map fold_right] in *.
  destruct (broadcast_shapes [a; b]) as [ab|e]; cbn [bind].
  - destruct B1 as (L1 & U1 & V1).
    pose proof (broadcast_shapes_spec [ab; c]) as B2. cbv zeta in *. cbn [map fold_right] in *.
    destruct (broadcast_shapes [ab; c]) as [x|e2], (broadcast_shapes [a; b; c]) as [y|e3].
    + f_equal. destruct B2 as (L2 & U2 & V2), B3 as (L3 & U3 & V3).
      apply ext_ext; [lia|]. intros k.
      specialize (U2 k _ eq_refl). specialize (U3 k _ eq_refl). specialize (U1 k _ eq_refl).
      pose proof (V1 k a (or_introl eq_refl)). pose proof (V1 k b (or_intror (or_introl eq_refl))).
      pose proof (V2 k ab (or_introl eq_refl)). pose proof (V2 k c (or_intror (or_introl eq_refl))).
      pose proof (V3 k a (or_introl eq_refl)). pose proof (V3 k b (or_intror (or_introl eq_refl))).
      pose proof (V3 k c (or_intror (or_intror (or_introl eq_refl)))).
      destruct (Nat.eq_dec (ext x k) 1) as [E1|E1].
      * destruct (Nat.eq_dec (ext y k) 1) as [E2|E2]; [lia|].
        destruct (U3 E2) as (s & Hs & Es). simpl in Hs. destruct Hs as [<-|[<-|[<-|[]]]]; lia.
      * destruct (U2 E1) as (s & Hs & Es). simpl in Hs. destruct Hs as [<-|[<-|[]]]; [|lia].
        destruct U1 as (s & Hs & Es'); [lia|]. simpl in Hs. destruct Hs as [<-|[<-|[]]]; lia.
    + destruct B2 as (L2 & U2 & V2), B3 as (_ & k & s & s' & Hs & Hs' & D). exfalso; apply D.
      pose proof (V1 k a (or_introl eq_refl)). pose proof (V1 k b (or_intror (or_introl eq_refl))).
      pose proof (V2 k ab (or_introl eq_refl)). pose proof (V2 k c (or_intror (or_introl eq_refl))).
      unfold dcompat. simpl in Hs, Hs'.
      destruct Hs as [<-|[<-|[<-|[]]]]; destruct Hs' as [<-|[<-|[<-|[]]]]; lia.
    + destruct B3 as (L2 & U2 & V2), B2 as (_ & k & s & s' & Hs & Hs' & D). exfalso; apply D.
      assert (W : forall z, In z [ab; c] -> ext z k = ext y k \/ ext z k = 1).
      { intros z [<-|[<-|[]]].
        - destruct (Nat.eq_dec (ext ab k) 1); auto. left. destruct (U1 k _ eq_refl n) as (z & Hz & Ez).
          rewrite <- Ez in *. destruct (V2 k z); auto; try lia. simpl in *; tauto.
        - apply V2; simpl; auto. }
      unfold dcompat. destruct (W s Hs), (W s' Hs'); lia.
    + destruct B2, B3; subst; auto.
  - destruct B1 as (-> & k & s & s' & Hs & Hs' & D).
    destruct (broadcast_shapes [a; b; c]) as [y|e3]; [|destruct B3; subst; auto].
    destruct B3 as (L2 & U2 & V2). exfalso; apply D. unfold dcompat.
    destruct (V2 k s), (V2 k s'); simpl in *; try tauto; lia.
Qed.

Lemma broadcast_assoc : forall a b c,
  (do ab <- broadcast_shape a b; broadcast_shape ab c) =
  (do bc <- broadcast_shape b c; broadcast_shape a bc).
Proof.
  intros a b c. rewrite broadcast_assoc_r.
  transitivity (do bc <- broadcast_shape b c; broadcast_shape bc a).
  - rewrite broadcast_assoc_r. apply broadcast_shapes_perm.
    change [a; b; c] with ([a] ++ [b; c]). change [b; c; a] with ([b; c] ++ [a]). apply Permutation_app_comm.
  - destruct (broadcast_shape b c); cbn [bind]; auto. apply broadcast_comm.
Qed.

(* ---------- sanitize_slice ---------- *)
Lemma sanitize_slice_ok : forall start stop step n,
  (0 <= n)%Z -> (0 < py_step step)%Z ->
  (forall x, start = Some x -> (- n <= x)%Z) -> (forall x, stop = Some x -> (- n <= x)%Z) ->
  let '(a, b, s) := sanitize_slice start stop step n in
  (0 <= a)%Z /\ (0 <= b)%Z /\ s = py_step step /\
  py_slice (Some a) (Some b) (Some s) n = py_slice start stop step n.
Proof.
  intros start stop step n Hn Hs H1 H2. unfold sanitize_slice.
  fold (py_step step). set (s := py_step step) in *.
  assert (Es : (s <? 0)%Z = false) by lia.
  assert (A : forall o d x, (match o with None => d | Some x => x end) = x ->
              (forall y, o = Some y -> (- n <= y)%Z) -> (0 <= d)%Z ->
              (0 <= if (x <? 0)%Z then x + n else x)%Z).
  { intros o d x E H D. destruct (Z.ltb_spec x 0); auto. destruct o; [specialize (H _ eq_refl)|]; lia. }
  split; [eapply A; eauto; lia|]. split; [eapply A; eauto; lia|]. split; auto.
  unfold py_slice. cbn [py_step]. fold s. unfold py_slice_start, py_slice_stop, py_clamp. rewrite Es.
  f_equal.
  - destruct start as [x|]; [specialize (H1 x eq_refl)|].
    + destruct (Z.ltb_spec x 0); [|destruct (Z.ltb_spec x 0); [lia|auto]].
      destruct (Z.ltb_spec (x + n) 0); lia.
    + cbn. destruct n; cbn; lia.
  - destruct stop as [x|]; [specialize (H2 x eq_refl)|].
    + destruct (Z.ltb_spec x 0); [|destruct (Z.ltb_spec x 0); [lia|auto]].
      destruct (Z.ltb_spec (x + n) 0); lia.
    + destruct (Z.ltb_spec n 0); [lia|]. destruct (Z.ltb_spec n 0); lia.
Qed.

Lemma sanitize_slice_bad : 
  (let '(a, b, s) := sanitize_slice (Some (-7)) None None 5 in
   py_slice (Some a) (Some b) (Some s) 5 <> py_slice (Some (-7)) None None 5)%Z /\
  (let '(a, b, s) := sanitize_slice None None (Some (-1)) 5 in
   py_slice (Some a) (Some b) (Some s) 5 <> py_slice None None (Some (-1)) 5)%Z.
Proof. split; vm_compute; discriminate. Qed.
