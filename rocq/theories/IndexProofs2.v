(** Assignment and scalar conversion. *)
From Verif Require Import Base BaseLemmas PySpec PySpecSel SliceLemmas LayoutModel LayoutProofs RedistModel IndexModel IndexProofs.
Set Implicit Arguments.

Fixpoint setf {A} (p : nat -> bool) (v : A) (k : nat) (l : list A) : list A :=
  match l with [] => [] | x :: t => (if p k then v else x) :: setf p v (S k) t end.
Lemma setf_length {A} p (v : A) k l : length (setf p v k l) = length l.
Proof. revert k; induction l; simpl; auto. Qed.
Lemma setf_app {A} p (v : A) k (l1 l2 : list A) : setf p v k (l1 ++ l2) = setf p v k l1 ++ setf p v (k + length l1) l2.
Proof.
  revert k; induction l1 as [|x l IH]; intros k; simpl; [now rewrite Nat.add_0_r|]. rewrite IH.
  now replace (S k + length l) with (k + S (length l)) by lia.
Qed.
Lemma setf_ext {A} p q (v : A) k j l : (forall i, i < length l -> p (k + i) = q (j + i)) -> setf p v k l = setf q v j l.
Proof.
  revert k j; induction l as [|x l IH]; intros k j H; simpl; auto. f_equal.
  - specialize (H 0 ltac:(simpl; lia)). rewrite !Nat.add_0_r in H. now rewrite H.
  - apply IH. intros i Hi. specialize (H (S i) ltac:(simpl; lia)). now replace (S k + i) with (k + S i) by lia; replace (S j + i) with (j + S i) by lia.
Qed.
Lemma setf_none {A} p (v : A) k l : (forall i, i < length l -> p (k + i) = false) -> setf p v k l = l.
Proof.
  revert k; induction l as [|x l IH]; intros k H; simpl; auto. f_equal.
  - specialize (H 0 ltac:(simpl; lia)). rewrite !Nat.add_0_r in H. now rewrite H.
  - apply IH. intros i Hi. specialize (H (S i) ltac:(simpl; lia)). now replace (S k + i) with (k + S i) by lia.
Qed.
Lemma setf_glob {A} (p : nat -> bool) (v : A) (d : dist A) k :
  setf p v k (glob d) = concat (map (fun r => setf p v (k + psum (lens d) r) (nth r d [])) (seq 0 (length d))).
Proof.
  unfold glob. revert k; induction d as [|x d IH]; intros k; [reflexivity|].
  cbn [concat length seq map]. rewrite setf_app, IH. f_equal; [now rewrite psum_0, Nat.add_0_r|].
  f_equal. rewrite <- seq_shift, map_map. apply map_ext. intros r. cbn [nth]. f_equal.
  unfold lens. cbn [map]. rewrite psum_cons. lia.
Qed.
Lemma setf_nth_error {A} p (v : A) l : forall k i, nth_error (setf p v k l) i =
  match nth_error l i with Some x => Some (if p (k + i) then v else x) | None => None end.
Proof.
  induction l as [|x l IH]; intros k [|i]; simpl; auto; [now rewrite Nat.add_0_r|].
  rewrite IH. now replace (S k + i) with (k + S i) by lia.
Qed.

Lemma set_slice_setf {A} (v : A) l a b step : (0 <= a)%Z -> (0 <= b)%Z -> (0 < py_step step)%Z ->
  set_slice v l (Some a) (Some b) step = setf (in_slice a b (py_step step)) v 0 l.
Proof.
  intros Ha Hb Hs. unfold set_slice.
  change (py_slice (Some a) (Some b) step (Z.of_nat (length l))) with (py_slice (Some a) (Some b) (Some (py_step step)) (Z.of_nat (length l))).
  rewrite py_slice_filter by auto. apply list_eq_nth; [rewrite map_length, seq_length, setf_length; auto|].
  intros i x Hi. rewrite map_length, seq_length in Hi. rewrite nth_map_seq by auto.
  assert (E : existsb (Z.eqb (Z.of_nat i)) (map Z.of_nat (filter (in_slice a b (py_step step)) (seq 0 (length l)))) = in_slice a b (py_step step) i).
  { destruct (in_slice a b (py_step step) i) eqn:Q.
    - apply existsb_exists. exists (Z.of_nat i). split; [|apply Z.eqb_refl]. apply in_map. apply filter_In. split; auto. apply in_seq. lia.
    - apply existsb_false_forall. intros z Hz. apply in_map_iff in Hz. destruct Hz as (k & <- & Hk). apply filter_In in Hk.
      apply Z.eqb_neq. intros E. apply Nat2Z.inj in E. subst k. destruct Hk. congruence. }
  rewrite E. symmetry. erewrite nth_error_nth; [reflexivity|]. rewrite setf_nth_error. rewrite (nth_error_nth' l v Hi). reflexivity.
Qed.

Lemma xitem_none rank first ks kp ends og : xitem rank first ks kp None ends og = (ks, kp). Proof. reflexivity. Qed.
Lemma xitem_any rank first kp step ends og : (0 < py_step step)%Z -> first < rank ->
  xitem rank first 0 kp step ends og = ((og - nth (rank - 1) ends 0) mod py_step step, kp)%Z.
Proof.
  intros Hs Hr. destruct step as [s|]; cbn [py_step] in *.
  - rewrite xitem_spec by auto. f_equal.
  - rewrite xitem_none, Z.mod_1_r. reflexivity.
Qed.

Section Set_.
Variable A : Type.
Variable d : dist A.
Notation c := (lens d).
Notation n := (list_sum (lens d)).
Variable v : A.

Lemma setitem_slice_norm start stop step a b r : 0 < length d -> lens d = counts_of n (length d) ->
  (0 < py_step step)%Z -> (0 <= a)%Z -> (0 <= b)%Z ->
  a = match start with Some x => x | None => 0%Z end ->
  b = match stop with Some x => if (x <? 0)%Z then (Z.of_nat n + x)%Z else x | None => Z.of_nat n end ->
  r < length d ->
  setitem_slice d start stop step v r = setf (in_slice a b (py_step step)) v (psum c r) (nth r d []).
Proof.
  intros HP Hc Hs Ha Hb Ea Eb Hr. unfold setitem_slice. rewrite <- Hc. rewrite <- Ea.
  assert (Eb' : (if (match stop with Some x => x | None => Z.of_nat n end <? 0)%Z
     then (Z.of_nat n + match stop with Some x => x | None => 0%Z end)%Z
     else match stop with Some x => x | None => Z.of_nat n end) = b).
  { rewrite Eb. destruct stop; auto. destruct (Z.ltb_spec (Z.of_nat n) 0); auto; lia. }
  rewrite Eb'. clear Eb' Ea Eb.
  assert (ST : match find_from (fun e => (a <? e)%Z) (zends c) 0 0 with Some r0 => r0 | None => length d end = stp c a) by (unfold stp; now rewrite lens_length).
  rewrite ST. clear ST. fold (spp (0%Z :: zends c) b).
  pose proof (stp_spec c a) as (S1 & S2 & S3). set (st := stp c a) in *. rewrite lens_length in *.
  set (starts := 0%Z :: zends c).
  assert (Hsl : length starts = S (length d)) by (unfold starts; cbn [length]; rewrite zends_length, lens_length; auto).
  assert (Hsn : forall k, k <= length d -> nth k starts 0%Z = Z.of_nat (psum c k)).
  { intros k Hk. unfold starts. destruct k; [rewrite psum_0; reflexivity|]. cbn [nth]. apply zends_nth. rewrite lens_length; lia. }
  assert (Hz0 : (nth 0 starts 0 <= b)%Z) by (rewrite Hsn by lia; rewrite psum_0; lia).
  pose proof (@spp_spec starts b ltac:(lia) Hz0) as (P1 & P2 & P3). set (sp := spp starts b) in *.
  rewrite Hsl in P1, P3. rewrite Hsn in P2 by lia.
  assert (P3' : forall k, sp < k <= length d -> (b < Z.of_nat (psum c k))%Z).
  { intros k Hk. specialize (P3 k ltac:(lia)). rewrite Hsn in P3 by lia. auto. }
  set (l := nth r d []) in *. pose proof (psum_S c (k:=r) ltac:(rewrite lens_length; auto)) as PS. rewrite lens_nth in PS. fold l in PS.
  destruct ((st <=? r) && (r <=? sp)) eqn:Act.
  2:{ symmetry. apply setf_none. intros i Hi. unfold in_slice.
      apply andb_false_iff in Act. destruct Act as [Act|Act]; apply Nat.leb_gt in Act.
      - specialize (S3 r Act). lia.
      - specialize (P3' r ltac:(lia)). lia. }
  apply andb_true_iff in Act. destruct Act as [A1 A2]. apply Nat.leb_le in A1, A2.
  rewrite Hsn by lia. rewrite lens_nth. fold l.
  set (S0 := Z.of_nat (psum c r)) in *.
  set (kp := if Nat.eqb r sp then (b - S0)%Z else Z.of_nat (length l)).
  assert (Kp : (0 <= kp)%Z /\ forall i, i < length l -> (Z.of_nat i <? kp)%Z = (S0 + Z.of_nat i <? b)%Z).
  { unfold kp. destruct (Nat.eqb_spec r sp) as [E|N].
    - rewrite <- E in P2. fold S0 in P2. split; [lia|intros; lia].
    - assert (Hx : (Z.of_nat (psum c (S r)) <= b)%Z). { pose proof (@psum_mono c (S r) sp ltac:(lia)). lia. }
      split; [lia|]. intros; lia. }
  destruct Kp as [Kp1 Kp2].
  assert (exists ks, xitem r st (if Nat.eqb r st then (a - S0)%Z else 0%Z) kp step (zends c) a = (ks, kp) /\ (0 <= ks)%Z /\
     forall i, i < length l -> ((ks <=? Z.of_nat i)%Z && ((Z.of_nat i - ks) mod py_step step =? 0)%Z) = ((a <=? S0 + Z.of_nat i)%Z && ((S0 + Z.of_nat i - a) mod py_step step =? 0)%Z)) as (ks & -> & Ks1 & Ks3).
  { destruct (Nat.eqb_spec r st) as [E|E].
    - exists (a - S0)%Z. split; [unfold xitem; destruct step; auto; destruct (Nat.ltb_spec st r); [lia|]; auto|].
      assert (S0 <= a)%Z. { unfold S0. destruct r as [|r']; [rewrite psum_0; lia|]. apply S3; lia. }
      split; [lia|]. intros i Hi. replace (Z.of_nat i - (a - S0))%Z with (S0 + Z.of_nat i - a)%Z by lia. f_equal. lia.
    - rewrite xitem_any by (auto; lia). rewrite zends_nth by (rewrite lens_length; lia).
      replace (S (r - 1)) with r by lia. fold S0. exists ((a - S0) mod py_step step)%Z. split; [auto|].
      pose proof (Z.mod_pos_bound (a - S0) _ Hs). split; [lia|].
      assert (a <= S0)%Z. { assert (a < Z.of_nat (psum c (S st)))%Z by (apply S2; lia). pose proof (@psum_mono c (S st) r ltac:(lia)). lia. }
      intros i Hi. pose proof (@mod_shift a (py_step step) S0 (Z.of_nat i) Hs ltac:(lia) ltac:(lia)) as MS. cbv zeta in MS.
      destruct (Z.leb_spec a (S0 + Z.of_nat i)); [|lia]. cbn [andb].
      destruct (Z.eqb_spec ((S0 + Z.of_nat i - a) mod py_step step) 0) as [M|M].
      + apply MS in M. lia.
      + destruct (Z.leb_spec ((a - S0) mod py_step step) (Z.of_nat i)); auto. cbn [andb]. apply Z.eqb_neq. intros M'. apply M, MS. auto. }
  rewrite set_slice_setf by auto. apply setf_ext. intros i Hi. unfold in_slice. cbn [Nat.add].
  specialize (Ks3 i Hi). specialize (Kp2 i Hi). rewrite Nat2Z.inj_add. fold S0.
  rewrite <- !andb_assoc, !(andb_comm (_ <? _)%Z), !andb_assoc. rewrite Ks3, Kp2. reflexivity.
Qed.
End Set_.

Lemma setitem_slice_lemma : forall A (d : dist A) start stop step (v : A),
  let n := Z.of_nat (length (glob d)) in
  0 < length d -> lens d = counts_of (length (glob d)) (length d) -> (0 < py_step step)%Z ->
  (forall x, start = Some x -> (0 <= x)%Z) -> (forall x, stop = Some x -> (- n <= x)%Z) ->
  let d' := map (setitem_slice d start stop step v) (seq 0 (length d)) in
  lens d' = lens d /\
  forall i, nth_error (glob d') i =
    if existsb (Z.eqb (Z.of_nat i)) (py_slice start stop step n) then Some v else nth_error (glob d) i.
Proof.
  intros A d start stop step v n HP Hc Hs H1 H2 d'. rewrite glob_length in Hc.
  set (a := match start with Some x => x | None => 0%Z end).
  set (b := match stop with Some x => if (x <? 0)%Z then (Z.of_nat (list_sum (lens d)) + x)%Z else x | None => Z.of_nat (list_sum (lens d)) end).
  assert (Hn : n = Z.of_nat (list_sum (lens d))) by (unfold n; now rewrite glob_length).
  assert (Ha : (0 <= a)%Z) by (unfold a; destruct start as [x|]; [apply (H1 x eq_refl)|lia]).
  assert (Hb : (0 <= b)%Z) by (unfold b; destruct stop as [x|]; [specialize (H2 x eq_refl); destruct (Z.ltb_spec x 0); lia|lia]).
  assert (E : d' = map (fun r => setf (in_slice a b (py_step step)) v (psum (lens d) r) (nth r d [])) (seq 0 (length d))).
  { apply map_seq_ext. intros r Hr. apply setitem_slice_norm; auto. }
  assert (PS : py_slice start stop step n = map Z.of_nat (filter (in_slice a b (py_step step)) (seq 0 (list_sum (lens d))))).
  { rewrite <- py_slice_filter by auto. rewrite <- Hn. unfold py_slice. cbn [py_step].
    unfold py_slice_start, py_slice_stop, py_clamp. destruct (Z.ltb_spec (py_step step) 0); [lia|].
    destruct (Z.ltb_spec a 0); [lia|]. destruct (Z.ltb_spec b 0); [lia|]. f_equal.
    - unfold a in *. destruct start as [x|]; [specialize (H1 x eq_refl); destruct (Z.ltb_spec x 0); lia|]. lia.
    - unfold b in *. rewrite Hn. destruct stop as [x|]; [specialize (H2 x eq_refl); destruct (Z.ltb_spec x 0); lia|]. lia. }
  split.
  - rewrite E. unfold lens at 1. rewrite map_map. transitivity (map (fun r => nth r (lens d) 0) (seq 0 (length (lens d)))); [|apply map_nth_seq]. rewrite lens_length.
    apply map_seq_ext. intros r Hr. now rewrite setf_length, lens_nth.
  - intros i. rewrite E. pose proof (setf_glob (in_slice a b (py_step step)) v d 0) as SG. cbn [Nat.add] in SG.
    unfold glob at 1. rewrite <- SG. rewrite setf_nth_error. cbn [Nat.add]. rewrite PS.
    destruct (nth_error (glob d) i) as [x|] eqn:Ei.
    + assert (Hi : i < list_sum (lens d)). { rewrite <- glob_length. apply nth_error_Some. congruence. }
      destruct (in_slice a b (py_step step) i) eqn:Q.
      * assert (existsb (Z.eqb (Z.of_nat i)) (map Z.of_nat (filter (in_slice a b (py_step step)) (seq 0 (list_sum (lens d))))) = true) as ->; auto.
        apply existsb_exists. exists (Z.of_nat i). split; [|apply Z.eqb_refl]. apply in_map. apply filter_In. split; auto. apply in_seq. lia.
      * assert (existsb (Z.eqb (Z.of_nat i)) (map Z.of_nat (filter (in_slice a b (py_step step)) (seq 0 (list_sum (lens d))))) = false) as ->; auto.
        apply existsb_false_forall. intros z Hz. apply in_map_iff in Hz. destruct Hz as (k & <- & Hk). apply filter_In in Hk.
        apply Z.eqb_neq. intros Q'. apply Nat2Z.inj in Q'. subst k. destruct Hk. congruence.
    + assert (existsb (Z.eqb (Z.of_nat i)) (map Z.of_nat (filter (in_slice a b (py_step step)) (seq 0 (list_sum (lens d))))) = false) as ->; auto.
      apply existsb_false_forall. intros z Hz. apply in_map_iff in Hz. destruct Hz as (k & <- & Hk). apply filter_In in Hk. destruct Hk as [Hk _]. apply in_seq in Hk.
      apply nth_error_None in Ei. rewrite glob_length in Ei. lia.
Qed.

Lemma upd_glob_setf {A} (l : list A) k v : upd l k v = setf (Nat.eqb k) v 0 l.
Proof.
  assert (G : forall l j, upd l k v = setf (fun i => Nat.eqb (j + k) i) v j l).
  { clear l. intros l. revert k. induction l as [|x l IH]; intros k j; simpl; auto. destruct k.
    - rewrite Nat.add_0_r, Nat.eqb_refl. f_equal. symmetry. apply setf_none. intros i Hi. apply Nat.eqb_neq. lia.
    - destruct (Nat.eqb_spec (j + S k) j); [lia|]. f_equal. rewrite (IH k (S j)). apply setf_ext. intros i _. f_equal. lia. }
  rewrite (G l 0). reflexivity.
Qed.

Lemma setitem_int_lemma : forall A (d : dist A) (key : Z) (v : A),
  let n := Z.of_nat (length (glob d)) in
  0 < length d -> lens d = counts_of (length (glob d)) (length d) -> (- n <= key < n)%Z ->
  exists d', map (setitem_int d key v) (seq 0 (length d)) = map (@Ok _) d' /\ lens d' = lens d /\
    glob d' = upd (glob d) (Z.to_nat (key mod n)) v.
Proof.
  intros A d key v n HP Hc Hk. unfold n in *. clear n. rewrite glob_length in *. set (N := list_sum (lens d)) in *.
  set (k := Z.to_nat (key mod Z.of_nat N)).
  assert (Ek : Z.of_nat k = if (key <? 0)%Z then (key + Z.of_nat N)%Z else key).
  { unfold k. rewrite Z2Nat.id by (apply Z.mod_pos_bound; lia). destruct (Z.ltb_spec key 0).
    - rewrite <- (Z.mod_add key 1) by lia. rewrite Z.mod_small; lia.
    - apply Z.mod_small; lia. }
  exists (map (fun r => setf (Nat.eqb k) v (psum (lens d) r) (nth r d [])) (seq 0 (length d))).
  split; [|split].
  - rewrite map_map. apply map_seq_ext. intros r Hr. unfold setitem_int. fold N.
    assert (chunk_1d N r (length d) = (psum (lens d) r, length (nth r d []))) as ->.
    { rewrite <- lens_nth. rewrite Hc at 2. rewrite counts_of_nth by auto. 
      assert (psum (lens d) r = cstart N r (length d)) as -> by (rewrite Hc; apply counts_of_psum; lia).
      unfold cstart, clen. now destruct (chunk_1d N r (length d)). }
    set (l := nth r d []). set (S0 := psum (lens d) r).
    assert (Hin : forall j, j < length l -> setf (Nat.eqb (S0 + j)) v S0 l = upd l j v).
    { intros j Hj. rewrite upd_glob_setf. apply setf_ext. intros i _. cbn [Nat.add].
      destruct (Nat.eqb_spec (S0 + j) (S0 + i)); destruct (Nat.eqb_spec j i); auto; lia. }
    assert (Hout : k < S0 \/ S0 + length l <= k -> setf (Nat.eqb k) v S0 l = l).
    { intros Ho. apply setf_none. intros i Hi. apply Nat.eqb_neq. lia. }
    destruct ((Z.of_nat S0 <=? key) && (key <? Z.of_nat (S0 + length l)))%Z eqn:E1.
    + destruct (Z.ltb_spec (key - Z.of_nat S0) (Z.of_nat (length l))); [|lia]. f_equal.
      destruct (Z.ltb_spec key 0); [lia|]. rewrite <- Hin by lia. f_equal. f_equal. lia.
    + destruct (Z.ltb_spec key 0).
      * destruct ((Z.of_nat S0 <=? Z.of_nat N + key) && (Z.of_nat N + key <? Z.of_nat (S0 + length l)))%Z eqn:E2.
        -- destruct (Z.ltb_spec (Z.of_nat N + key - Z.of_nat S0) (Z.of_nat (length l))); [|lia]. f_equal.
           rewrite <- Hin by lia. f_equal. f_equal. lia.
        -- f_equal. symmetry. apply Hout. lia.
      * f_equal. symmetry. apply Hout. lia.
  - unfold lens at 1. rewrite map_map. transitivity (map (fun r => nth r (lens d) 0) (seq 0 (length (lens d)))); [|apply map_nth_seq]. rewrite lens_length.
    apply map_seq_ext. intros r Hr. now rewrite setf_length, lens_nth.
  - rewrite upd_glob_setf. pose proof (setf_glob (Nat.eqb k) v d 0) as SG. cbn [Nat.add] in SG. rewrite SG. reflexivity.
Qed.

Lemma setitem_int_oob : forall A (d : dist A) (key : Z) (v : A) r,
  let n := Z.of_nat (length (glob d)) in
  0 < length d -> r < length d -> ~ (- n <= key < n)%Z -> setitem_int d key v r = Ok (nth r d []).
Proof.
  intros A d key v r n HP Hr Hk. unfold n in *. clear n. rewrite glob_length in *. unfold setitem_int. set (N := list_sum (lens d)) in *.
  assert (cstart N r (length d) + clen N r (length d) <= N).
  { rewrite <- cstart_S by auto. rewrite <- (cstart_P N HP) at 2.
    rewrite <- (counts_of_psum N (P:=length d) (r:=S r)), <- (counts_of_psum N (P:=length d) (r:=length d)) by lia. apply psum_mono; lia. }
  unfold cstart, clen in H. destruct (chunk_1d N r (length d)) as [cs cl]. cbn [fst snd] in H.
  destruct ((Z.of_nat cs <=? key) && (key <? Z.of_nat (cs + cl)))%Z eqn:E1; [lia|].
  destruct (Z.ltb_spec key 0); auto.
  destruct ((Z.of_nat cs <=? Z.of_nat N + key) && (Z.of_nat N + key <? Z.of_nat (cs + cl)))%Z eqn:E2; auto. lia.
Qed.

(* ---------- new split ---------- *)
Definition kept (singular : list bool) (k : nat) : nat := length (filter negb (firstn k singular)).
Lemma firstn_S_nth {A} (l : list A) k x : k < length l -> firstn (S k) l = firstn k l ++ [nth k l x].
Proof. revert k; induction l as [|a l IH]; intros [|k] H; simpl in *; try lia; auto. f_equal. apply IH. lia. Qed.
Lemma split_fold singular s : s < length singular -> forall k, k <= s ->
  fold_left (fun ns i => if nth i singular false then (if Nat.eqb i s then None else option_map pred ns) else ns) (seq 0 k) (Some s)
  = Some (s - (k - kept singular k)).
Proof.
  intros Hs. induction k as [|k IH]; intros Hk; [cbn; f_equal; lia|].
  rewrite seq_S, fold_left_app, IH by lia. cbn [fold_left Nat.add]. unfold kept.
  rewrite (@firstn_S_nth _ singular k false) by lia. rewrite filter_app, app_length. fold (kept singular k).
  assert (kept singular k <= k). { unfold kept. pose proof (filter_length_le' negb (firstn k singular)). rewrite firstn_length in H. lia. }
  destruct (nth k singular false); cbn [filter negb length].
  - destruct (Nat.eqb_spec k s); [lia|]. cbn [option_map]. f_equal. lia.
  - f_equal. lia.
Qed.
Lemma getitem_split_lemma : forall singular s, s < length singular ->
  getitem_split singular (Some s) =
    if nth s singular false then None else Some (length (filter negb (firstn s singular))).
Proof.
  intros singular s Hs. unfold getitem_split. fold (kept singular s).
  assert (Kle : kept singular s <= s). { unfold kept. pose proof (filter_length_le' negb (firstn s singular)). rewrite firstn_length in H. lia. }
  destruct (existsb (fun b => b) singular) eqn:E.
  - rewrite seq_S, fold_left_app, split_fold by auto. cbn [fold_left Nat.add].
    destruct (nth s singular false); [now rewrite Nat.eqb_refl|]. f_equal. lia.
  - assert (F : forall x, In x singular -> x = false) by (apply existsb_false_forall; auto).
    rewrite (F (nth s singular false)) by (apply nth_In; auto). f_equal.
    unfold kept. rewrite (proj2 (filter_all_iff _ _)); [rewrite firstn_length; lia|].
    intros x Hx. rewrite (F x); auto. rewrite <- (firstn_skipn s singular). apply in_or_app; auto.
Qed.

(* ---------- scalar conversion ---------- *)
Lemma cast_lemma : forall A B (f : A -> B) (d : dist A) x, glob d = [x] -> cast f d = Ok (f x).
Proof.
  intros A B f d x H. unfold cast. rewrite <- glob_length, H. cbn [length Nat.eqb].
  assert (G : forall (d : dist A) k, glob d = [x] ->
    exists r, r < length d /\ nth r d [] = [x] /\
    list_sum (map (fun q => if Nat.eqb (length (nth (q - k) d [])) 0 then 0 else q) (seq k (length d))) = k + r).
  { clear d H. assert (Z0 : forall (d : dist A) k j, glob d = [] -> list_sum (map (fun q => if Nat.eqb (length (nth (q - k) d [])) 0 then 0 else q) (seq j (length d))) = 0).
    { intros d k j Hd. rewrite (map_ext_in _ (fun _ => 0)); [rewrite map_const_seq, list_sum_repeat; lia|].
      intros q _. assert (nth (q - k) d [] = []) as ->; auto. destruct (Nat.lt_ge_cases (q - k) (length d)) as [L|L]; [|now apply nth_overflow].
      pose proof (glob_cut d L) as G. rewrite Hd in G. symmetry in G. apply app_eq_nil in G. destruct G as [_ G]. apply app_eq_nil in G. tauto. }
    induction d as [|l d IH]; intros k H; [discriminate|]. unfold glob in *. cbn [concat length seq map] in *. rewrite Nat.sub_diag. cbn [nth].
    rewrite list_sum_cons. destruct l as [|y l].
    - cbn [length Nat.eqb app] in *. destruct (IH (S k) H) as (r & R1 & R2 & R3). exists (S r). split; [lia|]. split; [exact R2|].
      rewrite <- Nat.add_succ_comm, <- R3. cbn [Nat.add]. f_equal. apply map_ext_in. intros q Hq. apply in_seq in Hq.
      replace (q - k) with (S (q - S k)) by lia. reflexivity.
    - cbn [app length Nat.eqb] in *. injection H as -> H. apply app_eq_nil in H. destruct H as [-> H].
      exists 0. split; [lia|]. split; [reflexivity|].
      rewrite (map_ext_in _ (fun q => if Nat.eqb (length (nth (q - S k) d [])) 0 then 0 else q)).
      + rewrite Z0 by auto. lia.
      + intros q Hq. apply in_seq in Hq. replace (q - k) with (S (q - S k)) by lia. reflexivity. }
  destruct (G d 0 H) as (r & R1 & R2 & R3).
  rewrite (map_ext (fun q => if Nat.eqb (length (nth q d [])) 0 then 0 else q) (fun q => if Nat.eqb (length (nth (q - 0) d [])) 0 then 0 else q)).
  - rewrite R3. cbn [Nat.add]. rewrite R2. reflexivity.
  - intros q. now rewrite Nat.sub_0_r.
Qed.
Lemma cast_bad : forall A B (f : A -> B) (d : dist A), length (glob d) <> 1 -> cast f d = Err TypeError.
Proof. intros A B f d H. unfold cast. rewrite <- glob_length. destruct (Nat.eqb_spec (length (glob d)) 1); [lia|auto]. Qed.
