From Verif Require Import Base BaseLemmas PySpec PySpecSel SliceLemmas LayoutModel LayoutProofs RedistModel IndexModel.
From Coq Require Import Sorted.
Set Implicit Arguments.

Lemma find_last_spec (f : Z -> bool) l : forall i acc r, find_last f l i acc = Some r ->
  (acc = Some r /\ forall k, k < length l -> f (nth k l 0%Z) = false) \/
  (i <= r < i + length l /\ f (nth (r - i) l 0%Z) = true /\ forall k, r - i < k < length l -> f (nth k l 0%Z) = false).
Proof.
  induction l as [|x l IH]; intros i acc r H; cbn [find_last] in H.
  - left. split; auto. intros k Hk; simpl in Hk; lia.
  - destruct (IH _ _ _ H) as [[E F]|(B & T & F)].
    + destruct (f x) eqn:Fx.
      * injection E as ->. right. cbn [length]. split; [lia|]. rewrite Nat.sub_diag. split; auto.
        intros k Hk. destruct k; [lia|]. cbn [nth]. apply F. cbn [length] in Hk. lia.
      * left. split; auto. intros k Hk. destruct k; auto. cbn [nth]. apply F. cbn [length] in Hk; lia.
    + right. cbn [length]. split; [lia|]. replace (r - i) with (S (r - S i)) by lia. cbn [nth]. split; auto.
      intros k Hk. destruct k; [lia|]. cbn [nth]. apply F. lia.
Qed.
Lemma find_last_none (f : Z -> bool) l : forall i acc, find_last f l i acc = None -> acc = None /\ forall k, k < length l -> f (nth k l 0%Z) = false.
Proof.
  induction l as [|x l IH]; intros i acc H; cbn [find_last] in H.
  - split; auto. intros k Hk; simpl in Hk; lia.
  - destruct (IH _ _ H) as [E F]. destruct (f x) eqn:Fx; [discriminate|]. split; auto.
    intros k Hk. destruct k; auto. cbn [nth]. apply F. cbn [length] in Hk; lia.
Qed.
Lemma find_from_0_spec {A} (f : A -> bool) (l : list A) d : forall i r, find_from f l i 0 = Some r ->
  i <= r < i + length l /\ f (nth (r - i) l d) = true /\ forall k, k < r - i -> f (nth k l d) = false.
Proof.
  induction l as [|x l IH]; intros i r H; cbn [find_from] in H; [discriminate|]. cbn [Nat.leb andb] in H.
  destruct (f x) eqn:Fx.
  - injection H as <-. cbn [length]. rewrite Nat.sub_diag. split; [lia|]. split; auto. intros; lia.
  - destruct (IH _ _ H) as (B & T & F). cbn [length]. split; [lia|]. replace (r - i) with (S (r - S i)) by lia. cbn [nth]. split; auto.
    intros k Hk. destruct k; auto. cbn [nth]. apply F. lia.
Qed.
Lemma find_from_0_none {A} (f : A -> bool) (l : list A) d : forall i, find_from f l i 0 = None -> forall k, k < length l -> f (nth k l d) = false.
Proof.
  induction l as [|x l IH]; intros i H k Hk; cbn [find_from] in H; [simpl in Hk; lia|]. cbn [Nat.leb andb] in H.
  destruct (f x) eqn:Fx; [discriminate|]. destruct k; auto. cbn [nth]. eapply IH; eauto. cbn [length] in Hk; lia.
Qed.

Lemma zstarts_nth c r : r < length c -> nth r (zstarts c) 0%Z = Z.of_nat (psum c r).
Proof. intros. unfold zstarts. now rewrite nth_map_seq. Qed.
Lemma zends_nth c r : r < length c -> nth r (zends c) 0%Z = Z.of_nat (psum c (S r)).
Proof. intros. unfold zends. now rewrite nth_map_seq. Qed.
Lemma zstarts_length c : length (zstarts c) = length c. Proof. unfold zstarts. now rewrite map_length, seq_length. Qed.
Lemma zends_length c : length (zends c) = length c. Proof. unfold zends. now rewrite map_length, seq_length. Qed.

(** first rank whose part ends after [a] *)
Definition stp (c : list nat) (a : Z) : nat := match find_from (fun e => a <? e)%Z (zends c) 0 0 with Some r => r | None => length c end.
Lemma stp_spec c a : let st := stp c a in
  st <= length c /\ (st < length c -> (a < Z.of_nat (psum c (S st)))%Z) /\ (forall r, r < st -> (Z.of_nat (psum c (S r)) <= a)%Z).
Proof.
  cbv zeta. unfold stp. destruct (find_from _ _ 0 0) as [r|] eqn:E.
  - apply (@find_from_0_spec _ _ _ 0%Z) in E. rewrite zends_length in E. rewrite Nat.sub_0_r in E. destruct E as (B & T & F).
    split; [lia|]. rewrite zends_nth in T by lia. split; [intros; lia|]. intros k Hk. specialize (F _ Hk). rewrite zends_nth in F by lia. lia.
  - split; auto. split; [lia|]. intros r Hr. pose proof (@find_from_0_none _ _ _ 0%Z _ E r ltac:(now rewrite zends_length)) as F.
    rewrite zends_nth in F by lia. lia.
Qed.
(** last rank whose part starts at or before [b] *)
Definition spp (starts : list Z) (b : Z) : nat := match find_last (fun s => s <=? b)%Z starts 0 None with Some r => r | None => 0 end.
Lemma spp_spec starts b : 0 < length starts -> (nth 0 starts 0 <= b)%Z -> let sp := spp starts b in
  sp < length starts /\ (nth sp starts 0 <= b)%Z /\ forall r, sp < r < length starts -> (b < nth r starts 0)%Z.
Proof.
  intros Hl H0. cbv zeta. unfold spp. destruct (find_last _ _ 0 None) as [r|] eqn:E.
  - apply find_last_spec in E. destruct E as [[E _]|(B & T & F)]; [discriminate|]. rewrite Nat.sub_0_r in *.
    split; [lia|]. split; [lia|]. intros k Hk. specialize (F k ltac:(lia)). lia.
  - apply find_last_none in E. destruct E as [_ F]. specialize (F 0 Hl). lia.
Qed.

(** the adjusted start on a rank after the first active one *)
Lemma xitem_spec rank first ks kp s ends og : (0 < s)%Z -> first < rank ->
  xitem rank first ks kp (Some s) ends og = (ks + (og - nth (rank - 1) ends 0) mod s, kp)%Z.
Proof.
  intros Hs Hr. unfold xitem. destruct (Nat.ltb_spec first rank); [|lia].
  set (x := (nth (rank - 1) ends 0 - og)%Z). replace (og - nth (rank - 1) ends 0)%Z with (- x)%Z by (unfold x; lia).
  assert (E : ((- x) mod s = if (x mod s =? 0) then 0 else s - x mod s)%Z).
  { destruct (Z.eqb_spec (x mod s) 0) as [E|E]; [now apply Z.mod_opp_l_z; lia|]. now apply Z.mod_opp_l_nz; lia. }
  rewrite E. pose proof (Z.mod_pos_bound x s Hs).
  destruct (Z.ltb_spec 2 s); destruct (Z.ltb_spec 0 (x mod s)); destruct (Z.eqb_spec (x mod s) 0); destruct (Z.eqb_spec s 2); cbn [andb]; f_equal; lia.
Qed.

(** position [i] of a rank whose part starts at [S0 >= a] is selected locally by the
    adjusted start iff it is selected globally *)
Lemma mod_shift a s S0 i : (0 < s)%Z -> (a <= S0)%Z -> (0 <= i)%Z ->
  let k := ((a - S0) mod s)%Z in ((k <= i /\ (i - k) mod s = 0) <-> (S0 + i - a) mod s = 0)%Z.
Proof.
  intros Hs Ha Hi. cbv zeta. set (k := ((a - S0) mod s)%Z). pose proof (Z.mod_pos_bound (a - S0) s Hs) as Hk. fold k in Hk.
  assert (E : ((S0 + i - a) mod s = (i - k) mod s)%Z).
  { replace (S0 + i - a)%Z with (i - (a - S0))%Z by lia. rewrite Zminus_mod. fold k. rewrite (Zminus_mod i k). f_equal. f_equal. unfold k. now rewrite Z.mod_mod by lia. }
  rewrite E. split; [tauto|]. intros Hm. split; auto.
  destruct (Z.lt_ge_cases i k); [|lia]. rewrite <- (Z.mod_add (i - k) 1 s) in Hm by lia. rewrite Z.mod_small in Hm by lia. lia.
Qed.

Lemma in_slice_len_aux {A} (l : list A) ks kp s : (0 < s)%Z -> (0 <= ks)%Z -> (ks - kp < s)%Z -> (0 <= kp <= Z.of_nat (length l))%Z ->
  Z.of_nat (length (sel l (py_slice (Some ks) (Some kp) (Some s) (Z.of_nat (length l))))) = zceil (kp - ks) s.
Proof.
  intros Hs H1 H2 H3. rewrite sel_length.
  2:{ intros i Hi. eapply in_py_slice_range in Hi; eauto; lia. }
  rewrite py_slice_length by auto. unfold py_clamp, py_range_len, zceil.
  destruct (Z.ltb_spec s 0); [lia|]. destruct (Z.ltb_spec ks 0); [lia|]. destruct (Z.ltb_spec kp 0); [lia|]. destruct (Z.ltb_spec 0 s); [|lia].
  rewrite (Z.min_l kp) by lia.
  destruct (Z.le_gt_cases ks (Z.of_nat (length l))) as [L|L].
  - rewrite (Z.min_l ks) by lia. replace (kp - ks + s - 1)%Z with ((kp - ks - 1) + 1 * s)%Z by lia. rewrite Z.div_add by lia.
    assert (E : (- (- (kp - ks) / s) = (kp - ks - 1) / s + 1)%Z).
    { pose proof (Z.div_mod (kp - ks - 1) s ltac:(lia)) as D. pose proof (Z.mod_pos_bound (kp - ks - 1) s Hs) as B.
      set (q := ((kp - ks - 1) / s)%Z) in *. set (m := ((kp - ks - 1) mod s)%Z) in *.
      assert (- (kp - ks) / s = - q - 1)%Z; [|lia]. symmetry. apply (Z.div_unique _ _ _ (s - 1 - m)); [lia|]. lia. }
    rewrite E. assert (-1 <= (kp - ks - 1) / s)%Z; [|lia]. apply Z.div_le_lower_bound; lia.
  - rewrite (Z.min_r ks) by lia. 
    assert (E1 : ((kp - Z.of_nat (length l) + s - 1) / s <= 0)%Z). { destruct (Z.le_gt_cases ((kp - Z.of_nat (length l) + s - 1) / s) 0); auto. exfalso. assert (1 <= (kp - Z.of_nat (length l) + s - 1) / s)%Z by lia. pose proof (Z.mul_div_le (kp - Z.of_nat (length l) + s - 1) s Hs). nia. }
    assert (E2 : (- (kp - ks) / s = 0)%Z) by (apply Z.div_small; lia).
    lia.
Qed.

Section Get.
Variable A : Type.
Variable d : dist A.
Notation c := (lens d).
Notation n := (list_sum (lens d)).

Lemma getitem_slice_norm a b s r : (0 < s)%Z -> (0 <= a)%Z -> (0 <= b <= Z.of_nat n)%Z -> (a <= b \/ Z.of_nat n <= a)%Z ->
  r < length d ->
  getitem_slice d (Some a) (Some b) (Some s) r = Ok (pickf (in_slice a b s) (psum c r) (nth r d [])).
Proof.
  intros Hs Ha Hb Hab Hr. unfold getitem_slice. cbn [py_step]. destruct (Z.leb_spec s 0); [lia|].
  unfold sanitize_slice. destruct (Z.ltb_spec a 0); [lia|]. destruct (Z.ltb_spec b 0); [lia|].
  cbv beta zeta iota.
  assert (ST : match find_from (fun e => (a <? e)%Z) (zends c) 0 0 with Some r0 => r0 | None => length d end = stp c a) by (unfold stp; now rewrite lens_length).
  rewrite ST. clear ST. fold (spp (zstarts c) b).
  pose proof (stp_spec c a) as (S1 & S2 & S3). set (st := stp c a) in *. rewrite lens_length in *.
  assert (Hl0 : 0 < length (zstarts c)) by (rewrite zstarts_length, lens_length; lia).
  assert (Hz0 : (nth 0 (zstarts c) 0 <= b)%Z). { rewrite zstarts_nth by (rewrite lens_length; lia). rewrite psum_0. lia. }
  pose proof (spp_spec _ Hl0 Hz0) as (P1 & P2 & P3). set (sp := spp (zstarts c) b) in *.
  rewrite zstarts_length, lens_length in P1, P3. rewrite zstarts_nth in P2 by (rewrite lens_length; lia).
  assert (P3' : forall k, sp < k < length d -> (b < Z.of_nat (psum c k))%Z).
  { intros k Hk. specialize (P3 k Hk). rewrite zstarts_nth in P3 by (rewrite lens_length; lia). auto. }
  set (l := nth r d []) in *. pose proof (psum_S c (k:=r) ltac:(rewrite lens_length; auto)) as PS. rewrite lens_nth in PS. fold l in PS.
  destruct ((st <=? r) && (r <=? sp)) eqn:Act.
  2:{ f_equal. symmetry. apply pickf_none. intros i Hi. unfold in_slice.
      apply andb_false_iff in Act. destruct Act as [Act|Act]; apply Nat.leb_gt in Act.
      - specialize (S3 r Act). lia.
      - specialize (P3' r ltac:(lia)). lia. }
  apply andb_true_iff in Act. destruct Act as [A1 A2]. apply Nat.leb_le in A1, A2.
  rewrite zstarts_nth by (rewrite lens_length; lia). rewrite lens_nth. fold l.
  set (S0 := Z.of_nat (psum c r)) in *.
  assert (Ln : psum c (S r) <= n) by apply psum_le_sum.
  (* the local stop *)
  set (kp := if Nat.eqb r sp then (b - S0)%Z else Z.of_nat (length l)).
  assert (Kp : (0 <= kp <= Z.of_nat (length l))%Z /\ forall i, i < length l -> (Z.of_nat i <? kp)%Z = (S0 + Z.of_nat i <? b)%Z).
  { unfold kp. destruct (Nat.eqb_spec r sp) as [->|N].
    - fold S0 in P2. split; [split; [lia|]|intros; lia].
      destruct (Nat.eq_dec (S sp) (length d)) as [E|E].
      + replace (Z.of_nat (length l)) with (Z.of_nat (psum c (S sp)) - S0)%Z by lia.
        assert (psum c (S sp) = n) as -> by (apply psum_all; rewrite lens_length; lia). lia.
      + specialize (P3' (S sp) ltac:(lia)). lia.
    - assert (Hx : (Z.of_nat (psum c (S r)) <= b)%Z). { pose proof (@psum_mono c (S r) sp ltac:(lia)). lia. }
      split; [lia|]. intros; lia. }
  destruct Kp as [Kp1 Kp2].
  (* the local start *)
  assert (exists ks, xitem r st (if Nat.eqb r st then (a - S0)%Z else 0%Z) kp (Some s) (zends c) a = (ks, kp) /\ (0 <= ks)%Z /\ (ks - kp < s)%Z /\
     forall i, i < length l -> ((ks <=? Z.of_nat i)%Z && ((Z.of_nat i - ks) mod s =? 0)%Z) = ((a <=? S0 + Z.of_nat i)%Z && ((S0 + Z.of_nat i - a) mod s =? 0)%Z)) as (ks & -> & Ks1 & Ks2 & Ks3).
  { destruct (Nat.eqb_spec r st) as [E|E].
    - exists (a - S0)%Z. unfold xitem. destruct (Nat.ltb_spec st r); [lia|]. split; auto.
      assert (S0 <= a)%Z. { unfold S0. destruct r as [|r']; [rewrite psum_0; lia|]. apply S3; lia. }
      split; [lia|]. split.
      + assert (a < Z.of_nat (psum c (S r)))%Z by (rewrite E; apply S2; lia).
        unfold kp. destruct (Nat.eqb r sp); lia.
      + intros i Hi. replace (Z.of_nat i - (a - S0))%Z with (S0 + Z.of_nat i - a)%Z by lia. f_equal. lia.
    - rewrite xitem_spec by (auto; lia). rewrite zends_nth by (rewrite lens_length; lia).
      replace (S (r - 1)) with r by lia. fold S0. exists ((a - S0) mod s)%Z. cbn [Z.add]. split; [f_equal; lia|].
      pose proof (Z.mod_pos_bound (a - S0) s Hs). split; [lia|]. split; [lia|].
      assert (a <= S0)%Z. { assert (a < Z.of_nat (psum c (S st)))%Z by (apply S2; lia). pose proof (@psum_mono c (S st) r ltac:(lia)). lia. }
      intros i Hi. pose proof (@mod_shift a s S0 (Z.of_nat i) Hs ltac:(lia) ltac:(lia)) as MS. cbv zeta in MS.
      destruct (Z.leb_spec a (S0 + Z.of_nat i)); [|lia]. cbn [andb].
      destruct (Z.eqb_spec ((S0 + Z.of_nat i - a) mod s) 0) as [M|M].
      + apply MS in M. lia.
      + destruct (Z.leb_spec ((a - S0) mod s) (Z.of_nat i)); auto. cbn [andb]. apply Z.eqb_neq. intros M'. apply M, MS. auto. }
  unfold reshape_check. rewrite in_slice_len_aux by (auto; lia). rewrite Z.eqb_refl. cbn [orb]. f_equal.
  rewrite sel_py_slice by (auto; lia). apply pickf_ext. intros i Hi. unfold in_slice. cbn [Nat.add].
  specialize (Ks3 i Hi). specialize (Kp2 i Hi). rewrite Nat2Z.inj_add. fold S0.
  rewrite <- !andb_assoc, !(andb_comm (_ <? _)%Z), !andb_assoc. rewrite Ks3, Kp2. reflexivity.
Qed.
End Get.

Lemma getitem_slice_lemma : forall A (d : dist A) start stop step,
  let n := Z.of_nat (length (glob d)) in
  (0 < py_step step)%Z ->
  (forall x, start = Some x -> (- n <= x)%Z) -> (forall x, stop = Some x -> (- n <= x <= n)%Z) ->
  (py_slice_start start n (py_step step) <= py_slice_stop stop n (py_step step) \/ exists x, start = Some x /\ n <= x)%Z ->
  exists d', map (getitem_slice d start stop step) (seq 0 (length d)) = map (@Ok _) d' /\
    glob d' = sel (glob d) (py_slice start stop step n).
Proof.
  intros A d start stop step n Hs H1 H2 H3.
  pose proof (@sanitize_slice_ok start stop step n ltac:(lia) Hs H1 ltac:(intros x Hx; specialize (H2 x Hx); lia)) as SS.
  destruct (sanitize_slice start stop step n) as [[a b] s] eqn:E. destruct SS as (Sa & Sb & Es & SP). subst s.
  exists (map (fun r => pickf (in_slice a b (py_step step)) (psum (lens d) r) (nth r d [])) (seq 0 (length d))).
  assert (Hb : (b <= n)%Z).
  { unfold sanitize_slice in E. injection E as _ E. destruct stop as [x|]; [specialize (H2 x eq_refl)|]; match type of E with context [(?u <? 0)%Z] => destruct (Z.ltb_spec u 0) end; lia. }
  assert (Hab : (a <= b \/ n <= a)%Z).
  { unfold sanitize_slice in E. injection E as Ea Eb. unfold py_slice_start, py_slice_stop, py_clamp in H3.
    destruct (Z.ltb_spec (py_step step) 0); [lia|]. destruct H3 as [H3|(x & -> & Hx)].
    - destruct start as [x|]; destruct stop as [y|]; try specialize (H1 x eq_refl); try specialize (H2 y eq_refl);
      repeat match goal with H : context [(?u <? 0)%Z] |- _ => destruct (Z.ltb_spec u 0) end; lia.
    - destruct (Z.ltb_spec x 0); lia. }
  split.
  - rewrite map_map. apply map_seq_ext. intros r Hr.
    unfold n in *. rewrite glob_length in *.
    rewrite <- (@getitem_slice_norm A d a b (py_step step) r); auto.
    unfold getitem_slice. rewrite E. unfold sanitize_slice. cbn [py_step].
    destruct (Z.ltb_spec a 0); [lia|]. destruct (Z.ltb_spec b 0); [lia|]. reflexivity.
  - unfold n in *. rewrite <- SP. rewrite sel_py_slice by auto. rewrite pickf_glob. reflexivity.
Qed.

(* ---------- integers ---------- *)
Lemma find_last_start c (k : Z) : (0 <= k < Z.of_nat (list_sum c))%Z ->
  exists r, find_last (fun b => b <=? k)%Z (zstarts c) 0 None = Some r /\ r < length c /\
    (Z.of_nat (psum c r) <= k < Z.of_nat (psum c (S r)))%Z.
Proof.
  intros H. assert (0 < length c). { destruct c; [rewrite list_sum_nil in H; lia|simpl; lia]. }
  assert (Hl0 : 0 < length (zstarts c)) by (rewrite zstarts_length; lia).
  assert (Hz0 : (nth 0 (zstarts c) 0 <= k)%Z). { rewrite zstarts_nth by lia. rewrite psum_0. lia. }
  pose proof (spp_spec _ Hl0 Hz0) as (P1 & P2 & P3). unfold spp in *.
  destruct (find_last (fun b => b <=? k)%Z (zstarts c) 0 None) as [r|] eqn:E.
  - exists r. split; auto. rewrite zstarts_length in *. split; auto. rewrite zstarts_nth in P2 by auto. split; auto.
    destruct (Nat.eq_dec (S r) (length c)) as [Er|Er]; [rewrite psum_all by lia; lia|].
    specialize (P3 (S r) ltac:(lia)). rewrite zstarts_nth in P3 by lia. auto.
  - apply find_last_none in E. destruct E as [_ F]. specialize (F 0 Hl0). lia.
Qed.

Lemma nth_error_glob {A} (d : dist A) r i : r < length d -> i < length (nth r d []) ->
  nth_error (nth r d []) i = nth_error (glob d) (psum (lens d) r + i).
Proof.
  intros H Hi. destruct (nth r d []) as [|a0 l0] eqn:El; [simpl in Hi; lia|]. rewrite <- El in *.
  rewrite (nth_error_nth' (nth r d []) a0 Hi). symmetry. rewrite nth_error_nth' with (d := a0).
  - f_equal. rewrite glob_nth; auto.
  - rewrite glob_length. pose proof (psum_le_sum (lens d) (S r)) as PL. rewrite psum_S, lens_nth in PL by (rewrite lens_length; auto). lia.
Qed.

Lemma getitem_int_lemma : forall A (d : dist A) (key : Z),
  let n := Z.of_nat (length (glob d)) in
  ((- n <= key < n)%Z -> exists x, nth_error (glob d) (Z.to_nat (key mod n)) = Some x /\ getitem_int d key = Ok x) /\
  (~ (- n <= key < n)%Z -> getitem_int d key = Err IndexError).
Proof.
  intros A d key n. unfold n in *. rewrite glob_length. set (N := Z.of_nat (list_sum (lens d))). unfold getitem_int. fold N. split; intros H.
  - destruct (Z.ltb_spec key (- N)); [lia|]. destruct (Z.leb_spec N key); [lia|]. cbn [orb].
    set (k := if (key <? 0)%Z then (key + N)%Z else key).
    assert (Hk : (key mod N = k /\ 0 <= k < N)%Z).
    { unfold k. destruct (Z.ltb_spec key 0).
      - split; [|lia]. rewrite <- (Z.mod_add key 1 N) by lia. rewrite Z.mod_small; lia.
      - split; [|lia]. apply Z.mod_small; lia. }
    destruct Hk as [-> Hk]. destruct (find_last_start (lens d) Hk) as (r & -> & Hr & B).
    rewrite zstarts_nth by auto. rewrite lens_length in Hr.
    pose proof (psum_S (lens d) (k:=r) ltac:(rewrite lens_length; auto)) as PS. rewrite lens_nth in PS.
    rewrite nth_error_glob by (auto; lia).
    replace (psum (lens d) r + Z.to_nat (k - Z.of_nat (psum (lens d) r))) with (Z.to_nat k) by lia.
    destruct (nth_error (glob d) (Z.to_nat k)) as [x|] eqn:E; [exists x; auto|].
    apply nth_error_None in E. rewrite glob_length in E. unfold N in Hk. lia.
  - destruct (Z.ltb_spec key (- N)); auto. destruct (Z.leb_spec N key); auto. lia.
Qed.

(* ---------- lists of indices ---------- *)
Lemma getitem_list_lemma : forall A (d : dist A) (keys : list Z),
  let n := Z.of_nat (length (glob d)) in
  1 < length keys -> (forall k, In k keys -> (0 <= k < n)%Z) -> StronglySorted Z.le keys ->
  glob (map (getitem_list d keys) (seq 0 (length d))) = sel (glob d) keys.
Proof.
  intros A d keys n H1 H2 H3. unfold getitem_list. destruct (Nat.leb_spec (length keys) 1); [lia|]. clear H1 H.
  unfold n in H2. rewrite glob_length in H2. 
  assert (G : forall m, m <= length d ->
    glob (map (fun r => sel (nth r d []) (map (fun k => (k - Z.of_nat (psum (lens d) r))%Z) (filter (fun k => (Z.of_nat (psum (lens d) r) <=? k) && (k <? Z.of_nat (psum (lens d) (S r))))%Z keys))) (seq 0 m))
    = sel (glob d) (filter (fun k => k <? Z.of_nat (psum (lens d) m))%Z keys)).
  { induction m as [|m IH]; intros Hm.
    - cbn [seq map]. rewrite psum_0. rewrite (proj2 (filter_nil_iff _ _)); [reflexivity|]. intros k Hk. specialize (H2 k Hk). lia.
    - rewrite seq_S, map_app. unfold glob at 1. rewrite concat_app. fold (glob (A := A)). cbn [map concat Nat.add]. rewrite app_nil_r.
      unfold glob at 1 in IH. rewrite IH by lia.
      assert (Hl : length (nth m d []) = psum (lens d) (S m) - psum (lens d) m). { rewrite psum_S, lens_nth by (rewrite lens_length; lia). lia. }
      assert (E : sel (nth m d []) (map (fun k => (k - Z.of_nat (psum (lens d) m))%Z) (filter (fun k => (Z.of_nat (psum (lens d) m) <=? k) && (k <? Z.of_nat (psum (lens d) (S m))))%Z keys))
        = sel (glob d) (filter (fun k => (Z.of_nat (psum (lens d) m) <=? k) && (k <? Z.of_nat (psum (lens d) (S m))))%Z keys)).
      { clear IH H3. induction keys as [|k keys IHk]; auto. cbn [filter].
        destruct ((Z.of_nat (psum (lens d) m) <=? k) && (k <? Z.of_nat (psum (lens d) (S m))))%Z eqn:Ek; [|apply IHk; intros; apply H2; simpl; auto].
        cbn [map]. unfold sel in *. cbn [flat_map]. rewrite IHk by (intros; apply H2; simpl; auto). f_equal.
        rewrite nth_error_glob by lia. replace (psum (lens d) m + Z.to_nat (k - Z.of_nat (psum (lens d) m))) with (Z.to_nat k) by lia. reflexivity. }
      rewrite E, <- sel_app. f_equal.
      pose proof (@psum_mono (lens d) m (S m) ltac:(lia)) as PM.
      clear -H3 PM. induction H3 as [|k keys S IH F]; auto. cbn [filter]. rewrite Forall_forall in F.
      destruct (Z.ltb_spec k (Z.of_nat (psum (lens d) m))) as [L|L].
      + destruct (Z.leb_spec (Z.of_nat (psum (lens d) m)) k); [lia|]. destruct (Z.ltb_spec k (Z.of_nat (psum (lens d) (Datatypes.S m)))); [|lia].
        cbn [andb app]. now rewrite IH.
      + destruct (Z.leb_spec (Z.of_nat (psum (lens d) m)) k); [|lia]. cbn [andb].
        rewrite (proj2 (filter_nil_iff _ keys)) in IH |- *; try (intros x Hx; specialize (F x Hx); lia). cbn [app] in *.
        destruct (k <? Z.of_nat (psum (lens d) (Datatypes.S m)))%Z; now rewrite IH. }
  rewrite (G (length d)) by auto. f_equal. rewrite psum_all by (rewrite lens_length; auto).
  rewrite (proj2 (filter_all_iff _ _)); auto. intros k Hk. specialize (H2 k Hk). lia.
Qed.
