(** Convolution on lists: windows of a distributed signal cover every output position once. *)
From Verif Require Import Base BaseLemmas LayoutModel NdSpec TensorSpec OpsModel ShapeModel BinModel HaloModel HaloProofs PadSpec PadModel ConvSpec ConvModel MatmulProofs2.
Open Scope nat_scope.

(** number of multiples of [s] below [x] *)
Definition mults (s x : nat) : nat := (x + s - 1) / s.
Lemma mults_0 s : 1 <= s -> mults s 0 = 0.
Proof. intros. unfold mults. apply Nat.div_small. lia. Qed.
Lemma mults_spec s x : 1 <= s -> s * mults s x < x + s /\ x <= s * mults s x.
Proof. intros Hs. unfold mults. assert (D := Nat.div_mod (x + s - 1) s ltac:(lia)). assert (M := Nat.mod_upper_bound (x + s - 1) s ltac:(lia)). set (q := (x + s - 1) / s) in *. lia. Qed.
Lemma mults_unique s x k : 1 <= s -> s * k < x + s -> x <= s * k -> mults s x = k.
Proof. intros Hs H1 H2. destruct (mults_spec s x Hs) as [H3 H4]. assert (s * mults s x < s * (k + 1)) by lia. assert (s * k < s * (mults s x + 1)) by lia. apply Nat.mul_lt_mono_pos_l in H, H0; lia. Qed.
Lemma mults_mono s x y : 1 <= s -> x <= y -> mults s x <= mults s y.
Proof. intros. unfold mults. apply Nat.div_le_mono; lia. Qed.
Lemma mults_S s n : 1 <= s -> mults s (S n) = n / s + 1.
Proof. intros. unfold mults. replace (S n + s - 1) with (n + 1 * s) by lia. now rewrite Nat.div_add by lia. Qed.
Lemma mults_1 x : mults 1 x = x.
Proof. unfold mults. rewrite Nat.div_1_r. lia. Qed.

Lemma nth_skipn {A} (l : list A) a k d : nth k (skipn a l) d = nth (a + k) l d.
Proof. revert l. induction a as [|a IH]; intros l; [reflexivity|]. destruct l as [|x l]; [cbn; now destruct k|]. cbn [skipn Nat.add nth]. apply IH. Qed.
Lemma seq_shift' a n : seq a n = map (fun k => a + k) (seq 0 n).
Proof. revert a. induction n as [|n IH]; intros a; [reflexivity|]. cbn [seq map]. rewrite Nat.add_0_r. f_equal. rewrite IH, (IH 1), map_map. apply map_ext. intros; lia. Qed.

Section ConvP.
Context {V : Type} (zero : V) (add mul : V -> V -> V).
Notation corr := (correlate zero add mul).

Lemma corr_sub (A w : list V) a len q : q + length w <= len -> corr (sub A a len) w q = corr A w (a + q).
Proof.
  intros H. unfold correlate. f_equal. apply map_ext_in. intros k Hk. apply in_seq in Hk. rewrite sub_nth by lia. f_equal. f_equal. lia.
Qed.
Lemma corr_skipn (A w : list V) a q : corr (skipn a A) w q = corr A w (a + q).
Proof.
  unfold correlate. f_equal. apply map_ext_in. intros k Hk. rewrite nth_skipn. f_equal. f_equal. lia.
Qed.
(** the values at the positions p in [x, y) that are multiples of the stride *)
Definition span (A w : list V) (s x y : nat) : list V := map (fun k => corr A w (k * s)) (seq (mults s x) (mults s y - mults s x)).
Lemma span_app A w s x y z : 1 <= s -> x <= y -> y <= z -> span A w s x y ++ span A w s y z = span A w s x z.
Proof.
  intros Hs H1 H2. unfold span. rewrite <- map_app. f_equal.
  pose proof (mults_mono s x y Hs H1). pose proof (mults_mono s y z Hs H2).
  replace (seq (mults s y) (mults s z - mults s y)) with (seq (mults s x + (mults s y - mults s x)) (mults s z - mults s y)) by (f_equal; lia). rewrite <- seq_app. f_equal. lia.
Qed.
Lemma span_concat A w s (lo : nat -> nat) P : 1 <= s -> (forall r, r < P -> lo r <= lo (S r)) ->
  concat (map (fun r => span A w s (lo r) (lo (S r))) (seq 0 P)) = span A w s (lo 0) (lo P) /\ lo 0 <= lo P.
Proof.
  intros Hs. induction P as [|P IH]; intros H.
  - cbn. unfold span. rewrite Nat.sub_diag. auto.
  - destruct IH as [IH1 IH2]; [intros; apply H; lia|]. rewrite seq_S, map_app, concat_app, IH1. cbn. rewrite app_nil_r. specialize (H P ltac:(lia)). rewrite span_app by lia. split; [auto|lia].
Qed.

Section Windows.
Variables (d : dist V) (K h : nat).
Hypothesis HK : 1 <= K.
Hypothesis Hh : h = K / 2.
Hypothesis HP : 2 <= length d.
Hypothesis HC : forall r, r < length d -> K - h <= length (nth r d []).
Let A := glob d.
Let o := psum (lens d).
Let P := length d.
Let e := if Nat.even K then 1 else 0.
Lemma K_he : K + e = 2 * h + 1.
Proof.
  subst h e. destruct (Nat.even K) eqn:E.
  - apply Nat.even_spec in E as [j ->]. rewrite Nat.mul_comm, Nat.div_mul by lia. lia.
  - assert (O : Nat.odd K = true) by (unfold Nat.odd; now rewrite E). apply Nat.odd_spec in O as [j ->].
    replace (2 * j + 1) with (1 + j * 2) by lia. rewrite Nat.div_add by lia. change (1 / 2) with 0. lia.
Qed.
Lemma o_S r : r < P -> o (S r) = o r + length (nth r d []).
Proof. intros Hr. unfold o. rewrite psum_S by (rewrite lens_length; auto). now rewrite lens_nth. Qed.
Lemma o_P : o P = length A.
Proof. unfold o, A. rewrite glob_length. apply psum_all. rewrite lens_length. auto. Qed.
Lemma o_le r : r <= P -> o r <= length A.
Proof. intros Hr. rewrite <- o_P. unfold o. apply psum_mono. auto. Qed.
Lemma o_ge r : 1 <= r <= P -> K - h <= o r.
Proof.
  intros Hr. assert (o 1 <= o r) by (apply psum_mono; lia). rewrite o_S in H by (unfold P; lia). specialize (HC 0 ltac:(lia)). lia.
Qed.
Definition start (r : nat) := o r - h.
Definition stop (r : nat) := Nat.min (length A) (o (S r) + h).
Lemma window r : r < P -> with_halo d h r = Ok (sub A (start r) (stop r - start r)).
Proof.
  intros Hr. pose proof K_he as KE. pose proof (HC r Hr) as C1. destruct (Nat.eq_dec h 0) as [Z|NZ].
  - unfold with_halo, get_halo. rewrite Z. cbn [Z.of_nat Z.ltb Z.compare Z.eqb]. rewrite orb_true_r. unfold array_with_halos. destruct (Nat.leb_spec (length d) 1); [lia|]. cbn [h_prev h_next app]. rewrite app_nil_r.
    rewrite (@block _ d r Hr) at 1. f_equal. unfold start, stop, A. rewrite Z. f_equal; fold o; [lia|]. rewrite o_S by auto. pose proof (o_le (S r) ltac:(unfold P in *; lia)) as OL. rewrite o_S in OL by auto. unfold A in OL. lia.
  - assert (NE : forall q, q < length d -> nth q d [] <> []) by (intros q Hq E; specialize (HC q Hq); rewrite E in HC; cbn in HC; lia).
    destruct (@with_halos_lemma V d (Z.of_nat h) r (Halo None None false)) as (s' & a & b & E1 & E2 & E3 & E4); [lia|auto|auto| | |].
    + exists (if r =? 0 then 1 else 0). split; [destruct (Nat.eqb_spec r 0); lia|]. split; [destruct (Nat.eqb_spec r 0); lia|]. apply NE. destruct (Nat.eqb_spec r 0); lia.
    + intros q Hq _. specialize (HC q Hq). lia.
    + unfold with_halo. rewrite E1, E4. rewrite Nat2Z.id in E2, E3. subst a b. reflexivity.
Qed.
(** first position computed by rank r *)
Definition lo (r : nat) := if r =? 0 then 0 else if r =? P then length A - K + 1 else o r - h + e.
Lemma len_window r : r < P -> K <= stop r - start r /\ start r <= stop r /\ stop r <= length A.
Proof.
  intros Hr. pose proof K_he as KE. unfold start, stop. rewrite o_S by auto. pose proof (HC r Hr) as C1.
  pose proof (o_le (S r) ltac:(unfold P in *; lia)) as OL. rewrite o_S in OL by auto.
  assert (B : r = 0 \/ K - h <= o r) by (destruct (Nat.eq_dec r 0); [auto|right; apply o_ge; lia]).
  assert (C : r = P - 1 \/ o (S r) + (K - h) <= length A).
  { destruct (Nat.eq_dec r (P - 1)); [auto|right]. pose proof (o_le (S (S r)) ltac:(unfold P in *; lia)) as OL2. rewrite o_S in OL2 by (unfold P in *; lia). specialize (HC (S r) ltac:(unfold P in *; lia)). lia. }
  rewrite o_S in C by auto.
  assert (D : r = P - 1 -> o r + length (nth r d []) = length A) by (intros ->; rewrite <- o_P, <- o_S by (unfold P in *; lia); f_equal; unfold P in *; lia).
  unfold e in *. assert (o 0 = 0) by reflexivity. unfold P in *.
  destruct B as [->|B]; destruct C as [C|C]; try (specialize (D C)); destruct (Nat.even K); lia.
Qed.
Lemma lo_S r : r < P -> lo (S r) = stop r - K + 1.
Proof.
  intros Hr. pose proof K_he as KE. unfold lo, stop. change (S r =? 0) with false. cbv iota. destruct (Nat.eqb_spec (S r) P) as [E|NE].
  - rewrite E, o_P. lia.
  - assert (C : o (S r) + (K - h) <= length A).
    { pose proof (o_le (S (S r)) ltac:(unfold P in *; lia)) as OL2. rewrite o_S in OL2 by (unfold P in *; lia). specialize (HC (S r) ltac:(unfold P in *; lia)). lia. }
    pose proof (o_ge (S r) ltac:(unfold P in *; lia)). unfold e in *. destruct (Nat.even K); lia.
Qed.
Lemma lo_start r : 0 < r < P -> lo r = start r + e.
Proof. intros Hr. unfold lo, start. destruct (Nat.eqb_spec r 0); [lia|]. destruct (Nat.eqb_spec r P); lia. Qed.
Lemma lo_mono r : r < P -> lo r <= lo (S r).
Proof.
  intros Hr. rewrite lo_S by auto. destruct (Nat.eq_dec r 0) as [->|N0]; [unfold lo; cbn; lia|]. rewrite lo_start by lia.
  pose proof (len_window r Hr) as (L1 & L2 & L3). pose proof K_he as KE.
  pose proof (HC r Hr) as C1. unfold start, stop in *. rewrite o_S in * by auto. pose proof (o_ge r ltac:(lia)).
  pose proof (o_le (S r) ltac:(unfold P in *; lia)) as OL. rewrite o_S in OL by auto. unfold e in *. destruct (Nat.even K); lia.
Qed.

Variables (w : list V) (s : nat).
Hypothesis Hw : length w = K.
Hypothesis Hs : 1 <= s.
Lemma conv1d_window A' a n i : i <= n -> K <= n - i -> a + n <= length A' ->
  conv1d zero add mul (skipn i (sub A' a n)) w s = Ok (map (fun k => corr A' w (a + i + k * s)) (seq 0 ((n - i - K) / s + 1))).
Proof.
  intros Hi Hn HA. unfold conv1d. rewrite skipn_length, sub_length, Hw by auto. destruct (Nat.ltb_spec (n - i) K); [lia|]. f_equal. apply map_ext_in. intros k Hk. apply in_seq in Hk.
  rewrite corr_skipn, corr_sub; [f_equal; lia|]. rewrite Hw.
  assert (DM := Nat.div_mod (n - i - K) s ltac:(lia)). assert (k * s <= ((n - i - K) / s) * s) by (apply Nat.mul_le_mono_r; lia). lia.
Qed.
(** what one rank computes with stride s and no kernel distribution *)
Definition rank_out (r : nat) : res (list V) :=
  do sg <- with_halo d h r;
  let sig := if 1 <? s then skipn (local_index d h K s r) sg else sg in
  do out <- (if length w <=? length sig then conv1d zero add mul sig w s else Ok []);
  Ok (if negb (Nat.eqb r 0) && Nat.even K && Nat.eqb s 1 then skipn 1 out else out).
Lemma local_index_spec r : 0 < r < P -> 1 < s -> s * mults s (start r + e) = start r + local_index d h K s r.
Proof.
  intros Hr H1. pose proof (o_ge r ltac:(lia)) as G. pose proof K_he as KE. unfold local_index. destruct (Nat.eqb_spec r 0); [lia|].
  fold o. replace (Z.of_nat (o r) - Z.of_nat h)%Z with (Z.of_nat (start r)) by (unfold start; unfold e in *; destruct (Nat.even K); lia).
  rewrite <- Nat2Z.inj_mod, Nat2Z.id.
  assert (DM := Nat.div_mod (start r) s ltac:(lia)). assert (MB := Nat.mod_upper_bound (start r) s ltac:(lia)).
  set (q := start r / s) in *. set (m := start r mod s) in *. unfold e.
  destruct (Nat.eqb_spec m 0) as [M0|M0].
  - rewrite Nat.eqb_refl, andb_true_r. destruct (Nat.even K).
    + rewrite (mults_unique s (start r + 1) (q + 1)) by lia. lia.
    + rewrite (mults_unique s (start r + 0) q) by lia. lia.
  - destruct (Nat.eqb_spec (s - m) 0); [lia|]. rewrite andb_false_r.
    rewrite (mults_unique s _ (q + 1)) by (destruct (Nat.even K); lia). lia.
Qed.
Lemma rank_out_span r : r < P -> rank_out r = Ok (span A w s (lo r) (lo (S r))).
Proof.
  intros Hr. unfold rank_out. rewrite window by auto. cbn [bind]. pose proof (len_window r Hr) as (L1 & L2 & L3). pose proof (lo_S r Hr) as LS. pose proof (lo_mono r Hr) as LM.
  set (n := stop r - start r) in *.
  destruct (Nat.ltb_spec 1 s) as [S1|S1].
  - (* stride > 1 *)
    replace (s =? 1) with false by (symmetry; apply Nat.eqb_neq; lia). rewrite andb_false_r. set (i := local_index d h K s r).
    assert (EI : s * mults s (lo r) = start r + i).
    { destruct (Nat.eq_dec r 0) as [->|N0]. { unfold lo, i, local_index, start. cbn. rewrite mults_0 by lia. change (o 0) with 0. lia. } rewrite lo_start by lia. unfold i. apply local_index_spec; lia. }
    rewrite Hw, skipn_length, sub_length by (unfold n; lia). unfold span. destruct (Nat.leb_spec K (n - i)) as [F|F].
    + rewrite conv1d_window by (unfold n in *; lia). cbn [bind]. f_equal.
      assert (EM : mults s (lo (S r)) - mults s (lo r) = (n - i - K) / s + 1).
      { rewrite LS. set (c0 := mults s (lo r)) in *. assert (DM := Nat.div_mod (n - i - K) s ltac:(lia)). assert (MB := Nat.mod_upper_bound (n - i - K) s ltac:(lia)). set (q := (n - i - K) / s) in *.
        rewrite (mults_unique s _ (c0 + q + 1)); unfold n in *; try lia. }
      rewrite EM. rewrite (seq_shift' (mults s (lo r))). rewrite map_map. apply map_ext. intros k. f_equal. lia.
    + replace (mults s (lo (S r)) - mults s (lo r)) with 0; [reflexivity|]. rewrite LS. set (c0 := mults s (lo r)) in *.
      assert (mults s (stop r - K + 1) <= c0); [|lia]. destruct (mults_spec s (stop r - K + 1) Hs) as [M1 _]. assert (s * mults s (stop r - K + 1) < s * (c0 + 1)) by (unfold n in *; lia). apply Nat.mul_lt_mono_pos_l in H; lia.
  - assert (E1 : s = 1) by lia. rewrite Hw, sub_length by (unfold n; lia). destruct (Nat.leb_spec K n); [|lia].
    pose proof (conv1d_window A (start r) n 0 ltac:(lia) ltac:(lia) ltac:(unfold n; lia)) as E. cbn [skipn] in E. rewrite E1 in *. rewrite E. cbn [bind Nat.eqb]. rewrite andb_true_r. f_equal.
    unfold span. rewrite !mults_1, LS. rewrite Nat.div_1_r.
    destruct (Nat.eq_dec r 0) as [->|N0].
    + cbn [Nat.eqb negb andb]. unfold lo, start in *. cbn [Nat.eqb]. unfold n in *. change (o 0) with 0 in *.
      replace (stop 0 - K + 1 - 0) with (stop 0 - (0 - h) - 0 - K + 1) by lia. apply map_ext. intros k. f_equal; lia.
    + rewrite lo_start in * by lia. replace (r =? 0) with false by (symmetry; apply Nat.eqb_neq; auto). cbn [negb andb].
      assert (EE : e = (if Nat.even K then 1 else 0)) by reflexivity. revert EE. generalize (Nat.even K). intros [|] EE; rewrite EE in *.
      * replace (n - 0 - K + 1) with (S (n - K)) by lia. cbn [seq map skipn]. replace (stop r - K + 1 - (start r + 1)) with (n - K) by (unfold n; lia).
        rewrite (seq_shift' (start r + 1)), (seq_shift' 1), !map_map. apply map_ext. intros k. f_equal. lia.
      * replace (stop r - K + 1 - (start r + 0)) with (n - 0 - K + 1) by (unfold n; lia). rewrite (seq_shift' (start r + 0)), map_map. apply map_ext. intros k. f_equal. lia.
Qed.
Lemma lo_0 : lo 0 = 0. Proof. reflexivity. Qed.
Lemma lo_P : lo P = length A - K + 1.
Proof. unfold lo. rewrite Nat.eqb_refl. destruct (Nat.eqb_spec P 0); [unfold P in *; lia|auto]. Qed.
Lemma K_le_A : K <= length A.
Proof. pose proof (len_window 0 ltac:(unfold P; lia)). lia. Qed.
Theorem ranks_cover : exists ls, all_ok (map rank_out (seq 0 P)) = Ok ls /\ length ls = P /\
  glob ls = map (fun k => corr A w (k * s)) (seq 0 ((length A - K) / s + 1)).
Proof.
  exists (map (fun r => span A w s (lo r) (lo (S r))) (seq 0 P)). split.
  - rewrite (map_ext_in _ (fun r => Ok (span A w s (lo r) (lo (S r))))) by (intros r Hr; apply in_seq in Hr; apply rank_out_span; lia).
    clear. generalize (seq 0 P). intros l. induction l as [|x l IH]; [reflexivity|]. cbn [map all_ok bind]. now rewrite IH.
  - split; [now rewrite map_length, seq_length|]. unfold glob. destruct (span_concat A w s lo P Hs lo_mono) as [-> _]. rewrite lo_0, lo_P. unfold span. rewrite mults_0 by auto. rewrite Nat.sub_0_r.
    rewrite Nat.add_1_r, mults_S by auto. reflexivity.
Qed.
End Windows.
End ConvP.
