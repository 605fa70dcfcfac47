From Coq Require Import Permutation Sorted.
From Verif Require Import Base BaseLemmas LayoutModel LayoutProofs NdSpec TensorSpec NdLemmas OpsModel OpsProofs4 BinModel BinProofs2 SortModel SortSpec SortProofs SortProofs2 SortProofs3.
Open Scope Z_scope.

Lemma combine_seq {A B} (a : list A) (b : list B) da db P : length a = P -> length b = P -> combine a b = map (fun i => (nth i a da, nth i b db)) (seq 0 P).
Proof.
  intros <-. revert b. induction a as [|x a IH]; intros [|y b] H; try discriminate; [reflexivity|]. cbn [combine length]. rewrite <- cons_seq. cbn [map nth]. f_equal. rewrite IH by (cbn in H; lia). rewrite <- seq_shift, map_map. reflexivity.
Qed.
Lemma alltoallv_eq {B} (bufs : list (list B)) sc P : length bufs = P -> length sc = P ->
  alltoallv bufs sc = map (fun q => concat (map (fun i => sub (nth i bufs []) (Z.to_nat (zsum (firstn q (nth i sc [])))) (Z.to_nat (nth q (nth i sc []) 0))) (seq 0 P))) (seq 0 P).
Proof. intros H1 H2. unfold alltoallv. rewrite H1. apply map_ext. intros q. rewrite (combine_seq sc bufs [] [] P) by auto. rewrite map_map. reflexivity. Qed.

Lemma len_concat {A} (ls : list (list A)) : Z.of_nat (length (concat ls)) = sum_n (fun r => Z.of_nat (length (nth r ls []))) (length ls).
Proof.
  induction ls as [|l ls IH] using rev_ind; [reflexivity|]. rewrite concat_app, !app_length, Nat.add_1_r. cbn [concat sum_n]. rewrite app_nil_r, Nat2Z.inj_add, IH. rewrite app_nth2, Nat.sub_diag by lia. cbn [nth]. f_equal. apply sum_n_ext. intros i Hi. now rewrite app_nth1.
Qed.
Lemma nth_map_seq_d {A} (f : nat -> A) n i d : (i < n)%nat -> nth i (map f (seq 0 n)) d = f i.
Proof. intros. now rewrite (@nth_map_seq). Qed.

Lemma cstart_mono n i j P : (0 < P)%nat -> (i <= j)%nat -> (cstart n i P <= cstart n j P)%nat.
Proof. intros HP Hij. induction Hij; [auto|]. rewrite cstart_S by auto. lia. Qed.

Section SortPairs.
Context {V : Type} (dv : V) (lt : V -> V -> bool) (ts : bool -> list V -> list nat).
Hypothesis HS : sorts dv lt ts.
Lemma sort_pairs_perm desc l : Permutation (sort_pairs dv ts desc l) l.
Proof.
  unfold sort_pairs. destruct (HS desc (map fst l)) as [HP _]. rewrite map_length in HP.
  transitivity (map (fun i => nth i l (dv, 0)) (ts desc (map fst l))); [|apply perm_nth; auto]. erewrite map_ext_in; [apply Permutation_refl|]. intros i Hi.
  assert (Hl : (i < length l)%nat) by (apply (Permutation_in i HP) in Hi; apply in_seq in Hi; lia).
  rewrite (nth_indep _ dv (fst (dv, 0))) by (now rewrite map_length). rewrite (nth_indep (map snd l) 0 (snd (dv, 0))) by (now rewrite map_length). rewrite !map_nth. now destruct (nth i l (dv, 0)).
Qed.
Lemma sort_pairs_order desc l : in_order lt desc (map fst (sort_pairs dv ts desc l)).
Proof. unfold sort_pairs. rewrite map_map. cbn [fst]. apply HS. Qed.
End SortPairs.

Section Sort.
Context {V : Type} (dv : V) (lt : V -> V -> bool) (ts : bool -> list V -> list nat) (cast : Z -> Z) (desc : bool).
Variables (n : nat) (P : nat) (lane : list (list V)).
Hypothesis HW : weak_order lt.
Hypothesis HS : sorts dv lt ts.
Hypothesis HN : (0 < n)%nat.
Hypothesis HP : (1 < P)%nat.
Hypothesis HL : lens lane = counts_of n P.
Let c := cmp lt desc.
Notation SS := (StronglySorted (nle c)).

Lemma casym x y : c x y = true -> c y x = false.
Proof. destruct HW as [H _]. unfold c, cmp. destruct desc; apply H. Qed.
Lemma cneg x y z : c x y = false -> c y z = false -> c x z = false.
Proof. destruct HW as [_ H]. unfold c, cmp. destruct desc; intros; eapply H; eauto. Qed.
Lemma order_SS l : in_order lt desc l <-> SS l.
Proof. unfold in_order, nle, c, cmp. destruct desc; tauto. Qed.

Lemma lane_len : length lane = P. Proof. rewrite <- (counts_of_length n P), <- HL. unfold lens. now rewrite map_length. Qed.
Let len (r : nat) : nat := length (nth r lane []).
Lemma len_val r : (r < P)%nat -> len r = clen n r P.
Proof. intros H. unfold len. rewrite <- lens_nth, HL. now apply counts_of_nth. Qed.
Let off (r : nat) : nat := cstart n r P.
Lemma off_psum r : (r <= P)%nat -> psum (lens lane) r = off r.
Proof. intros. rewrite HL. apply counts_of_psum; lia. Qed.
Let counts := zcounts (Z.of_nat n) P.
Lemma counts_len : length counts = P. Proof. unfold counts, zcounts. now rewrite map_length, counts_of_length. Qed.
Lemma counts_nth r : (r < P)%nat -> nth r counts 0 = Z.of_nat (len r).
Proof. intros H. unfold counts, zcounts. rewrite Nat2Z.id. change 0 with (Z.of_nat 0). rewrite map_nth. rewrite counts_of_nth by auto. now rewrite len_val. Qed.
Lemma counts_sum r : (r <= P)%nat -> zsum (firstn r counts) = Z.of_nat (off r).
Proof.
  induction r as [|r IH]; intros Hr; [cbn; unfold off; now rewrite cstart_0 by lia|]. rewrite zsum_firstn_S by (rewrite counts_len; lia). rewrite IH, counts_nth by lia. unfold off. rewrite cstart_S by lia. rewrite len_val by lia. lia.
Qed.
Lemma total : off P = n. Proof. unfold off. apply cstart_P. lia. Qed.

Lemma off_end r : (r < P)%nat -> (off r + len r <= n)%nat.
Proof. intros H. rewrite len_val by auto. unfold off. rewrite <- cstart_S by lia. transitivity (cstart n P P); [apply cstart_mono; lia|]. fold (off P). rewrite total. auto. Qed.

(** the local sorts *)
Let S_ (r : nat) : list V := map (fun i => nth i (nth r lane []) dv) (ts desc (nth r lane [])).
Let lsr (r : nat) : list (V * Z) := map (fun i => (nth i (nth r lane []) dv, cast (cast (Z.of_nat i) + zsum (firstn r counts)))) (ts desc (nth r lane [])).
Let ls := map lsr (seq 0 P).
Lemma ls_eq : map (fun p => map (fun i => (nth i (snd p) dv, cast (cast (Z.of_nat i) + zsum (firstn (fst p) counts)))) (ts desc (snd p))) (combine (seq 0 P) lane) = ls.
Proof.
  rewrite (combine_seq (seq 0 P) lane 0%nat [] P) by (try apply seq_length; apply lane_len). rewrite map_map. unfold ls, lsr. apply map_ext_in. intros r Hr. apply in_seq in Hr. cbn [fst snd]. now rewrite seq_nth by lia.
Qed.
Lemma S_ls r : map fst (lsr r) = S_ r. Proof. unfold lsr, S_. rewrite map_map. reflexivity. Qed.
Lemma S_SS r : SS (S_ r). Proof. apply order_SS. apply HS. Qed.
Lemma S_perm r : Permutation (S_ r) (nth r lane []). Proof. apply perm_nth. apply HS. Qed.
Lemma S_len r : length (S_ r) = len r. Proof. apply Permutation_length, S_perm. Qed.
Lemma lsr_len r : length (lsr r) = len r. Proof. rewrite <- S_len, <- S_ls. now rewrite map_length. Qed.

(** the pivots *)
Let pv (r : nat) : list V := if Nat.eqb (len r) 0 then [] else samples dv P (S_ r).
Lemma pivs_eq : all_ok (map (fun p => local_pivots dv P (fst p) (map fst (snd p))) (combine counts ls)) = Ok (map pv (seq 0 P)).
Proof.
  rewrite (combine_seq counts ls 0 [] P) by (try apply counts_len; unfold ls; rewrite map_length, seq_length; auto). rewrite map_map. cbn [fst snd].
  assert (G : forall l, (forall r, In r l -> (r < P)%nat) -> all_ok (map (fun r => local_pivots dv P (nth r counts 0) (map fst (nth r ls []))) l) = Ok (map pv l)).
  { induction l as [|r l IH]; intros Hl; cbn [map all_ok]; [reflexivity|]. assert (Hr : (r < P)%nat) by (apply Hl; cbn; auto). rewrite IH by (intros; apply Hl; cbn; auto).
    assert (E : local_pivots dv P (nth r counts 0) (map fst (nth r ls [])) = Ok (pv r)).
    { unfold ls. rewrite nth_map_seq_d by auto. rewrite S_ls, counts_nth by auto. unfold local_pivots, pv. destruct (Nat.eqb_spec (len r) 0) as [E|N]; [now rewrite E|]. replace (Z.of_nat (len r) =? 0) with false by lia.
      assert (L := S_len r). destruct (S_ r) as [|v s] eqn:Es; [cbn in L; lia|]. reflexivity. }
    rewrite E. reflexivity. }
  apply G. intros r Hr. apply in_seq in Hr. lia.
Qed.
Let allp := concat (map pv (seq 0 P)).
Let npop : nat := length (filter (fun r => negb (Nat.eqb (len r) 0)) (seq 0 P)).
Lemma allp_len : length allp = (P * npop)%nat.
Proof.
  unfold allp, npop. assert (G : forall l, length (concat (map pv l)) = (P * length (filter (fun r => negb (Nat.eqb (len r) 0)) l))%nat).
  { induction l as [|r l IH]; cbn [map concat filter length]; [lia|]. rewrite app_length, IH. unfold pv. destruct (Nat.eqb_spec (len r) 0); cbn [negb length]; [lia|]. rewrite samples_length. lia. }
  apply G.
Qed.
Lemma npop_pos : (0 < npop)%nat.
Proof.
  unfold npop. destruct (filter _ _) eqn:E; [|cbn; lia]. exfalso. rewrite (@filter_nil_iff) in E. specialize (E 0%nat ltac:(apply in_seq; lia)). cbv beta in E. rewrite len_val in E by lia. rewrite clen_val in E.
  destruct (Nat.ltb_spec 0 (n mod P)); [lia|]. assert (n / P <> 0)%nat; [|lia]. intros E0. apply Nat.div_small_iff in E0; [|lia]. rewrite Nat.mod_small in H by lia. lia.
Qed.
Lemma npop_le : (npop <= P)%nat. Proof. unfold npop. rewrite <- (seq_length P 0) at 2. apply filter_length_le'. Qed.

Let sp := map (fun i => nth i allp dv) (ts desc allp).
Lemma sp_SS : SS sp. Proof. apply order_SS. apply HS. Qed.
Lemma sp_perm : Permutation sp allp. Proof. apply perm_nth. apply HS. Qed.
Lemma sp_len : length sp = (P * npop)%nat. Proof. rewrite (Permutation_length sp_perm). apply allp_len. Qed.
Let gpq (q : nat) : V := nth ((q + 1) * npop) sp dv.
Lemma gp_eq : global_pivots dv ts desc P allp = Ok (map gpq (seq 0 (P - 1))).
Proof.
  unfold global_pivots. fold sp. assert (L := sp_len). assert (NP := npop_pos). assert (Hne : sp <> []) by (intros E; rewrite E in L; cbn in L; nia).
  assert (E : map (fun x => nth (x * length sp / P) sp dv) (seq 1 (P - 1)) = map gpq (seq 0 (P - 1))).
  { rewrite <- seq_shift, map_map. apply map_ext. intros q. unfold gpq. f_equal. rewrite L. replace (S q * (P * npop))%nat with (((q + 1) * npop) * P)%nat by nia. apply Nat.div_mul. lia. }
  destruct sp; [congruence|]. now rewrite E.
Qed.
Let gp := map gpq (seq 0 (P - 1)).
Lemma gp_nth q : (q < P - 1)%nat -> nth q gp dv = gpq q. Proof. intros. unfold gp. now rewrite nth_map_seq_d. Qed.
Lemma gp_idx q : (q < P - 1)%nat -> ((q + 1) * npop < length sp)%nat.
Proof. intros H. rewrite sp_len. assert (NP := npop_pos). apply Nat.mul_lt_mono_pos_r; lia. Qed.
Lemma gp_mono q q' : (q <= q')%nat -> (q' < P - 1)%nat -> nle c (gpq q) (gpq q').
Proof.
  intros H H'. destruct (Nat.eq_dec q q') as [->|N]; [apply (irr c casym)|]. apply (SS_nth (nle c) sp dv); [apply sp_SS|]. assert (I := gp_idx q' H'). split; [|auto]. assert (NP := npop_pos). apply Nat.mul_lt_mono_pos_r; lia.
Qed.

(** buckets *)
Let mq (r q : nat) : nat := match q with O => 0%nat | S p => if Nat.eqb q P then len r else cnt c (gpq p) (S_ r) end.
Lemma mq_mono r q : (q < P)%nat -> (mq r q <= mq r (S q))%nat.
Proof.
  intros H. unfold mq. destruct q as [|q]; [lia|]. replace (Nat.eqb (S q) P) with false by lia. destruct (Nat.eqb_spec (S (S q)) P); [rewrite <- S_len; apply cnt_le|]. apply (cnt_mono c casym cneg). apply gp_mono; lia.
Qed.
Lemma mq_P r : mq r P = len r. Proof. unfold mq. destruct P; [lia|]. now rewrite Nat.eqb_refl. Qed.
Lemma mq_le r q : (q <= P)%nat -> (mq r q <= len r)%nat.
Proof. intros H. unfold mq. destruct q; [lia|]. destruct (Nat.eqb (S q) P); [lia|]. rewrite <- S_len. apply cnt_le. Qed.
Let scr (r : nat) := partitions lt desc P gp (S_ r).
Lemma lt_sum p s : zsum (map (fun v => b2z (cmp lt desc v p)) s) = Z.of_nat (cnt c p s).
Proof. unfold cnt. induction s as [|v s IH]; [reflexivity|]. cbn [map filter]. change (zsum (?x :: ?l)) with (x + zsum l). rewrite IH. fold c. unfold b2z. destruct (c v p); cbn [length]; lia. Qed.
Lemma scr_nth r q : (q < P)%nat -> nth q (scr r) 0 = Z.of_nat (mq r (S q) - mq r q).
Proof.
  intros H. unfold scr, partitions. rewrite nth_map_seq_d by auto. assert (M := mq_mono r q H). rewrite Nat2Z.inj_sub by auto.
  assert (LT : forall j, (j < P - 1)%nat -> nth j (map (fun p => zsum (map (fun v => b2z (cmp lt desc v p)) (S_ r))) gp) 0 = Z.of_nat (cnt c (gpq j) (S_ r))).
  { intros j Hj. unfold gp. rewrite map_map. rewrite nth_map_seq_d by auto. apply lt_sum. }
  f_equal.
  - cbn [mq]. destruct (Nat.eqb_spec q (P - 1)); destruct (Nat.eqb_spec (S q) P); try lia; [now rewrite S_len|]. apply LT. lia.
  - unfold mq. destruct q as [|q]; [reflexivity|]. replace (Nat.eqb (S q) P) with false by lia. apply LT. lia.
Qed.
Lemma scr_len r : length (scr r) = P. Proof. unfold scr, partitions. now rewrite map_length, seq_length. Qed.
Lemma scr_sum r q : (q <= P)%nat -> zsum (firstn q (scr r)) = Z.of_nat (mq r q).
Proof. induction q as [|q IH]; intros H; [reflexivity|]. rewrite zsum_firstn_S by (rewrite scr_len; lia). rewrite IH, scr_nth by lia. assert (M := mq_mono r q ltac:(lia)). lia. Qed.
Let sc := map scr (seq 0 P).
Lemma sc_eq : map (fun l => partitions lt desc P gp (map fst l)) ls = sc.
Proof. unfold ls, sc. rewrite map_map. apply map_ext. intros r. now rewrite S_ls. Qed.

Let bucket (q : nat) : list (V * Z) := concat (map (fun r => sub (lsr r) (mq r q) (mq r (S q) - mq r q)) (seq 0 P)).
Let first := map bucket (seq 0 P).
Lemma first_eq : alltoallv ls sc = first.
Proof.
  rewrite (alltoallv_eq ls sc P) by (unfold ls, sc; rewrite map_length, seq_length; auto). unfold first, bucket. apply map_ext_in. intros q Hq. apply in_seq in Hq. f_equal. apply map_ext_in. intros r Hr. apply in_seq in Hr.
  unfold ls, sc. rewrite !nth_map_seq_d by lia. rewrite scr_sum, scr_nth by lia. now rewrite !Nat2Z.id.
Qed.
Lemma first_perm : Permutation (concat first) (concat ls).
Proof.
  unfold first, bucket. rewrite (concat_swap (fun r q => sub (lsr r) (mq r q) (mq r (S q) - mq r q)) (seq 0 P) (seq 0 P)). unfold ls.
  erewrite map_ext; [apply Permutation_refl|]. intros r. cbv beta.
  assert (G : forall k, (k <= P)%nat -> concat (map (fun q => sub (lsr r) (mq r q) (mq r (S q) - mq r q)) (seq 0 k)) = sub (lsr r) 0 (mq r k)).
  { induction k as [|k IH]; intros Hk; [reflexivity|]. rewrite seq_S, map_app, concat_app, IH by lia. cbn [map concat]. rewrite app_nil_r, Nat.add_0_l. assert (M := mq_mono r k ltac:(lia)).
    rewrite (sub_app_sub (lsr r) 0 (mq r k)). f_equal. lia. }
  rewrite G by lia. rewrite mq_P, <- lsr_len. apply sub_all.
Qed.
Let pm := map (fun q => zsum (map (fun row => nth q row 0) sc)) (seq 0 P).
Lemma pm_nth q : (q < P)%nat -> nth q pm 0 = sum_n (fun r => Z.of_nat (mq r (S q) - mq r q)) P.
Proof.
  intros H. unfold pm. rewrite nth_map_seq_d by auto. rewrite zsum_sum_n. unfold sc. rewrite !map_length, seq_length. apply sum_n_ext. intros r Hr.
  rewrite map_map. rewrite nth_map_seq_d by auto. now apply scr_nth.
Qed.
Lemma pm_len : length pm = P. Proof. unfold pm. now rewrite map_length, seq_length. Qed.
Lemma pm_sum q : (q <= P)%nat -> zsum (firstn q pm) = sum_n (fun r => Z.of_nat (mq r q)) P.
Proof.
  induction q as [|q IH]; intros H; [cbn; symmetry; apply sum_n_0; auto|]. rewrite zsum_firstn_S by (rewrite pm_len; lia). rewrite IH, pm_nth by lia. rewrite <- sum_n_plus. apply sum_n_ext. intros r Hr. assert (M := mq_mono r q ltac:(lia)). lia.
Qed.
Lemma bucket_len q : (q < P)%nat -> Z.of_nat (length (bucket q)) = nth q pm 0.
Proof.
  intros H. unfold bucket. rewrite len_concat, map_length, seq_length. rewrite pm_nth by auto. apply sum_n_ext. intros r Hr. rewrite nth_map_seq_d by auto. rewrite sub_length; [auto|]. rewrite lsr_len. assert (M := mq_mono r q H). assert (M2 := mq_le r (S q) ltac:(lia)). lia.
Qed.
Lemma bucket_in q x : (q < P)%nat -> In x (bucket q) -> ((q < P - 1)%nat -> c (fst x) (gpq q) = true) /\ ((0 < q)%nat -> c (fst x) (gpq (q - 1)) = false).
Proof.
  intros Hq Hx. unfold bucket in Hx. apply in_concat in Hx as (l & Hl & Hx). apply in_map_iff in Hl as (r & <- & Hr). apply (In_nth _ _ (dv, 0)) in Hx as (i & Hi & E).
  assert (M := mq_mono r q Hq). assert (M2 := mq_le r (S q) ltac:(lia)). rewrite sub_length in Hi by (rewrite lsr_len; lia). rewrite sub_nth in E by auto. set (k := (mq r q + i)%nat) in *.
  assert (Hk : (k < length (S_ r))%nat) by (rewrite S_len; unfold k; lia).
  assert (EF : fst x = nth k (S_ r) dv). { rewrite <- E. rewrite <- S_ls. rewrite (nth_indep _ dv (fst (dv, 0))) by (rewrite map_length, lsr_len, <- S_len; auto). now rewrite map_nth. }
  rewrite EF. split.
  - intros H. apply (cnt_prefix dv c cneg _ _ (S_SS r) k Hk). unfold k, mq in *. replace (Nat.eqb (S q) P) with false in * by lia. lia.
  - intros H. apply not_true_iff_false. rewrite (cnt_prefix dv c cneg _ _ (S_SS r) k Hk). destruct q as [|q]; [lia|]. cbn [Nat.sub]. rewrite Nat.sub_0_r. unfold k, mq. replace (Nat.eqb (S q) P) with false by lia. lia.
Qed.

(** ** the cumulated bucket sizes never run ahead by more than one rank *)
Lemma ahead q : (S q < P)%nat -> zsum (firstn (S q) pm) <= zsum (firstn (S (S q)) counts).
Proof.
  intros H. rewrite pm_sum, counts_sum by lia. unfold off, cstart, chunk_1d.
  assert (E : sum_n (fun r => Z.of_nat (mq r (S q))) P <= (Z.of_nat q + 2) * Z.of_nat (n / P) + Z.min (Z.of_nat q + 2) (Z.of_nat (n mod P))).
  { assert (MB := Nat.mod_upper_bound n P ltac:(lia)).
    apply (arith_bound P q (Z.of_nat (n / P)) (Z.of_nat (n mod P)) (Z.of_nat npop) _ (fun r => Z.of_nat (cnt c (gpq q) (pv r))));
      [exact H|apply Nat2Z.is_nonneg|split; [apply Nat2Z.is_nonneg|now apply inj_lt]|apply Nat2Z.is_nonneg| | | | ].
    - intros r Hr. split; [lia|]. unfold pv. destruct (Nat.eqb (len r) 0); [cbn; lia|]. assert (X := cnt_le c (gpq q) (samples dv P (S_ r))). rewrite samples_length in X. lia.
    - intros r Hr. assert (EL : Z.of_nat (n / P) + (if Z.of_nat r <? Z.of_nat (n mod P) then 1 else 0) = Z.of_nat (len r)).
      { rewrite len_val by auto. rewrite clen_val. destruct (Nat.ltb_spec r (n mod P)), (Z.ltb_spec (Z.of_nat r) (Z.of_nat (n mod P))); lia. }
      rewrite EL. unfold mq. replace (Nat.eqb (S q) P) with false by lia. unfold pv. destruct (Nat.eqb_spec (len r) 0) as [E0|N0].
      + assert (X := cnt_le c (gpq q) (S_ r)). rewrite S_len in X. replace (cnt c (gpq q) (S_ r)) with 0%nat by lia. rewrite E0. lia.
      + assert (X := local_bound dv c casym cneg P (S_ r) (gpq q) (S_SS r) ltac:(rewrite S_len; lia)). rewrite S_len in X. lia.
    - assert (X := cnt_concat c casym cneg (gpq q) (map pv (seq 0 P))). fold allp in X. rewrite map_length, seq_length in X.
      rewrite (sum_n_ext _ (fun r => Z.of_nat (cnt c (gpq q) (nth r (map pv (seq 0 P)) [])))) by (intros i Hi; now rewrite nth_map_seq_d). rewrite <- X.
      unfold cnt. rewrite (filter_len_perm _ _ _ (Permutation_sym sp_perm)). fold (cnt c (gpq q) sp). assert (Y := cnt_at dv c casym cneg sp ((q + 1) * npop) sp_SS (gp_idx q ltac:(lia))). fold (gpq q) in Y. lia.
    - assert (Y := npop_le). lia. }
  eapply Z.le_trans; [exact E|]. destruct (Nat.ltb_spec (S (S q)) (n mod P)); cbn [fst]; lia.
Qed.
Lemma mq_total : sum_n (fun r => Z.of_nat (mq r P)) P = Z.of_nat n.
Proof. rewrite (sum_n_ext _ (fun r => nth r counts 0)) by (intros r Hr; rewrite mq_P, counts_nth; auto). rewrite <- zsum_firstn_sum_n by (rewrite counts_len; auto). rewrite counts_sum by lia. now rewrite total. Qed.

Lemma pm_pos : Forall (fun x => 0 <= x) pm.
Proof. apply Forall_forall. intros x Hx. apply (In_nth _ _ 0) in Hx as (q & Hq & <-). rewrite pm_len in Hq. rewrite <- bucket_len by auto. apply Nat2Z.is_nonneg. Qed.
Lemma counts_pos : Forall (fun x => 0 <= x) counts.
Proof. apply Forall_forall. intros x Hx. apply (In_nth _ _ 0) in Hx as (q & Hq & <-). rewrite counts_len in Hq. rewrite counts_nth by auto. lia. Qed.
Lemma pref k : (k < P)%nat -> nth k counts 0 = 0 -> zsum (firstn k counts) = zsum (firstn P counts).
Proof.
  intros Hk E. rewrite !counts_sum by lia. rewrite counts_nth, len_val in E by auto. rewrite total. unfold off, cstart, chunk_1d. rewrite clen_val in E. destruct (Nat.ltb_spec k (n mod P)); [lia|]. cbn [fst].
  assert (D0 : (n / P = 0)%nat) by lia. apply Nat.div_small_iff in D0; [|lia]. rewrite Nat.mod_small in * by lia. rewrite Nat.div_small by lia. lia.
Qed.
Lemma sv_ok : exists sv, send_vec pm counts = Ok sv /\ wf P sv /\ forall i j, (i < P)%nat -> (j < P)%nat -> mat sv i j = overlap (fun i => zsum (firstn i pm)) (fun j => zsum (firstn j counts)) i j.
Proof.
  apply send_vec_ok; [apply pm_len|apply counts_len|apply pm_pos|apply counts_pos| |apply ahead|apply pref].
  rewrite <- (firstn_all2 pm (n := P)) by (rewrite pm_len; lia). rewrite <- (firstn_all2 counts (n := P)) by (rewrite counts_len; lia). rewrite pm_sum, counts_sum by lia. rewrite mq_total, total. auto.
Qed.

(** ** the second exchange cuts the sorted buckets into the target blocks *)
Let G := map (sort_pairs dv ts desc) first.
Lemma G_len : length G = P. Proof. unfold G, first. now rewrite !map_length, seq_length. Qed.
Lemma G_nth q : (q < P)%nat -> nth q G [] = sort_pairs dv ts desc (bucket q).
Proof. intros H. unfold G, first. rewrite map_map. now rewrite nth_map_seq_d. Qed.
Lemma Gq_len q : (q < P)%nat -> Z.of_nat (length (nth q G [])) = nth q pm 0.
Proof. intros H. rewrite G_nth by auto. rewrite (Permutation_length (sort_pairs_perm dv lt ts HS desc (bucket q))). now apply bucket_len. Qed.
Lemma G_psum q : (q <= P)%nat -> Z.of_nat (psum (lens G) q) = zsum (firstn q pm).
Proof. induction q as [|q IH]; intros H; [reflexivity|]. rewrite psum_S by (rewrite lens_length, G_len; lia). rewrite zsum_firstn_S by (rewrite pm_len; lia). rewrite Nat2Z.inj_add, IH, lens_nth, Gq_len by lia. auto. Qed.
Lemma G_sorted : SS (map fst (concat G)).
Proof.
  rewrite concat_map. apply concat_sorted.
  - intros q Hq. rewrite map_length, G_len in Hq. rewrite (nth_indep _ [] (map fst (@nil (V * Z)))) by (rewrite map_length, G_len; auto). rewrite (map_nth (map fst)). rewrite G_nth by auto. apply order_SS. apply (sort_pairs_order dv lt ts HS).
  - intros q q' x y Hq Hx Hy. rewrite map_length, G_len in Hq. rewrite (nth_indep _ [] (map fst (@nil (V * Z)))) in Hx by (rewrite map_length, G_len; lia). rewrite (nth_indep _ [] (map fst (@nil (V * Z)))) in Hy by (rewrite map_length, G_len; lia). rewrite (map_nth (map fst)) in Hx, Hy. rewrite G_nth in Hx, Hy by lia.
    apply in_map_iff in Hx as (x' & <- & Hx). apply in_map_iff in Hy as (y' & <- & Hy).
    apply (Permutation_in _ (sort_pairs_perm dv lt ts HS desc (bucket q))) in Hx. apply (Permutation_in _ (sort_pairs_perm dv lt ts HS desc (bucket q'))) in Hy.
    destruct (bucket_in q x' ltac:(lia) Hx) as [B1 _]. destruct (bucket_in q' y' ltac:(lia) Hy) as [_ B2]. specialize (B1 ltac:(lia)). specialize (B2 ltac:(lia)).
    unfold nle. apply not_true_iff_false. intros E. assert (X1 : c (fst y') (gpq q) = true). { apply (down c cneg (gpq q) (fst y') (fst x')); [|auto]. unfold nle. now apply casym. }
    assert (X2 := up c cneg _ _ _ X1 (gp_mono q (q' - 1) ltac:(lia) ltac:(lia))). congruence.
Qed.
Lemma G_total : length (concat G) = n.
Proof. apply Nat2Z.inj. assert (X := G_psum P ltac:(lia)). rewrite psum_all in X by (rewrite lens_length, G_len; lia). change (concat G) with (glob G). rewrite glob_length, X. rewrite pm_sum by lia. apply mq_total. Qed.

Lemma second_eq sv : wf P sv -> (forall i j, (i < P)%nat -> (j < P)%nat -> mat sv i j = overlap (fun i => zsum (firstn i pm)) (fun j => zsum (firstn j counts)) i j) ->
  alltoallv G sv = map (fun j => sub (concat G) (off j) (len j)) (seq 0 P).
Proof.
  intros W M. rewrite (alltoallv_eq G sv P) by (try apply G_len; apply W). apply map_ext_in. intros j Hj. apply in_seq in Hj.
  assert (OJ : (off j <= off (S j))%nat) by (unfold off; rewrite cstart_S by lia; lia). assert (LJ : len j = (off (S j) - off j)%nat) by (unfold off; rewrite cstart_S, len_val by lia; lia).
  rewrite LJ. rewrite cut_blocks by auto. rewrite G_len. f_equal. apply map_ext_in. intros i Hi. apply in_seq in Hi.
  rewrite (row_sum_mat P) by (auto; lia). rewrite (sum_n_ext _ (fun j => overlap (fun i => zsum (firstn i pm)) (fun j => zsum (firstn j counts)) i j)) by (intros; apply M; lia).
  change (nth j (nth i sv []) 0) with (mat sv i j). rewrite M by lia.
  rewrite (O_row P pm counts pm_len counts_len pm_pos counts_pos ahead pref). unfold overlap. rewrite !counts_sum by lia. rewrite <- !G_psum by lia.
  rewrite psum_S by (rewrite lens_length, G_len; lia). rewrite lens_nth. set (L := length (nth i G [])). set (p := psum (lens G) i). f_equal; lia.
Qed.

(** ** the initial pairs *)
Hypothesis HC : forall i, 0 <= i < Z.of_nat n -> cast i = i.
Lemma ls_perm : Permutation (concat ls) (map (fun g => (nth g (concat lane) dv, Z.of_nat g)) (seq 0 n)).
Proof.
  transitivity (concat (map (fun r => map (fun g => (nth g (concat lane) dv, Z.of_nat g)) (seq (off r) (len r))) (seq 0 P))).
  - unfold ls. assert (G0 : forall l, (forall r, In r l -> (r < P)%nat) -> Permutation (concat (map lsr l)) (concat (map (fun r => map (fun g => (nth g (concat lane) dv, Z.of_nat g)) (seq (off r) (len r))) l))).
    { induction l as [|r l IH]; intros Hl; cbn [map concat]; [auto|]. apply Permutation_app; [|apply IH; intros; apply Hl; cbn; auto]. assert (Hr : (r < P)%nat) by (apply Hl; cbn; auto).
      unfold lsr. destruct (HS desc (nth r lane [])) as [HPm _]. rewrite (Permutation_map _ HPm). fold (len r).
      assert (ES : seq (off r) (len r) = map (fun i => (off r + i)%nat) (seq 0 (len r))).
      { rewrite <- (Nat.add_0_r (off r)) at 1. generalize 0%nat as s. generalize (len r) as m. clear. induction m as [|m IH]; intros s; [reflexivity|]. cbn [seq map]. f_equal. rewrite plus_n_Sm. apply IH. }
      rewrite ES, map_map. erewrite map_ext_in; [apply Permutation_refl|]. intros i Hi. apply in_seq in Hi. cbv beta. f_equal.
      - rewrite <- (off_psum r) by lia. symmetry. apply (glob_nth lane r dv). fold (len r). lia.
      - rewrite counts_sum by lia. assert (X := off_end r Hr).
        rewrite (HC (Z.of_nat i)) by lia. rewrite HC by lia. lia. }
    apply G0. intros r Hr. apply in_seq in Hr. lia.
  - assert (G0 : forall k, (k <= P)%nat -> concat (map (fun r => map (fun g => (nth g (concat lane) dv, Z.of_nat g)) (seq (off r) (len r))) (seq 0 k)) = map (fun g => (nth g (concat lane) dv, Z.of_nat g)) (seq 0 (off k))).
    { induction k as [|k IH]; intros Hk; [unfold off; rewrite cstart_0 by lia; reflexivity|]. rewrite seq_S, map_app, concat_app, IH by lia. cbn [map concat]. rewrite app_nil_r, Nat.add_0_l. rewrite <- map_app. f_equal. unfold off at 3. rewrite cstart_S by lia. rewrite <- len_val by lia. fold (off k). now rewrite seq_app. }
    rewrite G0 by lia. rewrite total. apply Permutation_refl.
Qed.

Theorem sort_lane_ok : exists out, sort_lane dv lt ts cast desc (Z.of_nat n) lane = Ok out /\
  map (@length (V * Z)) out = counts_of n P /\ in_order lt desc (map fst (concat out)) /\
  Permutation (concat out) (map (fun g => (nth g (concat lane) dv, Z.of_nat g)) (seq 0 n)).
Proof.
  unfold sort_lane. cbv zeta. rewrite lane_len. fold counts. rewrite ls_eq. rewrite pivs_eq. cbn [bind]. fold allp. rewrite gp_eq. cbn [bind]. fold gp. rewrite sc_eq. fold pm. rewrite first_eq.
  destruct sv_ok as (sv & -> & W & M). cbn [bind]. fold G. rewrite (second_eq sv W M). eexists. split; [reflexivity|].
  set (blocks := map (fun j => sub (concat G) (off j) (len j)) (seq 0 P)).
  assert (BL : forall j, (j < P)%nat -> length (sub (concat G) (off j) (len j)) = len j).
  { intros j Hj. apply sub_length. rewrite G_total. now apply off_end. }
  assert (BC : concat blocks = concat G).
  { assert (E : list_sum (lens lane) = length (concat G)) by (rewrite HL, counts_of_sum, G_total by lia; auto). assert (X := @concat_blocks _ (concat G) (lens lane) E).
    etransitivity; [|exact X]. unfold blocks. rewrite lens_length, lane_len. f_equal. apply map_ext_in. intros j Hj. apply in_seq in Hj. rewrite off_psum by lia. rewrite lens_nth. reflexivity. }
  assert (FA : Forall2 (fun b o => Permutation o b) blocks (map (sort_pairs dv ts desc) blocks)).
  { clear BC. induction blocks as [|b bs IH]; cbn [map]; constructor; auto. apply (sort_pairs_perm dv lt ts HS). }
  split; [|split].
  - rewrite map_map. unfold blocks. rewrite map_map. rewrite <- HL. rewrite <- (map_nth_seq (lens lane) 0%nat). rewrite lens_length, lane_len. apply map_ext_in. intros j Hj. apply in_seq in Hj.
    rewrite (Permutation_length (sort_pairs_perm dv lt ts HS desc _)). rewrite BL by lia. now rewrite lens_nth.
  - apply order_SS. rewrite concat_map. apply (blocks_sorted (nle c) (map (map fst) blocks)); [|rewrite <- concat_map, BC; apply G_sorted].
    clear BC FA. induction blocks as [|b bs IH]; cbn [map]; constructor; auto. split; [apply Permutation_map, (sort_pairs_perm dv lt ts HS)|apply order_SS, (sort_pairs_order dv lt ts HS)].
  - transitivity (concat blocks).
    + clear BC. induction FA as [|b o bs os H _ IH]; cbn [concat]; [auto|]. now apply Permutation_app.
    + rewrite BC. transitivity (concat first); [|rewrite first_perm; apply ls_perm]. unfold G. generalize first as F. clear - HS. intros F. induction F as [|l f IH]; cbn [map concat]; [auto|]. apply Permutation_app; auto. apply (sort_pairs_perm dv lt ts HS).
Qed.
End Sort.
