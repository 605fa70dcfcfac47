(** Proofs about PrintModel: the rows of the split axis that reach rank 0. *)
From Verif Require Import Base BaseLemmas LayoutModel LayoutProofs NdSpec TensorSpec TensorLemmas NdLemmas OpsModel OpsProofs2 OpsProofs4 RedistModel ShapeModel ShapeProofs4 ShapeProps BinModel BinProofs BinProofs2 MaskProofs ReshapeModel FactoryModel FactoryProps RollModel PrintSpec PrintModel PrintProofs.
Open Scope Z_scope.

Lemma zcounts_nth' n P r : 0 <= n -> (r < P)%nat -> nth r (zcounts n P) 0 = n / Z.of_nat P + (if Z.of_nat r <? n mod Z.of_nat P then 1 else 0).
Proof.
  intros Hn Hr. unfold zcounts. rewrite (nth_indep _ 0 (Z.of_nat 0)) by (rewrite map_length, counts_of_length; auto). rewrite map_nth, counts_of_nth by auto. rewrite clen_val. rewrite Nat2Z.inj_add, Nat2Z.inj_div, Z2Nat.id by auto. f_equal.
  rewrite <- (Z2Nat.id n Hn) at 2. rewrite <- Nat2Z.inj_mod. destruct (Nat.ltb_spec r (Z.to_nat n mod P)), (Z.ltb_spec (Z.of_nat r) (Z.of_nat (Z.to_nat n mod P))); auto; lia.
Qed.

Section Axis.
Context (e : Z) (He : 0 <= e) (n : Z) (Hn : 0 <= n) (P : nat) (HP : (2 <= P)%nat).
Let c := zcounts n P.
Let o (r : nat) := zsum (firstn r c).
Lemma c_len : length c = P. Proof using HP Hn. apply zcounts_ok; lia. Qed.
Lemma c_nonneg r : 0 <= nth r c 0.
Proof using HP Hn.
  destruct (Nat.lt_ge_cases r P); [|rewrite nth_overflow by (rewrite c_len; auto); lia].
  unfold c. rewrite zcounts_nth' by auto. assert (0 <= n / Z.of_nat P) by (apply Z.div_pos; lia). destruct (_ <? _); lia.
Qed.
Lemma o_S r : (r < P)%nat -> o (S r) = o r + nth r c 0.
Proof using HP Hn. intros Hr. unfold o. rewrite zsum_firstn_S by (rewrite c_len; auto). lia. Qed.
Lemma o_0 : o 0%nat = 0. Proof. reflexivity. Qed.
Lemma o_P : o P = n.
Proof using HP Hn. unfold o. rewrite <- c_len, firstn_all. apply zcounts_ok; lia. Qed.
Lemma o_nonneg r : (r <= P)%nat -> 0 <= o r.
Proof using HP Hn. induction r as [|r IH]; intros Hr; [rewrite o_0; lia|]. rewrite o_S by lia. pose proof (c_nonneg r). specialize (IH ltac:(lia)). lia. Qed.
Lemma c_le r : (r < P)%nat -> nth r c 0 <= nth 0 c 0.
Proof using HP Hn. intros Hr. unfold c. rewrite !zcounts_nth' by lia. destruct (Z.ltb_spec (Z.of_nat r) (n mod Z.of_nat P)), (Z.ltb_spec (Z.of_nat 0) (n mod Z.of_nat P)); lia. Qed.
Lemma o_ge r : (1 <= r <= P)%nat -> nth 0 c 0 <= o r.
Proof using HP Hn.
  induction r as [|r IH]; intros Hr; [lia|]. rewrite o_S by lia. destruct r as [|r]; [rewrite o_0; lia|]. specialize (IH ltac:(lia)). pose proof (c_nonneg (S r)). lia.
Qed.
Lemma c0_half : 2 * nth 0 c 0 <= n + 1.
Proof using HP Hn.
  pose proof c_len as L. assert (S1 : o 2%nat = nth 0 c 0 + nth 1 c 0) by (rewrite !o_S by lia; rewrite o_0; lia).
  assert (M : forall k, (2 + k <= P)%nat -> o 2%nat <= o (2 + k)%nat).
  { induction k as [|k IH]; intros Hk; [cbn; lia|]. replace (2 + S k)%nat with (S (2 + k)) by lia. rewrite (o_S (2 + k)) by lia. pose proof (c_nonneg (2 + k)). specialize (IH ltac:(lia)). lia. }
  specialize (M (P - 2)%nat ltac:(lia)). replace (2 + (P - 2))%nat with P in M by lia. rewrite o_P in M.
  assert (nth 0 c 0 <= nth 1 c 0 + 1). { unfold c. rewrite !zcounts_nth' by lia. destruct (Z.of_nat 0 <? _), (Z.of_nat 1 <? _); lia. }
  lia.
Qed.
(** a rank that starts within the first e+1 rows ends before the last e *)
Lemma apart r : (r < P)%nat -> 2 * e < n -> (3 * e <= n \/ (P <= 2)%nat) -> o r <= e -> o (S r) <= n - e.
Proof using HP Hn He.
  intros Hr Hn2 H Ho. destruct r as [|r].
  - rewrite o_S, o_0 by lia. pose proof c0_half. lia.
  - destruct H as [H|H].
    + rewrite o_S by lia. pose proof (c_le (S r) Hr). pose proof (o_ge (S r) ltac:(lia)). lia.
    + exfalso. assert (r = 0)%nat by lia. subst r. rewrite o_S, o_0 in Ho by lia.
      assert (Q : o 2%nat = n) by (replace 2%nat with P by lia; apply o_P). rewrite !o_S, o_0 in Q by lia. pose proof (c_le 1 ltac:(lia)). lia.
Qed.

(** positions kept by rank r, and all of them *)
Definition piece (r : nat) : list Z :=
  if n <=? 2 * e then zr (nth r c 0) else if o r <? e + 1 then range 0 (Z.min (nth r c 0) (e + 1 - o r)) else zr (nth r c 0).
Definition pieces (k : nat) : list Z := concat (map (fun r => map (Z.add (o r)) (piece r)) (seq 0 k)).
Lemma pieces_S k : pieces (S k) = pieces k ++ map (Z.add (o k)) (piece k).
Proof. unfold pieces. rewrite seq_S, map_app, concat_app. cbn [map concat]. now rewrite app_nil_r. Qed.
Lemma pieces_short k : n <= 2 * e -> (k <= P)%nat -> pieces k = range 0 (o k).
Proof using HP Hn.
  intros H. induction k as [|k IH]; intros Hk; [rewrite o_0; reflexivity|]. rewrite pieces_S, IH by lia. unfold piece. replace (n <=? 2 * e) with true by lia.
  rewrite <- range_zr, range_shift, o_S by lia. rewrite Z.add_0_r. apply range_app. pose proof (o_nonneg k ltac:(lia)). pose proof (c_nonneg k). lia.
Qed.
Lemma pieces_long k : 2 * e < n -> (3 * e <= n \/ (P <= 2)%nat) -> (k <= P)%nat ->
  exists X, pieces k = range 0 (Z.min (o k) (e + 1)) ++ range X (o k) /\ X <= o k /\ (o k < e + 1 -> X = o k) /\ (e + 1 <= o k -> e + 1 <= X <= n - e).
Proof using HP Hn He.
  intros H1 H2. induction k as [|k IH]; intros Hk.
  - exists 0. rewrite o_0. repeat split; try lia. rewrite !range_nil by lia. reflexivity.
  - destruct (IH ltac:(lia)) as (X & E & X1 & X2 & X3). rewrite pieces_S, E. unfold piece. replace (n <=? 2 * e) with false by lia. pose proof (o_nonneg k ltac:(lia)) as O0. pose proof (c_nonneg k) as C0. pose proof (o_S k ltac:(lia)) as OS. destruct (Z.ltb_spec (o k) (e + 1)) as [B|B].
    + exists (o (S k)). rewrite (X2 B), (range_nil (o k) (o k)), (range_nil (o (S k)) (o (S k))), !app_nil_r by lia. rewrite Z.min_l by lia. rewrite range_shift, Z.add_0_r.
      pose proof (apart k ltac:(lia) H1 H2 ltac:(lia)). split; [|lia]. rewrite range_app by lia. f_equal. lia.
    + exists X. rewrite <- range_zr, range_shift, Z.add_0_r, <- OS, <- app_assoc. rewrite range_app by lia. rewrite !Z.min_r by lia. split; [reflexivity|]. lia.
Qed.
Lemma pieces_good : (n <= 2 * e \/ 3 * e <= n \/ (P <= 2)%nat) -> good e true n (Z.of_nat (length (pieces P))) (fun j => nth (Z.to_nat j) (pieces P) 0).
Proof using HP Hn He.
  intros H. destruct (Z.le_gt_cases n (2 * e)) as [B|B].
  - left. rewrite pieces_short, o_P by lia. rewrite range_length. split; [lia|]. intros i Hi. rewrite range_nth by lia. lia.
  - right. destruct (pieces_long P ltac:(lia) ltac:(lia) ltac:(lia)) as (X & -> & X1 & _ & X3). rewrite o_P in *. specialize (X3 ltac:(lia)). rewrite Z.min_r by lia. rewrite app_length, !range_length. repeat split; try lia.
    + intros i Hi. rewrite app_nth1 by (rewrite range_length; lia). rewrite range_nth by lia. lia.
    + intros i Hi. rewrite app_nth2 by (rewrite range_length; lia). rewrite range_length, range_nth by lia. lia.
Qed.
End Axis.

Section Gathered.
Context {V : Type} (dflt : V) (e : Z) (He : 0 <= e) (gsh : list Z) (s : nat) (P : nat) (HP : (2 <= P)%nat) (ls : list (arr V)) (G : list Z -> V).
Let nd := length gsh.
Let n := nth s gsh 0.
Let c := zcounts n P.
Hypothesis HR : represents G gsh (Some s) c ls.
Definition other (i : nat) : list Z := if nth i gsh 0 <=? 2 * e then zr (nth i gsh 0) else range 0 (e + 1) ++ range (nth i gsh 0 - e) (nth i gsh 0).
Definition sel (i : nat) : list Z := if (i =? s)%nat then pieces e n P P else other i.
Definition gp : list Z := map (fun i => Z.of_nat (length (sel i))) (seq 0 nd).
Definition H (idx : list Z) : V := G (map (fun i => nth (Z.to_nat (nth i idx 0)) (sel i) 0) (seq 0 nd)).
Definition lens : list Z := map (fun r => Z.of_nat (length (piece e n P r))) (seq 0 P).

Lemma n0 : 0 <= n. Proof using HR. destruct HR as (_ & F & Hs & _). rewrite Forall_forall in F. apply F, nth_In, Hs. Qed.
Lemma len_ls : length ls = P. Proof using HR HP. pose proof n0. destruct HR as (L & _). rewrite L. now apply zcounts_ok; [lia|]. Qed.
Lemma kept_piece r i : (r < P)%nat -> (i < nd)%nat -> kept e gsh s (chunk_start gsh s r P) (upd gsh s (nth r c 0)) i = if (i =? s)%nat then piece e n P r else other i.
Proof using HR HP He.
  intros Hr Hi. pose proof n0 as N0. destruct (chunk_counts gsh s r P ltac:(lia) Hr) as [_ ->]. fold n c. pose proof (c_nonneg n N0 P HP r) as C0. fold c in C0. unfold kept, keep, piece, other. fold c. destruct (Nat.eqb_spec i s) as [->|N]; cbn [negb].
  - fold n. rewrite upd_same by auto. destruct (n <=? 2 * e); [reflexivity|]. destruct (Z.ltb_spec (zsum (firstn r c)) (e + 1)); [reflexivity|]. destruct (Z.ltb_spec (n - e) (zsum (firstn r c) - nth r c 0)); [|reflexivity]. rewrite Z.max_l by lia. apply range_zr.
  - rewrite upd_other by auto. destruct (_ <=? _); reflexivity.
Qed.
Lemma gather_represents : exists ts, all_ok (map (local_part e gsh s P) (combine (seq 0 P) ls)) = Ok ts /\ represents H gp (Some s) lens ts.
Proof using HR HP He.
  pose proof n0 as N0. pose proof len_ls as LL. pose proof HR as (_ & Hg & Hs & Hc & Hsum & HA). assert (Lgp : length gp = nd) by (unfold gp; now rewrite map_length, seq_length).
  assert (LP : zsum lens = Z.of_nat (length (pieces e n P P))).
  { unfold lens, pieces. generalize (seq 0 P). intros l. induction l as [|r l IH]; [reflexivity|]. cbn [map concat]. rewrite app_length, map_length. change (zsum (?a :: ?b)) with (a + zsum b). rewrite IH. lia. }
  destruct (all_ok_Qn (local_part e gsh s P) (fun r t => agrees t (upd gp s (nth r lens 0)) (fun idx => H (move_axis_idx s (zsum (firstn r lens)) idx))) (combine (seq 0 P) ls)) as (ts & E & LT & Q).
  - intros r [r' t] Hx. apply nth_error_combine in Hx as [E1 E2]. cbn [fst snd] in *. assert (Hr : (r < P)%nat) by (rewrite <- LL; apply nth_error_Some; congruence).
    assert (r' = r). { apply (nth_error_nth _ _ 0%nat) in E1. rewrite seq_nth in E1 by auto. lia. } subst r'. destruct (HA r t E2) as [S0 D0].
    unfold local_part. cbn [fst snd]. rewrite S0.
    assert (HL : forall i, (i < nd)%nat -> 0 <= nth i (upd gsh s (nth r c 0)) 0 /\ (i <> s -> nth i (upd gsh s (nth r c 0)) 0 = nth i gsh 0)).
    { intros i Hi. destruct (Nat.eq_dec i s) as [->|N]; [rewrite upd_same by auto; split; [apply (c_nonneg n N0 P HP)|congruence]|]. rewrite upd_other by auto. split; [|auto]. rewrite Forall_forall in Hg. apply Hg, nth_In, Hi. }
    assert (HO : 0 <= chunk_start gsh s r P) by (unfold chunk_start; lia).
    destruct (local_all e He gsh s (chunk_start gsh s r P) (upd gsh s (nth r c 0)) HO ltac:(now rewrite upd_length) HL t (fun idx => G (move_axis_idx s (zsum (firstn r c)) idx)) (conj S0 D0)) as (t' & E & S1 & D1).
    exists t'. split; [exact E|]. fold nd in S1, D1.
    assert (KP : forall i, In i (seq 0 nd) -> kept e gsh s (chunk_start gsh s r P) (upd gsh s (nth r c 0)) i = if (i =? s)%nat then piece e n P r else other i) by (intros i Hi; apply in_seq in Hi; apply kept_piece; auto; lia).
    assert (NL : nth r lens 0 = Z.of_nat (length (piece e n P r))) by (unfold lens; now rewrite (nth_map_seq (fun r => Z.of_nat (length (piece e n P r)))) by auto).
    assert (SH : map (fun i => Z.of_nat (length (kept e gsh s (chunk_start gsh s r P) (upd gsh s (nth r c 0)) i))) (seq 0 nd) = upd gp s (nth r lens 0)).
    { apply (@nth_ext2 _ _ _ 0); [now rewrite upd_length, map_length, seq_length|]. intros i Hi. rewrite map_length, seq_length in Hi. rewrite (nth_map_seq (fun i => Z.of_nat (length (kept e gsh s (chunk_start gsh s r P) (upd gsh s (nth r c 0)) i)))) by auto.
      rewrite KP by (apply in_seq; lia). destruct (Nat.eqb_spec i s) as [->|N]; [rewrite upd_same by lia; auto|]. rewrite upd_other by auto. unfold gp. rewrite (nth_map_seq (fun i => Z.of_nat (length (sel i)))) by auto. unfold sel. now rewrite (proj2 (Nat.eqb_neq i s)) by auto. }
    rewrite SH in S1, D1. split; [exact S1|]. intros idx Hx. rewrite D1 by exact Hx. apply in_bounds_upd_shape in Hx as (LI & HB & _); [|lia]. rewrite NL in HB.
    unfold H. f_equal. apply (@nth_ext2 _ _ _ 0); [unfold move_axis_idx; now rewrite upd_length, !map_length|]. intros i Hi. unfold move_axis_idx in Hi. rewrite upd_length, map_length, seq_length in Hi.
    rewrite (nth_map_seq (fun i => nth (Z.to_nat (nth i (move_axis_idx s (zsum (firstn r lens)) idx) 0)) (sel i) 0)) by auto. unfold move_axis_idx. 
    set (l := map _ (seq 0 nd)). assert (NI : nth i l 0 = nth (Z.to_nat (nth i idx 0)) (if (i =? s)%nat then piece e n P r else other i) 0).
    { unfold l. rewrite (nth_map_seq (fun i => nth (Z.to_nat (nth i idx 0)) (kept e gsh s (chunk_start gsh s r P) (upd gsh s (nth r c 0)) i) 0)) by auto. now rewrite KP by (apply in_seq; lia). }
    assert (Ll : length l = nd) by (unfold l; now rewrite map_length, seq_length). unfold sel. destruct (Nat.eqb_spec i s) as [->|N].
    + rewrite !upd_same by lia. rewrite NI. 
      set (pl := map (fun r => map (Z.add (zsum (firstn r c))) (piece e n P r)) (seq 0 P)). change (pieces e n P P) with (concat pl).
      assert (EL : lens = map (fun l => Z.of_nat (length l)) pl) by (unfold lens, pl; rewrite map_map; apply map_ext; intros; now rewrite map_length).
      assert (NP : nth r pl [] = map (Z.add (zsum (firstn r c))) (piece e n P r)) by (unfold pl; now rewrite (nth_map_seq (fun r => map (Z.add (zsum (firstn r c))) (piece e n P r))) by auto).
      assert (Z0 : 0 <= zsum (firstn r lens)).
      { clear. unfold lens. generalize (seq 0 P). intros l. revert r. induction l as [|q l IH]; intros [|r]; cbn [map firstn]; try (change (zsum []) with 0; lia). change (zsum (?a :: ?b)) with (a + zsum b). specialize (IH r). lia. }
      replace (Z.to_nat (nth s idx 0 + zsum (firstn r lens))) with (Z.to_nat (zsum (firstn r lens)) + Z.to_nat (nth s idx 0%Z))%nat by lia.
      rewrite EL. rewrite nth_concat'.
      * rewrite NP. rewrite (nth_indep (map _ _) 0 (zsum (firstn r c) + 0)) by (rewrite map_length; lia). rewrite (map_nth (Z.add (zsum (firstn r c)))). lia.
      * unfold pl. rewrite map_length, seq_length. auto.
      * rewrite NP, map_length. lia.
    + rewrite upd_other by auto. rewrite upd_other by auto. exact NI.
  - exists ts. split; [exact E|]. rewrite combine_length, seq_length, LL, Nat.min_id in LT. assert (LLn : length lens = P) by (unfold lens; now rewrite map_length, seq_length). repeat split; try lia.
    + apply Forall_forall. intros z Hz. unfold gp in Hz. apply in_map_iff in Hz as (i & <- & _). lia.
    + apply Forall_forall. intros z Hz. unfold lens in Hz. apply in_map_iff in Hz as (i & <- & _). lia.
    + rewrite LP. unfold gp. rewrite (nth_map_seq (fun i => Z.of_nat (length (sel i)))) by auto. unfold sel. now rewrite Nat.eqb_refl.
    + apply (Q r t H0).
    + apply (Q r t H0).
Qed.
Lemma sel_good i : (i < nd)%nat -> (n <= 2 * e \/ 3 * e <= n \/ (P <= 2)%nat) -> good e true (nth i gsh 0) (nth i gp 0) (fun j => nth (Z.to_nat j) (sel i) 0).
Proof using HR HP He.
  intros Hi HC. unfold gp. rewrite (nth_map_seq (fun i => Z.of_nat (length (sel i)))) by auto. unfold sel. destruct (Nat.eqb_spec i s) as [->|N].
  - apply pieces_good; auto. apply n0.
  - pose proof HR as (_ & Hg & _). assert (I0 : 0 <= nth i gsh 0) by (rewrite Forall_forall in Hg; apply Hg, nth_In, Hi). unfold other. destruct (Z.leb_spec (nth i gsh 0) (2 * e)).
    + left. rewrite length_zr. split; [lia|]. intros j Hj. rewrite zr_nth' by lia. lia.
    + right. rewrite app_length, !range_length. repeat split; try lia.
      * intros j Hj. rewrite app_nth1 by (rewrite range_length; lia). rewrite range_nth by lia. lia.
      * intros j Hj. rewrite app_nth2 by (rewrite range_length; lia). rewrite range_length, range_nth by lia. lia.
Qed.
Lemma gather_shown : (n <= 2 * e \/ 3 * e <= n \/ (P <= 2)%nat) ->
  exists ts, all_ok (map (local_part e gsh s P) (combine (seq 0 P) ls)) = Ok ts /\
    torch_str e true (ash (gather_parts dflt s ts)) (adat (gather_parts dflt s ts)) = rows_of e true gsh G.
Proof using HR HP He.
  intros HC. destruct gather_represents as (ts & E & R). exists ts. split; [exact E|].
  assert (Lgp : length gp = nd) by (unfold gp; now rewrite map_length, seq_length).
  assert (SH : upd (ash (hd (mk_arr [] (fun _ => dflt)) ts)) s (zsum (map (fun t => nth s (ash t) 0) ts)) = gp).
  { rewrite (ShapeProofs4.local_counts _ _ _ _ _ R). pose proof R as (LT & _ & Hs & _ & HS & HA). rewrite HS. destruct ts as [|t ts]; [unfold lens in LT; rewrite map_length, seq_length in LT; cbn in LT; lia|]. destruct (HA 0%nat t eq_refl) as [S0 _]. cbn [hd]. rewrite S0, upd_upd. apply upd_self. }
  unfold gather_parts. rewrite SH. pose proof (gather_agrees _ _ _ _ _ dflt R) as [S1 D1]. rewrite S1.
  apply (rows_sel e true He gsh gp (fun i j => nth (Z.to_nat j) (sel i) 0)); auto.
  - apply R.
  - intros i Hi. now apply sel_good.
Qed.
End Gathered.
