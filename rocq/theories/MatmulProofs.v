(** Local products, slices, in-place additions and the broadcast loop. *)
From Verif Require Import Base BaseLemmas LayoutModel TensorSpec NdSpec TensorLemmas NdLemmas OpsModel OpsProofs2 OpsProofs4 ShapeModel ShapeProps BinModel BinSpec BinProofs BinProofs2 ReshapeModel FactoryModel FactoryProps MatmulSpec MatmulModel.
Open Scope Z_scope.

(** ** index bookkeeping for the last two axes *)
Section Idx.
Context {X : Type}.
Lemma len2 (bs : list X) x y : length (bs ++ [x; y]) = (length bs + 2)%nat. Proof. now rewrite app_length. Qed.
Lemma upd_r0 (bs : list X) x y v : upd (bs ++ [x; y]) (length bs) v = bs ++ [v; y].
Proof. induction bs; cbn; [reflexivity|]. now f_equal. Qed.
Lemma upd_r1 (bs : list X) x y v : upd (bs ++ [x; y]) (S (length bs)) v = bs ++ [x; v].
Proof. induction bs; cbn; [reflexivity|]. now f_equal. Qed.
Lemma nth_r0 (bs : list X) x y d : nth (length bs) (bs ++ [x; y]) d = x.
Proof. rewrite app_nth2, Nat.sub_diag; auto. Qed.
Lemma nth_r1 (bs : list X) x y d : nth (S (length bs)) (bs ++ [x; y]) d = y.
Proof. rewrite app_nth2 by lia. now replace (S (length bs) - length bs)%nat with 1%nat by lia. Qed.
Lemma first_bs (bs : list X) l : firstn (length bs) (bs ++ l) = bs.
Proof. rewrite firstn_app, Nat.sub_diag, firstn_all, firstn_O. apply app_nil_r. Qed.
End Idx.
Lemma in_bounds_2 bs x y idx : in_bounds (bs ++ [x; y]) idx <-> exists js i j, idx = js ++ [i; j] /\ in_bounds bs js /\ 0 <= i < x /\ 0 <= j < y.
Proof.
  split.
  - intros H. apply Forall2_app_inv_l in H as (js & l & H1 & H2 & ->). inversion H2 as [|? i ? l' Hi H3]; subst. inversion H3 as [|? j ? l'' Hj H4]; subst. inversion H4; subst.
    exists js, i, j. auto.
  - intros (js & i & j & -> & H1 & H2 & H3). apply Forall2_app; [exact H1|]. repeat constructor; auto; lia.
Qed.
Lemma in_len bs js : in_bounds bs js -> length js = length bs. Proof. apply in_bounds_length. Qed.

Definition M2 {V} (t : arr V) (bs : list Z) (x y : Z) (F : list Z -> Z -> Z -> V) : Prop :=
  ash t = bs ++ [x; y] /\ forall js i j, in_bounds bs js -> 0 <= i < x -> 0 <= j < y -> adat t (js ++ [i; j]) = F js i j.
Lemma M2_agrees {V} (t : arr V) bs x y (G : list Z -> V) : agrees t (bs ++ [x; y]) G <-> M2 t bs x y (fun js i j => G (js ++ [i; j])).
Proof.
  split; intros [H1 H2]; split; auto.
  - intros js i j A B C. apply H2. apply in_bounds_2. eauto 8.
  - intros idx Hi. apply in_bounds_2 in Hi as (js & i & j & -> & A & B & C). auto.
Qed.
Lemma M2_ext {V} (t : arr V) bs x y F F' : M2 t bs x y F -> (forall js i j, in_bounds bs js -> 0 <= i < x -> 0 <= j < y -> F js i j = F' js i j) -> M2 t bs x y F'.
Proof. intros [H1 H2] H. split; auto. intros. rewrite H2 by auto. auto. Qed.
Lemma bshape_same sh : bshape sh sh = Ok sh.
Proof. induction sh as [|a sh IH]; [reflexivity|]. cbn [bshape]. unfold bdim. rewrite Z.eqb_refl. cbn [bind]. now rewrite IH. Qed.
Lemma fits_same sh : fits sh sh = true.
Proof. unfold fits. rewrite bshape_same. now apply eqb_idx_eq. Qed.
Lemma bclamp_in sh : forall idx, in_bounds sh idx -> bclamp sh idx = idx.
Proof. induction sh as [|n sh IH]; intros idx H; inversion H as [|? i ? idx' Hi H']; subst; cbn; [reflexivity|]. rewrite IH by auto. destruct (Z.eqb_spec n 1); f_equal; lia. Qed.

Section M.
Context {V : Type}.
Variables (zero : V) (add mul : V -> V -> V).
Notation bsum f l := (fold_right add zero (map f l)).

Lemma mm_M2 a b bs x y K A B : 0 <= K -> M2 a bs x K A -> M2 b bs K y B ->
  exists c, mm zero add mul a b = Ok c /\ M2 c bs x y (fun js i j => bsum (fun k => mul (A js i k) (B js k j)) (zr K)).
Proof.
  intros HK [Ea Ha] [Eb Hb]. unfold mm. rewrite Ea, Eb, !len2. replace (length bs + 2 - 1)%nat with (S (length bs)) by lia. replace (length bs + 2 - 2)%nat with (length bs) by lia.
  rewrite !nth_r1, nth_r0, !first_bs, Nat.eqb_refl, Z.eqb_refl. replace (2 <=? length bs + 2)%nat with true by (symmetry; apply Nat.leb_le; lia).
  assert (E : eqb_idx bs bs = true) by (now apply eqb_idx_eq). rewrite E. cbn [andb]. eexists. split; [reflexivity|]. split; [cbn; now rewrite upd_r1|].
  intros js i j Hj Hi Hjj. cbn [adat]. f_equal. apply map_ext_in. intros k Hk. apply in_zr in Hk. rewrite <- (in_len _ _ Hj), upd_r0, upd_r1. now rewrite Ha, Hb.
Qed.

Lemma slice_r1 (t : arr V) bs x y F st sp : M2 t bs x y F -> 0 <= st <= sp -> sp <= y ->
  M2 (slice_axis (S (length bs)) st sp t) bs x (sp - st) (fun js i j => F js i (j + st)).
Proof.
  intros [E H] H1 H2. unfold slice_axis. rewrite E, nth_r1. rewrite !Z.min_l, Z.max_r by lia. split; [cbn; now rewrite upd_r1|].
  intros js i j Hj Hi Hjj. cbn [adat]. unfold move_axis_idx. rewrite <- (in_len _ _ Hj), nth_r1, upd_r1. apply H; auto; lia.
Qed.
Lemma slice_r0 (t : arr V) bs x y F st sp : M2 t bs x y F -> 0 <= st <= sp -> sp <= x ->
  M2 (slice_axis (length bs) st sp t) bs (sp - st) y (fun js i j => F js (i + st) j).
Proof.
  intros [E H] H1 H2. unfold slice_axis. rewrite E, nth_r0. rewrite !Z.min_l, Z.max_r by lia. split; [cbn; now rewrite upd_r0|].
  intros js i j Hj Hi Hjj. cbn [adat]. unfold move_axis_idx. rewrite <- (in_len _ _ Hj), nth_r0, upd_r0. apply H; auto; lia.
Qed.

Lemma iadd_M2 c t bs x y F H : M2 c bs x y F -> M2 t bs x y H ->
  exists c', iadd add c t = Ok c' /\ M2 c' bs x y (fun js i j => add (F js i j) (H js i j)).
Proof.
  intros [Ec Hc] [Et Ht]. unfold iadd. rewrite Ec, Et, fits_same. eexists. split; [reflexivity|]. split; [reflexivity|].
  intros js i j Hj Hi Hjj. cbn [adat]. rewrite bclamp_in by (apply in_bounds_2; eauto 8). now rewrite Hc, Ht.
Qed.
Lemma iadd_block_M2 c t bs x y F H r0 r1 c0 c1 : M2 c bs x y F -> 0 <= r0 <= x -> r0 <= r1 -> 0 <= c0 <= c1 -> c1 <= y ->
  M2 t bs (Z.min r1 x - r0) (c1 - c0) H ->
  exists c', iadd_block add r0 r1 c0 c1 c t = Ok c' /\
    M2 c' bs x y (fun js i j => if (r0 <=? i) && (i <? r1) && (c0 <=? j) && (j <? c1) then add (F js i j) (H js (i - r0) (j - c0)) else F js i j).
Proof.
  intros [Ec Hc] R0 R1 C0 C1 [Et Ht]. unfold iadd_block. rewrite Ec, len2. replace (length bs + 2 - 1)%nat with (S (length bs)) by lia. replace (length bs + 2 - 2)%nat with (length bs) by lia.
  assert (ES : ash (slice_axis (S (length bs)) c0 c1 (slice_axis (length bs) r0 r1 c)) = bs ++ [Z.min r1 x - r0; c1 - c0]).
  { unfold slice_axis. cbn [ash]. rewrite Ec. repeat (rewrite ?upd_r0, ?upd_r1, ?nth_r0, ?nth_r1). f_equal. repeat apply f_equal2; try reflexivity; lia. }
  rewrite ES, Et, fits_same. eexists. split; [reflexivity|]. split; [reflexivity|].
  intros js i j Hj Hi Hjj. cbn [adat]. rewrite <- (in_len _ _ Hj), nth_r0, nth_r1.
  destruct ((r0 <=? i) && (i <? r1) && (c0 <=? j) && (j <? c1)) eqn:E; [|now apply Hc].
  repeat rewrite andb_true_iff in E. rewrite !Z.leb_le, !Z.ltb_lt in E. rewrite upd_r0, upd_r1. rewrite Hc by auto. f_equal.
  rewrite bclamp_in by (apply in_bounds_2; exists js, (i - r0), (j - c0); repeat split; auto; lia). apply Ht; auto; lia.
Qed.
Lemma zeros_M2 bs x y : M2 (zeros zero (bs ++ [x; y])) bs x y (fun _ _ _ => zero).
Proof. split; reflexivity. Qed.

(** ** sums *)
Hypothesis S : sums zero add.
Lemma bsum_app {X} (f : X -> V) l1 l2 : bsum f (l1 ++ l2) = add (bsum f l1) (bsum f l2).
Proof. destruct S as (AS & Z0 & _). induction l1 as [|a l IH]; cbn; [now rewrite Z0|]. now rewrite IH, AS. Qed.
Lemma bsum_split f u v : 0 <= u -> 0 <= v -> bsum f (zr (u + v)) = add (bsum f (zr u)) (bsum (fun k => f (k + u)) (zr v)).
Proof.
  intros Hu Hv. rewrite zr_app, bsum_app by auto. f_equal. rewrite map_map. f_equal. apply map_ext. intros; f_equal; lia.
Qed.

(** ** the loop with pre-fetching runs the work on all chunks in order *)
Lemma bcast_loop_fold P chunk (work : nat -> arr V -> arr V -> res (arr V)) c :
  bcast_loop P chunk work c = fold_left (fun m q => do c <- m; work q (chunk q) c) (seq 0 P) (Ok c).
Proof.
  unfold bcast_loop, pre_fetching. replace (P + 1)%nat with (Datatypes.S P) by lia.
  set (step := fun (m : res (arr V * list (nat * arr V))) proc => _).
  set (st := fold_left (fun m q => do c <- m; work q (chunk q) c)).
  assert (Q : forall k, (k <= P)%nat ->
     fold_left step (seq 0 (Datatypes.S k)) (Ok (c, [])) =
       do c' <- st (seq 0 k) (Ok c); Ok (c', if (k <? P)%nat then [(k, chunk k)] else [])).
  { induction k as [|k IH]; intros Hk.
    - cbn [seq fold_left]. unfold st, step. cbn [seq fold_left bind Nat.leb]. destruct (0 <? P)%nat; reflexivity.
    - rewrite seq_S, fold_left_app, IH by lia. cbn [plus fold_left]. unfold st. rewrite seq_S, fold_left_app. cbn [plus fold_left]. fold st.
      destruct (st (seq 0 k) (Ok c)) as [c'|e]; cbn [bind]; [|unfold step; reflexivity].
      replace (k <? P)%nat with true by (symmetry; apply Nat.ltb_lt; lia). unfold step. cbn [bind Nat.leb].
      replace (Datatypes.S k - 1)%nat with k by lia.
      assert (F : find (fun p => Nat.eqb (fst p) k) (if (Datatypes.S k <? P)%nat then (Datatypes.S k, chunk (Datatypes.S k)) :: [(k, chunk k)] else [(k, chunk k)]) = Some (k, chunk k)).
      { destruct (Datatypes.S k <? P)%nat; cbn [find fst]; [replace (Datatypes.S k =? k)%nat with false by (symmetry; apply Nat.eqb_neq; lia)|]; now rewrite Nat.eqb_refl. }
      rewrite F. cbn [snd]. destruct (work k (chunk k) c'); cbn [bind]; [|reflexivity]. f_equal. f_equal.
      destruct (Datatypes.S k <? P)%nat; cbn [filter fst]; [replace (Datatypes.S k =? k)%nat with false by (symmetry; apply Nat.eqb_neq; lia)|]; rewrite Nat.eqb_refl; reflexivity. }
  rewrite (Q P (le_n _)). fold (st (seq 0 P) (Ok c)). destruct (st (seq 0 P) (Ok c)); reflexivity.
Qed.
Lemma fold_inv (work : nat -> arr V -> res (arr V)) (I : nat -> arr V -> Prop) P c : I 0%nat c ->
  (forall q c, (q < P)%nat -> I q c -> exists c', work q c = Ok c' /\ I (Datatypes.S q) c') ->
  exists c', fold_left (fun m q => do c <- m; work q c) (seq 0 P) (Ok c) = Ok c' /\ I P c'.
Proof.
  intros H0 HS. assert (Q : forall k, (k <= P)%nat -> exists c', fold_left (fun m q => do c <- m; work q c) (seq 0 k) (Ok c) = Ok c' /\ I k c').
  { induction k as [|k IH]; intros Hk; [exists c; auto|]. destruct (IH ltac:(lia)) as (c' & E & Hc). rewrite seq_S, fold_left_app, E. cbn [plus fold_left bind].
    apply HS; auto. }
  now apply Q.
Qed.
End M.

(** ** pieces of a distributed matrix *)
Lemma rep_row {V} (G : list Z -> V) bs m K cnts ls r t : represents G (bs ++ [m; K]) (Some (length bs)) cnts ls -> nth_error ls r = Some t ->
  M2 t bs (nth r cnts 0) K (fun js i j => G (js ++ [i + zsum (firstn r cnts); j])).
Proof.
  intros (_ & _ & _ & _ & _ & H) Ht. specialize (H r t Ht). rewrite upd_r0 in H. apply M2_agrees in H. eapply M2_ext; [exact H|].
  intros js i j Hj Hi Hjj. cbn. unfold move_axis_idx. now rewrite <- (in_len _ _ Hj), nth_r0, upd_r0.
Qed.
Lemma rep_col {V} (G : list Z -> V) bs m K cnts ls r t : represents G (bs ++ [m; K]) (Some (S (length bs))) cnts ls -> nth_error ls r = Some t ->
  M2 t bs m (nth r cnts 0) (fun js i j => G (js ++ [i; j + zsum (firstn r cnts)])).
Proof.
  intros (_ & _ & _ & _ & _ & H) Ht. specialize (H r t Ht). rewrite upd_r1 in H. apply M2_agrees in H. eapply M2_ext; [exact H|].
  intros js i j Hj Hi Hjj. cbn. unfold move_axis_idx. now rewrite <- (in_len _ _ Hj), nth_r1, upd_r1.
Qed.
Lemma rows_rep {V} (G : list Z -> V) bs m K cnts ls : length ls = length cnts -> Forall (fun n => 0 <= n) (bs ++ [m; K]) -> Forall (fun c => 0 <= c) cnts -> zsum cnts = m ->
  (forall r t, nth_error ls r = Some t -> M2 t bs (nth r cnts 0) K (fun js i j => G (js ++ [i + zsum (firstn r cnts); j]))) ->
  represents G (bs ++ [m; K]) (Some (length bs)) cnts ls.
Proof.
  intros HL HN HC HS H. split; [auto|]. split; [auto|]. split; [rewrite len2; lia|]. split; [auto|]. split; [now rewrite nth_r0|].
  intros r t Ht. rewrite upd_r0. apply M2_agrees. eapply M2_ext; [now apply H|]. intros js i j Hj Hi Hjj. cbn. unfold move_axis_idx. now rewrite <- (in_len _ _ Hj), nth_r0, upd_r0.
Qed.
Lemma cols_rep {V} (G : list Z -> V) bs m K cnts ls : length ls = length cnts -> Forall (fun n => 0 <= n) (bs ++ [m; K]) -> Forall (fun c => 0 <= c) cnts -> zsum cnts = K ->
  (forall r t, nth_error ls r = Some t -> M2 t bs m (nth r cnts 0) (fun js i j => G (js ++ [i; j + zsum (firstn r cnts)]))) ->
  represents G (bs ++ [m; K]) (Some (S (length bs))) cnts ls.
Proof.
  intros HL HN HC HS H. split; [auto|]. split; [auto|]. split; [rewrite len2; lia|]. split; [auto|]. split; [now rewrite nth_r1|].
  intros r t Ht. rewrite upd_r1. apply M2_agrees. eapply M2_ext; [now apply H|]. intros js i j Hj Hi Hjj. cbn. unfold move_axis_idx. now rewrite <- (in_len _ _ Hj), nth_r1, upd_r1.
Qed.
