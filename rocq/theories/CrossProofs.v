(** Lemmas for C97. *)
From Verif Require Import Base BaseLemmas LayoutModel LayoutProofs NdSpec TensorSpec TensorLemmas NdLemmas OpsModel OpsProofs2 OpsProofs4 OpsProofs5 RedistModel RedistProofs ShapeSpec ShapeModel ShapeProofs ShapeProofs2 ShapeProofs3 ShapeProofs5 ShapeProofs6 ShapeProps BinModel BinOutModel BinProofs BinProofs2 ReshapeModel FactoryModel FactoryProps ConcatSpec ConcatModel ConcatProps CloseProofs2 CrossSpec CrossModel.
Open Scope Z_scope.

Lemma insert_remove {A} (l : list A) s d : (s < length l)%nat -> py_insert (remove_at s l) s (nth s l d) = l.
Proof.
  intros H. apply (@nth_ext2 _ _ _ d); [rewrite py_insert_length, remove_at_length; lia|]. intros i Hi. rewrite py_insert_length, remove_at_length in Hi by auto. rewrite py_insert_nth by (rewrite remove_at_length; lia).
  destruct (Nat.ltb_spec i s); [rewrite remove_at_nth by auto; destruct (Nat.ltb_spec i s); [auto|lia]|]. destruct (Nat.eqb_spec i s) as [->|]; [auto|]. rewrite remove_at_nth by auto. destruct (Nat.ltb_spec (i - 1) s); [lia|]. f_equal. lia.
Qed.
Lemma map_insert {A B} (f : A -> B) l k x : map f (py_insert l k x) = py_insert (map f l) k (f x).
Proof. unfold py_insert. rewrite map_app. cbn [map]. now rewrite <- firstn_map, <- skipn_map. Qed.
Lemma map_remove {A B} (f : A -> B) l k : map f (remove_at k l) = remove_at k (map f l).
Proof. unfold remove_at. now rewrite map_app, <- firstn_map, <- skipn_map. Qed.
Lemma filter_remove s : forall n i, (s < n)%nat -> filter (fun k => negb (mem_nat k [(i + s)%nat])) (seq i n) = remove_at s (seq i n).
Proof.
  assert (F : forall n i t, (t < i)%nat -> filter (fun k => negb (mem_nat k [t])) (seq i n) = seq i n).
  { induction n as [|n IH]; intros i t H; [reflexivity|]. cbn [seq filter]. unfold mem_nat at 1. cbn [existsb]. destruct (Nat.eqb_spec i t); [lia|]. cbn [orb negb]. rewrite IH by lia. reflexivity. }
  induction s as [|s IH]; intros [|n] i H; try lia; cbn [seq filter].
  - unfold mem_nat at 1. cbn [existsb]. rewrite Nat.add_0_r, Nat.eqb_refl. cbn [orb negb]. rewrite F by lia. reflexivity.
  - unfold mem_nat at 1. cbn [existsb]. destruct (Nat.eqb_spec i (i + S s)); [lia|]. cbn [orb negb]. specialize (IH n (S i) ltac:(lia)). replace (S i + s)%nat with (i + S s)%nat in IH by lia. rewrite IH. reflexivity.
Qed.
Lemma nat_axis n k : (k < n)%nat -> norm n (Z.of_nat k) = k.
Proof. intros H. unfold norm. destruct (Z.ltb_spec (Z.of_nat k) 0); lia. Qed.

(** moving one axis *)
Lemma move_ok {V} (x : dnd V) (G : list Z -> V) cnts s d : rep x cnts G -> (s < length (d_gshape x))%nat -> (d < length (d_gshape x))%nat ->
  exists y G', move x s d = Ok y /\ d_gshape y = py_insert (remove_at s (d_gshape x)) d (nth s (d_gshape x) 0) /\
    (d_split x = None -> d_split y = None) /\ (forall p, (S p < length (d_gshape x))%nat -> d_split x = Some (bump s p) -> d_split y = Some (bump d p)) /\ rep y cnts G' /\
    forall idx, in_bounds (d_gshape x) idx -> G' (py_insert (remove_at s idx) d (nth s idx 0)) = G idx.
Proof.
  intros HX Hs Hd. unfold move. destruct (Nat.eqb_spec d s) as [->|N].
  - exists x, G. split; [auto|]. split; [symmetry; now apply insert_remove|]. split; [auto|]. split; [auto|]. split; [auto|]. intros idx Hi. apply in_bounds_length in Hi. rewrite insert_remove by lia. reflexivity.
  - set (n := length (d_gshape x)) in *. unfold moveaxis. fold n. rewrite !norm_axes_ok by (try lia; try (right; lia); intros a [<-|[]]; lia).
    cbn [bind map length Nat.eqb]. rewrite !nat_axis by auto.
    assert (HP : perm_axes n (moveaxis_order n [s] [d])).
    { apply (moveaxis_order_spec n [s] [d] eq_refl).
      - constructor; [intros []|constructor].
      - constructor; [intros []|constructor].
      - intros k [<-|[]]; exact Hs.
      - intros k [<-|[]]; exact Hd. }
    assert (EO : moveaxis_order n [s] [d] = py_insert (remove_at s (seq 0 n)) d s) by (unfold moveaxis_order; cbn [combine sort_pairs fold_right insert_pair fold_left fst snd]; rewrite <- filter_remove by auto; reflexivity).
    rewrite EO in HP |- *. clear EO. set (o := py_insert (remove_at s (seq 0 n)) d s) in *.
    assert (EM : forall l : list Z, length l = n -> map (fun a => nth a l 0) o = py_insert (remove_at s l) d (nth s l 0)).
    { intros l HL. unfold o. rewrite map_insert, map_remove. f_equal. f_equal. apply (@nth_ext2 _ _ _ 0); [now rewrite map_length, seq_length|]. intros i Hi. rewrite map_length, seq_length in Hi. rewrite (nth_indep _ 0 (nth 0%nat l 0)) by (now rewrite map_length, seq_length). change (nth 0%nat l 0) with ((fun a => nth a l 0) 0%nat). rewrite map_nth, seq_nth by auto. reflexivity. }
    destruct (transpose_nat x G cnts o HX HP) as (y & G' & E & ES & EP & R & D). exists y, G'. split; [exact E|]. split; [rewrite ES; now apply EM|]. split; [intros E0; rewrite E0 in EP; exact EP|]. split; [|split; [exact R|]].
    + intros p Hp E0. rewrite E0 in EP. destruct EP as (q & -> & Hq). f_equal. destruct HP as (LO & ND & _).
      assert (Lr : length (remove_at s (seq 0 n)) = (n - 1)%nat) by (rewrite remove_at_length; rewrite seq_length; lia).
      assert (Bd : (bump d p < n)%nat) by (unfold bump; destruct (d <=? p)%nat; lia).
      assert (Hb : nth_error o (bump d p) = Some (bump s p)).
      { rewrite (nth_error_nth' o 0%nat) by lia. f_equal. assert (Bs : (bump s p < n)%nat) by (unfold bump; destruct (s <=? p)%nat; lia).
        transitivity (nth p (remove_at s (seq 0 n)) 0%nat); [|rewrite remove_nth_bump by (rewrite seq_length; lia); rewrite seq_nth by exact Bs; reflexivity].
        unfold o. rewrite py_insert_nth by lia. unfold bump. destruct (Nat.leb_spec d p).
        - destruct (Nat.ltb_spec (S p) d); [lia|]. destruct (Nat.eqb_spec (S p) d); [lia|]. f_equal. lia.
        - destruct (Nat.ltb_spec p d); [reflexivity|lia]. }
      pose proof (proj1 (NoDup_nth_error o) ND q (bump d p)) as X. symmetry. symmetry. apply X; [apply nth_error_Some; congruence|congruence].
    + intros idx Hi. rewrite <- EM by (apply in_bounds_length in Hi; exact Hi). now apply D.
Qed.

Section Cross.
Context {V : Type} (zero : V) (sub mul : V -> V -> V).

(** the third component *)
Definition third (d : Z) (axis : nat) (G : list Z -> V) (idx : list Z) : V := if (d =? 2) && (nth axis idx 0 =? 2) then zero else G idx.
Lemma extend_ok (x : dnd V) (G : list Z -> V) cnts a : rep x cnts G -> (0 < length (d_locals x))%nat -> (a < length (d_gshape x))%nat -> d_split x <> Some a ->
  let d := nth a (d_gshape x) 0 in (d = 2 \/ d = 3) ->
  (d = 2 -> forall s, d_split x = Some s -> cnts = zcounts (nth s (d_gshape x) 0) (length (d_locals x))) ->
  exists y, extend zero x a = Ok y /\ d_gshape y = upd (d_gshape x) a 3 /\ d_split y = d_split x /\ rep y cnts (third d a G).
Proof.
  intros HX HP Ha Ns d Hd HB. unfold extend. fold d. unfold third. destruct (Z.eqb_spec d 2) as [E|E].
  - set (sh := upd (d_gshape x) a 1). set (z := mk_dnd _ sh None).
    assert (HS : cat_shapes (norm (length (d_gshape x)) (Z.of_nat a)) (d_gshape x) (d_gshape z)).
    { rewrite nat_axis by auto. cbn [z d_gshape]. unfold sh. split; [now rewrite upd_length|]. split; [auto|]. intros k Hk Nk. now rewrite upd_other by auto. }
    assert (NN : Forall (fun n => 0 <= n) (d_gshape x)) by (destruct HX as (_ & H & _); exact H).
    assert (HZ : rep z cnts (fun _ => zero)).
    { unfold rep, represents. cbn [z d_locals d_gshape d_split]. rewrite map_length. split; [destruct HX; auto|]. split; [apply Forall_upd; [auto|lia]|]. intros t Ht. apply in_map_iff in Ht as (u & <- & _). split; [reflexivity|reflexivity]. }
    assert (ESH : cat_shape (norm (length (d_gshape x)) (Z.of_nat a)) (d_gshape x) (d_gshape z) = upd (d_gshape x) a 3).
    { unfold cat_shape. rewrite nat_axis by auto. cbn [z d_gshape]. unfold sh. rewrite upd_same by auto. fold d. now rewrite E. }
    assert (EG : forall idx, in_bounds (upd (d_gshape x) a 3) idx -> glue (norm (length (d_gshape x)) (Z.of_nat a)) (nth (norm (length (d_gshape x)) (Z.of_nat a)) (d_gshape x) 0) G (fun _ => zero) idx = (if true && (nth a idx 0 =? 2) then zero else G idx)).
    { intros idx Hi. unfold glue. rewrite nat_axis by auto. fold d. rewrite E. apply in_bounds_nth in Hi as [_ Hi]. rewrite upd_length in Hi. specialize (Hi a Ha). rewrite upd_same in Hi by auto. cbn [andb]. destruct (Z.ltb_spec (nth a idx 0) 2), (Z.eqb_spec (nth a idx 0) 2); auto; lia. }
    assert (VA : valid_axis (length (d_gshape x)) (Z.of_nat a)) by (split; lia). assert (LZ : length (d_locals z) = length (d_locals x)) by (unfold z; cbn [d_locals]; now rewrite map_length).
    destruct (d_split x) as [s|] eqn:Es.
    + destruct (C35_one_replicated_other V zero x z G (fun _ => zero) cnts cnts (Z.of_nat a) (length (d_locals x)) s VA HS HX HZ eq_refl LZ HP) as (y & E1 & E2 & E3 & E4).
      { rewrite nat_axis by auto. congruence. }
      { right. split; [reflexivity|]. split; [auto|]. apply HB; auto. }
      exists y. split; [exact E1|]. split; [now rewrite E2|]. split; [auto|]. rewrite (HB E s eq_refl). unfold rep in *. revert E4. rewrite E2, ESH. apply represents_ext. exact EG.
    + destruct (C35_both_replicated V zero x z G (fun _ => zero) cnts cnts (Z.of_nat a) VA HS HX HZ (eq_sym LZ) Es eq_refl) as (y & E1 & E2 & E3 & E4).
      exists y. split; [exact E1|]. split; [now rewrite E2|]. split; [auto|]. unfold rep in *. revert E4. rewrite E2, ESH. apply represents_ext. exact EG.
  - exists x. split; [reflexivity|]. split; [|split; [reflexivity|exact HX]]. replace 3 with d by lia. unfold d. now rewrite upd_self.
Qed.

Lemma torch_cross_ok dim (t1 t2 : arr V) sh G1 G2 : agrees t1 sh G1 -> agrees t2 sh G2 -> (dim < length sh)%nat -> nth dim sh 0 = 3 ->
  exists t, torch_cross sub mul dim t1 t2 = Ok t /\ agrees t sh (fun idx => cross3 sub mul (fun k => G1 (upd idx dim k)) (fun k => G2 (upd idx dim k)) (nth dim idx 0)).
Proof.
  intros [S1 D1] [S2 D2] Hd H3. unfold torch_cross. rewrite S1, S2, bshape_same, H3. cbn [Z.eqb Pos.eqb andb]. eexists. split; [reflexivity|]. split; [reflexivity|]. intros idx Hi. cbn [adat].
  assert (B : forall i, in_bounds sh (upd idx dim (i mod 3))).
  { intros i. pose proof (Z.mod_pos_bound i 3 ltac:(lia)). apply in_bounds_nth in Hi as [L Hi]. apply in_bounds_nth. rewrite upd_length. split; [auto|]. intros k Hk. specialize (Hi k Hk). destruct (Nat.eq_dec k dim) as [->|Nk]; [rewrite upd_same by lia; lia|now rewrite upd_other by auto]. }
  rewrite !bclamp_in by apply B. rewrite !D1, !D2 by apply B. reflexivity.
Qed.

Lemma combine_nth_error {A B} (l1 : list A) (l2 : list B) : forall r p, nth_error (combine l1 l2) r = Some p -> nth_error l1 r = Some (fst p) /\ nth_error l2 r = Some (snd p).
Proof. revert l2. induction l1 as [|a l1 IH]; intros [|b l2] [|r] p H; try discriminate H; cbn in *; [now injection H as <-|auto]. Qed.

Lemma locals_ok (x y : dnd V) cnts c2 G1 G2 dim : rep x cnts G1 -> rep y c2 G2 -> d_gshape x = d_gshape y -> d_split x = d_split y -> length (d_locals x) = length (d_locals y) ->
  (d_split x <> None -> cnts = c2) -> (dim < length (d_gshape x))%nat -> nth dim (d_gshape x) 0 = 3 -> d_split x <> Some dim ->
  exists ls, all_ok (map (fun p => torch_cross sub mul dim (fst p) (snd p)) (combine (d_locals x) (d_locals y))) = Ok ls /\
    represents (fun idx => cross3 sub mul (fun k => G1 (upd idx dim k)) (fun k => G2 (upd idx dim k)) (nth dim idx 0)) (d_gshape x) (d_split x) cnts ls.
Proof.
  intros HX HY ES EP EL EC Hd H3 Ns. unfold rep in *. rewrite <- ES, <- EP in HY. destruct (d_split x) as [s|].
  - specialize (EC ltac:(congruence)). subst c2. destruct HX as (L1 & NN & Hs & C & SM & Q1). destruct HY as (_ & _ & _ & _ & _ & Q2). assert (Nsd : s <> dim) by congruence.
    destruct (all_ok_Qn (fun p => torch_cross sub mul dim (fst p) (snd p)) (fun r t => agrees t (upd (d_gshape x) s (nth r cnts 0)) (fun idx => cross3 sub mul (fun k => G1 (upd (move_axis_idx s (zsum (firstn r cnts)) idx) dim k)) (fun k => G2 (upd (move_axis_idx s (zsum (firstn r cnts)) idx) dim k)) (nth dim (move_axis_idx s (zsum (firstn r cnts)) idx) 0))) (combine (d_locals x) (d_locals y))) as (ls & E1 & E2 & E3).
    { intros r p Hp. apply combine_nth_error in Hp as [P1 P2]. destruct (torch_cross_ok dim _ _ _ _ _ (Q1 r _ P1) (Q2 r _ P2)) as (t & Et & [St Dt]); [rewrite upd_length; auto|now rewrite upd_other by auto|].
      exists t. split; [exact Et|]. split; [exact St|]. intros idx Hi. rewrite Dt by auto. unfold cross3, move_axis_idx. cbv beta. assert (EN : nth dim (upd idx s (nth s idx 0 + zsum (firstn r cnts))) 0 = nth dim idx 0) by (apply upd_other; auto). rewrite EN.
      assert (EU : forall k, upd (upd idx dim k) s (nth s (upd idx dim k) 0 + zsum (firstn r cnts)) = upd (upd idx s (nth s idx 0 + zsum (firstn r cnts))) dim k) by (intros k; rewrite upd_other by auto; apply upd_comm; auto).
      now rewrite !EU. }
    exists ls. split; [exact E1|]. rewrite combine_length in E2. split; [lia|]. split; [exact NN|]. split; [exact Hs|]. split; [exact C|]. split; [exact SM|]. exact E3.
  - destruct HX as (L1 & NN & Q1). destruct HY as (_ & _ & Q2).
    destruct (all_ok_Qn (fun p => torch_cross sub mul dim (fst p) (snd p)) (fun r t => agrees t (d_gshape x) (fun idx => cross3 sub mul (fun k => G1 (upd idx dim k)) (fun k => G2 (upd idx dim k)) (nth dim idx 0))) (combine (d_locals x) (d_locals y))) as (ls & E1 & E2 & E3).
    { intros r p Hp. apply combine_nth_error in Hp as [P1 P2]. apply (torch_cross_ok dim _ _ _ _ _ (Q1 _ (nth_error_In _ _ P1)) (Q2 _ (nth_error_In _ _ P2))); auto. }
    exists ls. split; [exact E1|]. rewrite combine_length in E2. split; [lia|]. split; [auto|]. intros t Ht. apply In_nth_error in Ht as [r Ht]. exact (E3 r t Ht).
Qed.

(** the last component along [ac], split on an earlier axis *)
Lemma insert_in sh k m idx i : (k <= length sh)%nat -> in_bounds sh idx -> 0 <= i < m -> in_bounds (py_insert sh k m) (py_insert idx k i).
Proof.
  intros Hk Hi Hm. apply in_bounds_nth in Hi as [L Hi]. apply in_bounds_nth. rewrite !py_insert_length. split; [lia|]. intros j Hj. rewrite !py_insert_nth by lia. destruct (Nat.ltb_spec j k); [apply Hi; lia|]. destruct (Nat.eqb_spec j k); [auto|]. apply Hi. lia.
Qed.
Lemma z_slice_ok (H : list Z -> V) osh ac sp cnts ls : (ac <= length osh)%nat -> match sp with None => True | Some p => (p < ac)%nat end ->
  represents H (py_insert osh ac 3) (option_map (bump ac) sp) cnts ls -> represents (fun o => H (py_insert o ac 2)) osh sp cnts (map (z_slice ac) ls).
Proof.
  intros Hac Hsp (HL & NN & R). split; [now rewrite map_length|]. split.
  { apply Forall_nth. intros i d Hi. rewrite (nth_indep _ d 0) by auto. rewrite Forall_forall in NN. apply NN. unfold py_insert. rewrite <- (firstn_skipn ac osh) in Hi |- *. rewrite app_length in Hi. destruct (Nat.lt_ge_cases i (length (firstn ac osh))) as [G|G].
    - rewrite app_nth1 by auto. apply in_or_app. left. rewrite firstn_skipn. apply nth_In. auto.
    - rewrite app_nth2 by auto. apply in_or_app. right. right. rewrite firstn_skipn. apply nth_In. lia. }
  destruct sp as [p|]; cbn [option_map] in R.
  - assert (Eb : bump ac p = p) by (unfold bump; destruct (Nat.leb_spec ac p); lia). rewrite Eb in R. destruct R as (Hs & C & SM & Q). rewrite py_insert_length in Hs. split; [lia|]. split; [auto|]. split; [rewrite SM; rewrite py_insert_nth by auto; destruct (Nat.ltb_spec p ac); [auto|lia]|].
    intros r t Ht. rewrite nth_error_map in Ht. destruct (nth_error ls r) as [u|] eqn:Eu; [|discriminate Ht]. injection Ht as <-. destruct (Q r u Eu) as [S0 D0].
    assert (EI : upd (py_insert osh ac 3) p (nth r cnts 0) = py_insert (upd osh p (nth r cnts 0)) ac 3) by (rewrite insert_upd by lia; now rewrite Eb). rewrite EI in *.
    split; [cbn [z_slice ash]; rewrite S0; apply remove_insert; rewrite upd_length; auto|]. intros o Ho. cbn [z_slice adat]. rewrite S0. rewrite py_insert_nth by (rewrite upd_length; auto). rewrite Nat.ltb_irrefl, Nat.eqb_refl. change (3 - 1) with 2.
    rewrite D0 by (apply insert_in; [rewrite upd_length; auto|auto|lia]). f_equal. apply in_bounds_length in Ho. rewrite upd_length in Ho. unfold move_axis_idx. rewrite insert_upd by lia. rewrite Eb. f_equal. f_equal. rewrite py_insert_nth by lia. destruct (Nat.ltb_spec p ac); [auto|lia].
  - intros t Ht. apply in_map_iff in Ht as (u & <- & Hu). destruct (R u Hu) as [S0 D0]. split; [cbn [z_slice ash]; rewrite S0; now apply remove_insert|]. intros o Ho. cbn [z_slice adat]. rewrite S0. rewrite py_insert_nth by auto. rewrite Nat.ltb_irrefl, Nat.eqb_refl. change (3 - 1) with 2. apply D0. apply insert_in; [auto|auto|lia].
Qed.
End Cross.
