(** Proofs about PrintModel: selections of rows that display the same. *)
From Verif Require Import Base BaseLemmas LayoutModel LayoutProofs NdSpec TensorSpec TensorLemmas NdLemmas OpsModel OpsProofs4 RedistModel ShapeModel BinModel BinProofs2 ReshapeModel FactoryModel FactoryProps RollModel PrintSpec PrintModel.
Open Scope Z_scope.

Lemma range_length a b : length (range a b) = Z.to_nat (b - a).
Proof. unfold range. now rewrite map_length, length_zr. Qed.
Lemma zr_nth' n k : (k < Z.to_nat n)%nat -> nth k (zr n) 0 = Z.of_nat k.
Proof. intros H. unfold zr. now rewrite (nth_map_seq Z.of_nat) by auto. Qed.
Lemma range_nth a b k : (k < Z.to_nat (b - a))%nat -> nth k (range a b) 0 = a + Z.of_nat k.
Proof.
  intros H. unfold range. rewrite (nth_indep _ 0 (a + 0)) by now rewrite map_length, length_zr. rewrite (map_nth (Z.add a)), zr_nth' by auto. reflexivity.
Qed.
Lemma range_in a b x : In x (range a b) <-> a <= x < b.
Proof.
  unfold range, zr. rewrite map_map, in_map_iff. split.
  - intros (k & <- & Hk). apply in_seq in Hk. lia.
  - intros H. exists (Z.to_nat (x - a)). split; [lia|]. apply in_seq. lia.
Qed.
Lemma range_nil a b : b <= a -> range a b = [].
Proof. intros H. apply length_zero_iff_nil. rewrite range_length. lia. Qed.
Lemma range_app a b c : a <= b <= c -> range a b ++ range b c = range a c.
Proof.
  intros H. apply (@nth_ext2 _ _ _ 0); [rewrite app_length, !range_length; lia|]. intros i Hi. rewrite app_length, !range_length in Hi.
  rewrite (range_nth a c) by lia. destruct (Nat.lt_ge_cases i (Z.to_nat (b - a))).
  - rewrite app_nth1 by (rewrite range_length; auto). now apply range_nth.
  - rewrite app_nth2 by (rewrite range_length; auto). rewrite range_length, range_nth by lia. lia.
Qed.
Lemma range_shift o a b : map (Z.add o) (range a b) = range (o + a) (o + b).
Proof. unfold range. rewrite map_map. replace (o + b - (o + a)) with (b - a) by lia. apply map_ext. intros; lia. Qed.
Lemma range_zr n : range 0 n = zr n.
Proof. unfold range. rewrite Z.sub_0_r. rewrite <- (map_id (zr n)) at 2. apply map_ext. intros; lia. Qed.

(** * the displayed tree depends on the selected rows only *)
Definition good (e : Z) (sum : bool) (n m : Z) (f : Z -> Z) : Prop :=
  (m = n /\ forall i, 0 <= i < n -> f i = i) \/
  (sum = true /\ 2 * e < n /\ 2 * e < m /\ (forall i, 0 <= i < e -> f i = i) /\ forall i, 0 <= i < e -> f (m - e + i) = n - e + i).
Lemma map_range_shift {B} (f g : Z -> B) a b a' b' : b - a = b' - a' -> (forall i, 0 <= i < b - a -> f (a + i) = g (a' + i)) -> map f (range a b) = map g (range a' b').
Proof.
  intros E H. unfold range. rewrite !map_map, <- E. apply map_ext_in. intros i Hi. unfold zr in Hi. apply in_map_iff in Hi as (k & <- & Hk). apply in_seq in Hk. apply H. lia.
Qed.
Lemma rows_sel {A} e sum : 0 <= e -> forall sh msh (sel : nat -> Z -> Z) (D G : list Z -> A), length msh = length sh -> Forall (fun n => 0 <= n) msh ->
  (forall i, (i < length sh)%nat -> good e sum (nth i sh 0) (nth i msh 0) (sel i)) ->
  (forall idx, in_bounds msh idx -> D idx = G (map (fun i => sel i (nth i idx 0)) (seq 0 (length sh)))) ->
  torch_str e sum msh D = rows_of e sum sh G.
Proof.
  intros He. induction sh as [|n sh IH]; intros msh sel D G L Hm Hg HD; destruct msh as [|m msh]; try discriminate L; cbn [torch_str rows_of].
  - f_equal. apply HD. constructor.
  - injection L as L. pose proof (Hg 0%nat ltac:(cbn; lia)) as G0. cbn [nth] in G0. inversion Hm; subst.
    assert (R : forall i, 0 <= i < m -> torch_str e sum msh (fun idx => D (i :: idx)) = rows_of e sum sh (fun idx => G (sel 0%nat i :: idx))).
    { intros i Hi. apply (IH msh (fun k => sel (S k))); auto.
      - intros k Hk. apply (Hg (S k)). cbn. lia.
      - intros idx Hx. rewrite HD by (constructor; auto). cbn [length seq map nth]. f_equal. f_equal. rewrite <- seq_shift, map_map. reflexivity. }
    destruct G0 as [(-> & Hs)|(-> & G1 & G2 & G3 & G4)].
    + destruct (sum && (2 * e <? n)) eqn:E.
      * apply andb_true_iff in E as [_ E]. f_equal; apply map_ext_in; intros i Hi; apply range_in in Hi; rewrite R, Hs by lia; reflexivity.
      * f_equal. apply map_ext_in. intros i Hi. apply range_in in Hi. rewrite R, Hs by lia. reflexivity.
    + replace (2 * e <? m) with true by lia. replace (2 * e <? n) with true by lia. cbn [andb]. f_equal.
      * apply map_ext_in. intros i Hi. apply range_in in Hi. rewrite R, G3 by lia. reflexivity.
      * apply map_range_shift; [lia|]. intros i Hi. rewrite R, G4 by lia. reflexivity.
Qed.

(** * one rank *)
Section Local.
Context {V : Type} (e : Z) (He : 0 <= e) (gsh : list Z) (s : nat) (off : Z) (lsh : list Z) (Hoff : 0 <= off).
Let nd := length gsh.
Hypothesis Hlen : length lsh = nd.
Hypothesis Hl : forall i, (i < nd)%nat -> 0 <= nth i lsh 0 /\ (i <> s -> nth i lsh 0 = nth i gsh 0).
Definition kept (i : nat) : list Z := match keep e gsh s off lsh i with Some ps => ps | None => zr (nth i lsh 0) end.
Lemma zr_in n x : In x (zr n) <-> 0 <= x < n.
Proof. rewrite <- range_zr. apply range_in. Qed.
Lemma kept_in i p : (i < nd)%nat -> In p (kept i) -> 0 <= p < nth i lsh 0.
Proof using He Hoff Hl Hlen.
  intros Hi. destruct (Hl i Hi) as [L0 LE]. unfold kept, keep. destruct (Z.leb_spec (nth i gsh 0) (2 * e)); [rewrite zr_in; auto|].
  destruct (Nat.eqb_spec i s) as [->|N]; cbn [negb].
  - destruct (Z.ltb_spec off (e + 1)); [rewrite range_in; lia|]. destruct (_ <? _); [rewrite range_in; lia|rewrite zr_in; auto].
  - rewrite in_app_iff, !range_in. rewrite (LE N). lia.
Qed.
Lemma local_fold (t : arr V) F k : agrees t lsh F -> (k <= nd)%nat ->
  exists tk, fold_left (keep_dim e gsh s off lsh) (seq 0 k) (Ok t) = Ok tk /\
    agrees tk (map (fun i => if (i <? k)%nat then Z.of_nat (length (kept i)) else nth i lsh 0) (seq 0 nd))
      (fun idx => F (map (fun i => if (i <? k)%nat then nth (Z.to_nat (nth i idx 0)) (kept i) 0 else nth i idx 0) (seq 0 nd))).
Proof using He Hoff Hl Hlen.
  intros HT. induction k as [|k IH]; intros Hk.
  - exists t. split; [reflexivity|]. destruct HT as [S0 D0].
    assert (EQ : forall l : list Z, length l = nd -> map (fun i => nth i l 0) (seq 0 nd) = l).
    { intros l E. apply (@nth_ext2 _ _ _ 0); [now rewrite map_length, seq_length|]. intros i Hi. rewrite map_length, seq_length in Hi. now rewrite (nth_map_seq (fun i => nth i l 0)). }
    cbn [Nat.ltb Nat.leb]. split; [rewrite EQ; auto|]. rewrite (EQ lsh) by auto. intros idx Hx. pose proof (in_bounds_length _ _ Hx). rewrite EQ by lia. auto.
  - destruct (IH ltac:(lia)) as (tk & E & S0 & D0). rewrite seq_S, fold_left_app, E. cbn [fold_left Nat.add]. unfold keep_dim. cbn [bind].
    set (sh0 := map _ _) in S0. assert (Lsh : length sh0 = nd) by (unfold sh0; now rewrite map_length, seq_length).
    assert (N0 : nth k sh0 0 = nth k lsh 0).
    { unfold sh0. rewrite (@nth_map_seq _ (fun i => if (i <? k)%nat then Z.of_nat (length (kept i)) else nth i lsh 0)) by lia. now rewrite Nat.ltb_irrefl. }
    set (sh1 := map _ (seq 0 nd)).
    assert (U : sh1 = upd sh0 k (Z.of_nat (length (kept k)))).
    { apply (@nth_ext2 _ _ _ 0); [unfold sh1; rewrite map_length, seq_length, upd_length; auto|]. intros i Hi. unfold sh1 in *. rewrite map_length, seq_length in Hi.
      rewrite (@nth_map_seq _ (fun i => if (i <? S k)%nat then Z.of_nat (length (kept i)) else nth i lsh 0)) by lia. destruct (Nat.eq_dec i k) as [->|N].
      - rewrite upd_same by lia. replace (k <? S k)%nat with true by (symmetry; apply Nat.ltb_lt; lia). reflexivity.
      - rewrite upd_other by auto. unfold sh0. rewrite (@nth_map_seq _ (fun i => if (i <? k)%nat then Z.of_nat (length (kept i)) else nth i lsh 0)) by lia. destruct (Nat.ltb_spec i k), (Nat.ltb_spec i (S k)); auto; lia. }
    assert (IN : forall idx, in_bounds sh1 idx -> in_bounds sh0 (upd idx k (nth (Z.to_nat (nth k idx 0)) (kept k) 0)) /\ length idx = nd /\ (Z.to_nat (nth k idx 0%Z) < length (kept k))%nat /\ 0 <= nth k idx 0).
    { intros idx Hx. rewrite U in Hx. apply in_bounds_upd_shape in Hx as (L & B & HO); [|lia]. split; [|lia]. apply in_bounds_nth. rewrite upd_length. split; [auto|]. intros i Hi. destruct (Nat.eq_dec i k) as [->|N].
      - rewrite upd_same by lia. rewrite N0. apply (kept_in k); [lia|]. apply nth_In. lia.
      - rewrite upd_other by auto. apply HO; lia. }
    assert (VAL : forall idx, in_bounds sh1 idx -> adat tk (upd idx k (nth (Z.to_nat (nth k idx 0)) (kept k) 0)) = F (map (fun i => if (i <? S k)%nat then nth (Z.to_nat (nth i idx 0)) (kept i) 0 else nth i idx 0) (seq 0 nd))).
    { intros idx Hx. destruct (IN idx Hx) as (B & L & _ & _). rewrite D0 by exact B. f_equal. apply map_ext_in. intros i Hi. apply in_seq in Hi. destruct (Nat.eq_dec i k) as [->|N].
      - rewrite Nat.ltb_irrefl, upd_same by lia. replace (k <? S k)%nat with true by (symmetry; apply Nat.ltb_lt; lia). reflexivity.
      - rewrite upd_other by auto. destruct (Nat.ltb_spec i k), (Nat.ltb_spec i (S k)); auto; lia. }
    destruct (keep e gsh s off lsh k) as [ps|] eqn:EK.
    + assert (EP : kept k = ps) by (unfold kept; now rewrite EK). unfold index_select. rewrite S0, N0.
      replace (forallb _ ps) with true; [eexists; split; [reflexivity|]; split; [cbn [ash]; rewrite U, EP; reflexivity|cbn [adat]; rewrite <- EP; exact VAL]|].
      symmetry. apply forallb_forall. intros p Hp. rewrite <- EP in Hp. apply kept_in in Hp; [|lia]. apply andb_true_iff. split; [apply Z.leb_le|apply Z.ltb_lt]; lia.
    + assert (EP : kept k = zr (nth k lsh 0)) by (unfold kept; now rewrite EK). exists tk. split; [reflexivity|]. destruct (Hl k ltac:(lia)) as [L0 _].
      assert (UU : sh1 = sh0) by (rewrite U, EP, length_zr, Z2Nat.id by auto; rewrite <- N0; apply upd_self).
      split; [congruence|]. intros idx Hx. destruct (IN idx Hx) as (_ & L & B & B0). rewrite <- VAL by auto. f_equal. rewrite EP, length_zr in B. rewrite EP, zr_nth' by auto. rewrite Z2Nat.id by auto. symmetry. apply upd_self.
Qed.
Lemma local_all (t : arr V) F : agrees t lsh F ->
  exists t', fold_left (keep_dim e gsh s off lsh) (seq 0 nd) (Ok t) = Ok t' /\
    agrees t' (map (fun i => Z.of_nat (length (kept i))) (seq 0 nd)) (fun idx => F (map (fun i => nth (Z.to_nat (nth i idx 0)) (kept i) 0) (seq 0 nd))).
Proof using He Hoff Hl Hlen.
  intros HT. destruct (local_fold t F nd HT ltac:(lia)) as (t' & E & S0 & D0). exists t'. split; [exact E|].
  assert (ES : forall (B : Type) (f g : nat -> B), map (fun i => if (i <? nd)%nat then f i else g i) (seq 0 nd) = map f (seq 0 nd)).
  { intros B f g. apply map_ext_in. intros i Hi. apply in_seq in Hi. replace (i <? nd)%nat with true by (symmetry; apply Nat.ltb_lt; lia). reflexivity. }
  rewrite ES in S0, D0. split; [auto|]. intros idx Hx. rewrite D0 by auto. now rewrite ES.
Qed.
End Local.
