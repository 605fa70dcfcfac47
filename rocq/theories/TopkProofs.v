From Coq Require Import Permutation Sorted.
From Verif Require Import Base BaseLemmas NdSpec TensorSpec NdLemmas TensorLemmas OpsModel ShapeModel ArgModel SortSpec SortModel SortNd SortProps TopkSpec TopkModel.
Open Scope Z_scope.

Section T.
Context {V : Type} (lt : V -> V -> bool) (largest : bool).
Hypothesis HW : weak_order lt.
Notation le := (beats lt largest).
Definition btr (x y : V) : bool := if largest then lt x y else lt y x.     (* y is strictly better *)
Lemma btr_neg x y z : btr x y = true -> btr x z = true \/ btr z y = true.
Proof.
  unfold btr. destruct HW as [W1 W2]. destruct largest; intros H.
  - destruct (lt x z) eqn:A; [auto|]. destruct (lt z y) eqn:B; [auto|]. rewrite (W2 _ _ _ A B) in H. discriminate.
  - destruct (lt z x) eqn:A; [auto|]. destruct (lt y z) eqn:B; [auto|]. rewrite (W2 _ _ _ B A) in H. discriminate.
Qed.
Lemma btr_irr x : btr x x = false.
Proof. unfold btr. destruct HW as [W1 _]. destruct largest; (destruct (lt x x) eqn:E; [now rewrite (W1 _ _ E) in E|auto]). Qed.
Definition cnt (f : V -> bool) (l : list V) : nat := length (filter f l).
Lemma cnt_perm f l l' : Permutation l l' -> cnt f l = cnt f l'.
Proof. unfold cnt. induction 1; cbn; auto; [destruct (f x); cbn; auto|destruct (f x), (f y); auto|congruence]. Qed.
Lemma cnt_app f l l' : cnt f (l ++ l') = (cnt f l + cnt f l')%nat.
Proof. unfold cnt. now rewrite filter_app, app_length. Qed.
Lemma cnt_all f l : (forall x, In x l -> f x = true) -> cnt f l = length l.
Proof. unfold cnt. induction l as [|a l IH]; intros H; [auto|]. cbn. rewrite (H a (or_introl eq_refl)). cbn. rewrite IH; auto. intros; apply H; right; auto. Qed.
Lemma cnt_none f l : (forall x, In x l -> f x = false) -> cnt f l = 0%nat.
Proof. unfold cnt. induction l as [|a l IH]; intros H; [auto|]. cbn. rewrite (H a (or_introl eq_refl)). apply IH. intros; apply H; right; auto. Qed.
Lemma cnt_le f l : (cnt f l <= length l)%nat.
Proof. unfold cnt. induction l as [|a l IH]; cbn; [lia|destruct (f a); cbn; lia]. Qed.
Lemma cnt_lt f l x : In x l -> f x = false -> (cnt f l < length l)%nat.
Proof. intros H E. apply in_split in H as (a & b & ->). rewrite cnt_app, app_length. cbn [length]. change (x :: b) with ([x] ++ b). rewrite cnt_app. assert (A := cnt_le f a). assert (B := cnt_le f b). unfold cnt at 2. cbn. rewrite E. cbn. lia. Qed.

(** the k best of the k best of two parts *)
Lemma top_merge k l1 l2 a b c : top_of lt largest k l1 a -> top_of lt largest k l2 b -> top_of lt largest k (a ++ b) c -> top_of lt largest k (l1 ++ l2) c.
Proof.
  intros (La & ra & Pa & Ha) (Lb & rb & Pb & Hb) (Lc & rc & Pc & Hc). split; [auto|]. exists (rc ++ ra ++ rb). split.
  - rewrite <- Pa, <- Pb. rewrite app_assoc, Pc. rewrite <- !app_assoc. apply Permutation_app_head. rewrite !app_assoc. apply Permutation_app_tail. apply Permutation_app_comm.
  - assert (X : forall y a', (forall z, In z a' -> In z (a ++ b)) -> cnt (fun _ => true) a' = k -> (forall f, (cnt f a' <= cnt f (a ++ b))%nat) -> (forall z, In z a' -> le z y) -> forall x, In x c -> le x y).
    { intros y a' HI HL HCN HZ x Hx. destruct (btr x y) eqn:E; [|exact E]. exfalso.
      assert (A1 : cnt (btr x) a' = k). { rewrite <- HL. rewrite !cnt_all; auto. intros z Hz. destruct (btr_neg _ _ z E) as [|B]; [auto|]. specialize (HZ z Hz). unfold beats in HZ. unfold btr in B. congruence. }
      assert (A2 := HCN (btr x)). rewrite <- (cnt_perm _ _ _ Pc), cnt_app in A2. rewrite (cnt_none (btr x) rc) in A2 by (intros z Hz; apply (Hc x z Hx Hz)). assert (A3 := cnt_lt (btr x) c x Hx (btr_irr x)). lia. }
    intros x y Hx Hy. apply in_app_or in Hy as [Hy|Hy]; [auto|]. apply in_app_or in Hy as [Hy|Hy].
    + apply (X y a); auto; [intros; apply in_or_app; auto|rewrite cnt_all; auto|intros f; rewrite cnt_app; lia].
    + apply (X y b); auto; [intros; apply in_or_app; auto|rewrite cnt_all; auto|intros f; rewrite cnt_app; lia].
Qed.
Lemma top_perm k l l' c : Permutation l l' -> top_of lt largest k l c -> top_of lt largest k l' c.
Proof. intros HP (L & r & Q & H). split; [auto|]. exists r. split; [now rewrite Q|auto]. Qed.

(** elements no better than all others do not change the k best values *)
Hypothesis ANTI : forall x y, lt x y = false -> lt y x = false -> x = y.
Lemma top_strip k l e m c : (forall x, In x l -> le x e) -> (k <= length l)%nat -> top_of lt largest k (l ++ repeat e m) c -> top_of lt largest k l c.
Proof.
  intros HE HL. revert c. induction m as [|m IH]; intros c HT; [cbn in HT; now rewrite app_nil_r in HT|]. apply IH.
  assert (HP : Permutation (l ++ repeat e (S m)) (e :: (l ++ repeat e m))) by (cbn [repeat]; symmetry; apply Permutation_middle).
  apply (top_perm _ _ _ _ HP) in HT. destruct HT as (Lc & r & Pr & Hr). assert (HE' : forall x, In x (l ++ repeat e m) -> le x e). { intros x Hx. apply in_app_or in Hx as [Hx|Hx]; [auto|]. apply repeat_spec in Hx. subst. apply btr_irr. }
  split; [auto|]. assert (Hin : In e (c ++ r)) by (rewrite Pr; left; auto). apply in_app_or in Hin as [Hin|Hin].
  - assert (Hc := Hin). apply in_split in Hin as (c1 & c2 & ->). assert (NE : r <> []). { intros ->. rewrite app_nil_r in Pr. apply Permutation_length in Pr. cbn [length] in Pr. rewrite app_length in *. cbn [length] in *. rewrite app_length in Pr. lia. }
    destruct r as [|z r]; [congruence|]. assert (EZ : z = e).
    { assert (Z1 := Hr e z Hc (or_introl eq_refl)). assert (Hz : In z (e :: l ++ repeat e m)) by (rewrite <- Pr; apply in_or_app; right; left; auto). destruct Hz as [->|Hz]; [auto|]. assert (Z2 := HE' z Hz). unfold beats in Z1, Z2. destruct largest; apply ANTI; auto. }
    subst z. exists r. split; [|intros; apply Hr; auto; right; auto]. apply (Permutation_cons_inv (a := e)). rewrite <- Pr. apply Permutation_middle.
  - apply in_split in Hin as (r1 & r2 & ->). exists (r1 ++ r2). split; [|intros x y Hx Hy; apply Hr; auto; apply in_app_or in Hy as [|]; apply in_or_app; [|right; right]; auto].
    apply (Permutation_cons_inv (a := e)). rewrite <- Pr. rewrite !app_assoc. apply Permutation_middle.
Qed.
End T.

(** pairs compared by their first component *)
Definition ltp {V} (lt : V -> V -> bool) (x y : V * Z) : bool := lt (fst x) (fst y).
Lemma ltp_weak {V} (lt : V -> V -> bool) : weak_order lt -> weak_order (ltp lt).
Proof. intros [A B]. split; unfold ltp; intros; eauto. Qed.
Lemma top_fst {V} (lt : V -> V -> bool) largest k l c : top_of (ltp lt) largest k l c -> top_of lt largest k (map fst l) (map fst c).
Proof.
  intros (L & r & P & H). split; [now rewrite map_length|]. exists (map fst r). split; [rewrite <- map_app; now apply Permutation_map|].
  intros x y Hx Hy. apply in_map_iff in Hx as (x' & <- & Hx). apply in_map_iff in Hy as (y' & <- & Hy). apply (H x' y' Hx Hy).
Qed.

Section K.
Context {V : Type} (dv : V) (lt : V -> V -> bool) (tk : bool -> bool -> nat -> list V -> list nat).
Hypothesis (HW : weak_order lt) (HT : topks dv lt tk).
Variables (largest sorted : bool).
Lemma fst_at (l : list (V * Z)) i : nth i (map fst l) dv = fst (nth i l (dv, 0)).
Proof. change dv with (fst (dv, 0)). apply map_nth. Qed.
Lemma tk_pairs_ok m l : (m <= length l)%nat -> top_of (ltp lt) largest m l (tk_pairs dv tk largest sorted m l) /\
  (sorted = true -> in_order lt largest (map fst (tk_pairs dv tk largest sorted m l))).
Proof.
  intros H. destruct (HT largest sorted m (map fst l)) as ((r & P & B) & L & O); [now rewrite map_length|]. rewrite map_length in P. unfold tk_pairs. split.
  - split; [now rewrite map_length|]. exists (map (fun i => nth i l (dv, 0)) r). split.
    + rewrite <- map_app. rewrite (Permutation_map _ P). now rewrite (map_nth_seq l).
    + intros x y Hx Hy. apply in_map_iff in Hx as (i & <- & Hi). apply in_map_iff in Hy as (j & <- & Hj). assert (Q := B i j Hi Hj). unfold beats, ltp in *. now rewrite !fst_at in Q.
  - intros E. specialize (O E). rewrite map_map. rewrite (map_ext _ (fun i => nth i (map fst l) dv)); [exact O|]. intros i. symmetry. apply fst_at.
Qed.
Lemma tree_ok k (f : nat -> list (V * Z)) (g : nat -> list (V * Z)) t :
  (forall r, In r (leaves t) -> top_of (ltp lt) largest k (g r) (f r)) ->
  (forall r, t = Leaf r -> sorted = true -> in_order lt largest (map fst (f r))) ->
  top_of (ltp lt) largest k (concat (map g (leaves t))) (reduce_tree (mpi_topk dv tk largest sorted k) f t) /\
  (sorted = true -> in_order lt largest (map fst (reduce_tree (mpi_topk dv tk largest sorted k) f t))).
Proof.
  intros H HO. assert (A : top_of (ltp lt) largest k (concat (map g (leaves t))) (reduce_tree (mpi_topk dv tk largest sorted k) f t)).
  { clear HO. induction t as [r|a IHa b IHb]; cbn [leaves reduce_tree].
    - cbn [map concat]. rewrite app_nil_r. apply H. left; auto.
    - assert (A : top_of (ltp lt) largest k _ _) by (apply IHa; intros; apply H; cbn; apply in_or_app; auto). assert (B : top_of (ltp lt) largest k _ _) by (apply IHb; intros; apply H; cbn; apply in_or_app; auto). unfold mpi_topk at 1. set (x := reduce_tree _ f a) in *. set (y := reduce_tree _ f b) in *.
      destruct (tk_pairs_ok k (x ++ y)) as [C D]; [destruct A as [A _], B as [B _]; rewrite app_length; lia|]. rewrite map_app, concat_app. apply (top_merge (ltp lt) largest (ltp_weak lt HW) k _ _ x y); auto. }
  split; [exact A|]. destruct t as [r|a b]; cbn [reduce_tree]; [auto|]. unfold mpi_topk at 1. apply tk_pairs_ok.
  assert (X : forall t', (forall r, In r (leaves t') -> In r (leaves (Node a b))) -> length (reduce_tree (mpi_topk dv tk largest sorted k) f t') = k).
  { intros t'. induction t' as [r|c IHc d IHd]; cbn [reduce_tree]; intros HI; [destruct (H r) as [L _]; auto; apply HI; left; auto|]. unfold mpi_topk at 1. apply tk_pairs_ok. rewrite app_length, IHc, IHd; [lia| |]; intros; apply HI; cbn; apply in_or_app; auto. }
  rewrite app_length, !X; [lia| |]; intros; cbn; apply in_or_app; auto.
Qed.
End K.
