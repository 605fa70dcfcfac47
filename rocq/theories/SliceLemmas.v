(** Slices of a list as position predicates. *)
From Verif Require Import Base BaseLemmas PySpec PySpecSel.
From Coq Require Import Sorted.
Set Implicit Arguments.

Fixpoint pickf {A} (p : nat -> bool) (k : nat) (l : list A) : list A :=
  match l with [] => [] | x :: t => if p k then x :: pickf p (S k) t else pickf p (S k) t end.

Lemma pickf_app {A} p k (l1 l2 : list A) : pickf p k (l1 ++ l2) = pickf p k l1 ++ pickf p (k + length l1) l2.
Proof.
  revert k; induction l1 as [|x l IH]; intros k; simpl; [now rewrite Nat.add_0_r|].
  rewrite IH. replace (S k + length l) with (k + S (length l)) by lia. now destruct (p k).
Qed.
Lemma pickf_ext {A} p q k j (l : list A) : (forall i, i < length l -> p (k + i) = q (j + i)) -> pickf p k l = pickf q j l.
Proof.
  revert k j; induction l as [|x l IH]; intros k j H; simpl; auto.
  rewrite (IH (S k) (S j)).
  - specialize (H 0 ltac:(simpl; lia)). rewrite !Nat.add_0_r in H. now rewrite H.
  - intros i Hi. specialize (H (S i) ltac:(simpl; lia)). now replace (S k + i) with (k + S i) by lia; replace (S j + i) with (j + S i) by lia.
Qed.
Lemma pickf_none {A} p k (l : list A) : (forall i, i < length l -> p (k + i) = false) -> pickf p k l = [].
Proof.
  revert k; induction l as [|x l IH]; intros k H; simpl; auto.
  rewrite (IH (S k)).
  - specialize (H 0 ltac:(simpl; lia)). rewrite !Nat.add_0_r in H. now rewrite H.
  - intros i Hi. specialize (H (S i) ltac:(simpl; lia)). now replace (S k + i) with (k + S i) by lia.
Qed.
Lemma pickf_all {A} p k (l : list A) : (forall i, i < length l -> p (k + i) = true) -> pickf p k l = l.
Proof.
  revert k; induction l as [|x l IH]; intros k H; simpl; auto.
  rewrite (IH (S k)).
  - specialize (H 0 ltac:(simpl; lia)). rewrite !Nat.add_0_r in H. now rewrite H.
  - intros i Hi. specialize (H (S i) ltac:(simpl; lia)). now replace (S k + i) with (k + S i) by lia.
Qed.
(** selecting block by block *)
Lemma pickf_glob {A} (p : nat -> bool) (d : dist A) k :
  pickf p k (glob d) = concat (map (fun r => pickf p (k + psum (lens d) r) (nth r d [])) (seq 0 (length d))).
Proof.
  unfold glob. revert k; induction d as [|x d IH]; intros k; [reflexivity|].
  cbn [concat length seq map]. rewrite pickf_app, IH. f_equal; [now rewrite psum_0, Nat.add_0_r|].
  f_equal. rewrite <- seq_shift, map_map. apply map_ext. intros r. cbn [nth]. f_equal.
  unfold lens. cbn [map]. rewrite psum_cons. lia.
Qed.

Definition in_slice (a b s : Z) (i : nat) : bool :=
  ((a <=? Z.of_nat i) && (Z.of_nat i <? b) && ((Z.of_nat i - a) mod s =? 0))%Z.

Lemma sel_app {A} (l : list A) i1 i2 : sel l (i1 ++ i2) = sel l i1 ++ sel l i2.
Proof. unfold sel. apply flat_map_app. Qed.

Lemma sel_filter_aux {A} (p : nat -> bool) (l0 l : list A) :
  sel (l0 ++ l) (map Z.of_nat (filter p (seq (length l0) (length l)))) = pickf p (length l0) l.
Proof.
  revert l0; induction l as [|x l IH]; intros l0; [reflexivity|].
  cbn [length seq filter pickf].
  assert (E : sel (l0 ++ x :: l) (map Z.of_nat (filter p (seq (S (length l0)) (length l)))) = pickf p (S (length l0)) l).
  { specialize (IH (l0 ++ [x])). rewrite app_length in IH. cbn [length] in IH. rewrite Nat.add_1_r in IH. rewrite <- IH.
    now rewrite <- app_assoc. }
  destruct (p (length l0)); auto. cbn [map]. change (Z.of_nat (length l0) :: ?t) with ([Z.of_nat (length l0)] ++ t).
  rewrite sel_app, E. unfold sel. cbn [flat_map]. rewrite Nat2Z.id, nth_error_app2, Nat.sub_diag by lia. reflexivity.
Qed.
Lemma sel_filter {A} (p : nat -> bool) (l : list A) :
  sel l (map Z.of_nat (filter p (seq 0 (length l)))) = pickf p 0 l.
Proof. exact (sel_filter_aux p [] l). Qed.

(** strictly increasing lists with the same members are equal *)
Lemma sorted_eq (l1 l2 : list Z) : StronglySorted Z.lt l1 -> StronglySorted Z.lt l2 ->
  (forall x, In x l1 <-> In x l2) -> l1 = l2.
Proof.
  intros S1; revert l2; induction S1 as [|a l1 S1 IH F1]; intros l2 S2 H.
  - destruct l2 as [|b l2]; auto. destruct (proj2 (H b)); simpl; auto.
  - destruct S2 as [|b l2 S2 F2]; [destruct (proj1 (H a)); simpl; auto|].
    rewrite Forall_forall in F1, F2.
    assert (a = b).
    { destruct (proj1 (H a)) as [E|E]; [simpl; auto|congruence|]. destruct (proj2 (H b)) as [E'|E']; [simpl; auto|congruence|].
      specialize (F1 _ E'). specialize (F2 _ E). lia. }
    subst b. f_equal. apply IH; auto. intros x. specialize (H x). cbn [In] in H. split; intros Hx.
    + destruct (proj1 H (or_intror Hx)) as [<-|]; auto. specialize (F1 _ Hx). lia.
    + destruct (proj2 H (or_intror Hx)) as [<-|]; auto. specialize (F2 _ Hx). lia.
Qed.
Lemma sorted_map_seq (f : nat -> Z) n k : (forall i j, i < j -> (f i < f j)%Z) -> StronglySorted Z.lt (map f (seq k n)).
Proof.
  intros H. revert k; induction n as [|n IH]; intros k; cbn [seq map]; constructor; auto.
  apply Forall_forall. intros x Hx. apply in_map_iff in Hx. destruct Hx as (i & <- & Hi). apply in_seq in Hi. apply H; lia.
Qed.
Lemma sorted_filter_seq (p : nat -> bool) n k : StronglySorted Z.lt (map Z.of_nat (filter p (seq k n))).
Proof.
  revert k; induction n as [|n IH]; intros k; cbn [seq filter map]; [constructor|].
  destruct (p k); auto. cbn [map]. constructor; auto. apply Forall_forall. intros x Hx.
  apply in_map_iff in Hx. destruct Hx as (i & <- & Hi). apply filter_In in Hi. destruct Hi as [Hi _]. apply in_seq in Hi. lia.
Qed.

Lemma in_py_range (a b s x : Z) : (0 < s)%Z ->
  (In x (py_range a b s) <-> a <= x < b /\ (x - a) mod s = 0)%Z.
Proof.
  intros Hs. unfold py_range, py_range_len. destruct (Z.ltb_spec 0 s); [|lia]. rewrite in_map_iff. split.
  - intros (k & <- & Hk). apply in_seq in Hk. split.
    + assert (Z.of_nat k < (b - a + s - 1) / s)%Z by lia. 
      assert (Z.of_nat k + 1 <= (b - a + s - 1) / s)%Z by lia.
      pose proof (Z.mul_div_le (b - a + s - 1) s Hs). nia.
    + replace (a + Z.of_nat k * s - a)%Z with (Z.of_nat k * s)%Z by lia. apply Z.mod_mul; lia.
  - intros ((H1 & H2) & H3). exists (Z.to_nat ((x - a) / s)).
    assert (E : (x - a = s * ((x - a) / s))%Z). { pose proof (Z.div_mod (x - a) s ltac:(lia)). lia. }
    assert (0 <= (x - a) / s)%Z by (apply Z.div_pos; lia).
    split; [rewrite Z2Nat.id by lia; lia|]. apply in_seq. split; [lia|].
    assert ((x - a) / s < (b - a + s - 1) / s)%Z; [|lia].
    assert ((x - a) / s + 1 <= (b - a + s - 1) / s)%Z; [|lia].
    apply Z.div_le_lower_bound; lia.
Qed.

Lemma py_range_sorted a b s : (0 < s)%Z -> StronglySorted Z.lt (py_range a b s).
Proof. intros Hs. unfold py_range. apply sorted_map_seq. intros; nia. Qed.

Lemma py_slice_filter (a b s : Z) n : (0 <= a)%Z -> (0 <= b)%Z -> (0 < s)%Z ->
  py_slice (Some a) (Some b) (Some s) (Z.of_nat n) = map Z.of_nat (filter (in_slice a b s) (seq 0 n)).
Proof.
  intros Ha Hb Hs. unfold py_slice. cbn [py_step py_slice_start py_slice_stop]. unfold py_clamp.
  destruct (Z.ltb_spec s 0); [lia|]. destruct (Z.ltb_spec a 0); [lia|]. destruct (Z.ltb_spec b 0); [lia|].
  apply sorted_eq; [apply py_range_sorted; auto|apply sorted_filter_seq|].
  intros x. rewrite in_py_range by auto. rewrite in_map_iff. unfold in_slice. split.
  - intros ((H2 & H3) & H4). exists (Z.to_nat x). split; [lia|]. apply filter_In.
    rewrite in_seq. rewrite Z2Nat.id by lia. split; [lia|].
    assert (Z.min a (Z.of_nat n) = a) by lia. rewrite H5 in H4. lia.
  - intros (k & <- & Hk). apply filter_In in Hk. rewrite in_seq in Hk. destruct Hk as [Hk1 Hk2].
    rewrite (Z.min_l a) by lia. lia.
Qed.

Lemma sel_py_slice {A} (l : list A) a b s : (0 <= a)%Z -> (0 <= b)%Z -> (0 < s)%Z ->
  sel l (py_slice (Some a) (Some b) (Some s) (Z.of_nat (length l))) = pickf (in_slice a b s) 0 l.
Proof. intros. rewrite py_slice_filter by auto. apply sel_filter. Qed.

Lemma py_slice_length (a b s : Z) n : (0 < s)%Z ->
  length (py_slice (Some a) (Some b) (Some s) n) = py_range_len (py_clamp a n s) (py_clamp b n s) s.
Proof. intros. unfold py_slice, py_range. now rewrite map_length, seq_length. Qed.

Lemma sel_length {A} (l : list A) idx : (forall i, In i idx -> (0 <= i < Z.of_nat (length l))%Z) -> length (sel l idx) = length idx.
Proof.
  induction idx as [|i idx IH]; intros H; auto. change (i :: idx) with ([i] ++ idx). rewrite sel_app, !app_length, IH by (intros; apply H; simpl; auto).
  f_equal. unfold sel. cbn [flat_map]. destruct (nth_error l (Z.to_nat i)) eqn:E; auto.
  apply nth_error_None in E. specialize (H i (or_introl eq_refl)). lia.
Qed.
Lemma in_py_slice_range (a b s x : Z) n : (0 < s)%Z -> (0 <= a)%Z -> (0 <= b)%Z -> (0 <= n)%Z ->
  In x (py_slice (Some a) (Some b) (Some s) n) -> (0 <= x < n)%Z.
Proof.
  intros Hs Ha Hb Hn. unfold py_slice. cbn [py_step py_slice_start py_slice_stop]. rewrite in_py_range by auto. unfold py_clamp.
  destruct (Z.ltb_spec s 0); [lia|]. destruct (Z.ltb_spec a 0); [lia|]. destruct (Z.ltb_spec b 0); [lia|]. lia.
Qed.
