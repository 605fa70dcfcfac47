(** Lemmas about the shared vocabulary. *)
From Verif Require Import Base.
Set Implicit Arguments.

Lemma upd_length {A} (l : list A) k v : length (upd l k v) = length l.
Proof. revert k; induction l as [|h t IH]; intros [|k]; simpl; auto. Qed.

Lemma upd_same {A} (l : list A) k v d : k < length l -> nth k (upd l k v) d = v.
Proof. revert k; induction l as [|h t IH]; intros [|k]; simpl; intros; try lia; auto. apply IH; lia. Qed.

Lemma upd_other {A} (l : list A) k j v d : j <> k -> nth j (upd l k v) d = nth j l d.
Proof. revert k j; induction l as [|h t IH]; intros [|k] [|j]; simpl; intros; auto; try lia. Qed.

Lemma upd_oob {A} (l : list A) k v : length l <= k -> upd l k v = l.
Proof. revert k; induction l as [|h t IH]; intros [|k]; simpl; intros; auto; try lia. f_equal; apply IH; lia. Qed.

Lemma upd_split {A} (l : list A) k v d : k < length l ->
  upd l k v = firstn k l ++ v :: skipn (S k) l /\ l = firstn k l ++ nth k l d :: skipn (S k) l.
Proof.
  revert k; induction l as [|h t IH]; intros [|k]; simpl; intros; try lia; auto.
  destruct (IH k) as [E1 E2]; [lia|]. rewrite E1 at 1. split; auto. f_equal. exact E2.
Qed.

Lemma nth_ext2 {A} (l1 l2 : list A) d : length l1 = length l2 ->
  (forall i, i < length l1 -> nth i l1 d = nth i l2 d) -> l1 = l2.
Proof. intros; apply nth_ext with d d; auto. Qed.

Lemma list_sum_cons h t : list_sum (h :: t) = h + list_sum t.
Proof. reflexivity. Qed.
Lemma list_sum_nil : list_sum [] = 0.
Proof. reflexivity. Qed.
Global Hint Rewrite list_sum_cons list_sum_nil list_sum_app : lsum.

Lemma psum_0 l : psum l 0 = 0. Proof. reflexivity. Qed.
Lemma psum_cons h t k : psum (h :: t) (S k) = h + psum t k.
Proof. reflexivity. Qed.
Lemma psum_S l k : k < length l -> psum l (S k) = psum l k + nth k l 0.
Proof.
  revert k; induction l as [|h t IH]; intros k H; [simpl in H; lia|].
  rewrite psum_cons. destruct k as [|k].
  - cbn [nth]. rewrite !psum_0. lia.
  - rewrite psum_cons. cbn [nth]. simpl in H. rewrite IH by lia. lia.
Qed.
Lemma psum_all l k : length l <= k -> psum l k = list_sum l.
Proof. intros; unfold psum; rewrite firstn_all2; auto. Qed.
Lemma psum_mono l i j : i <= j -> psum l i <= psum l j.
Proof.
  revert i j; induction l as [|h t IH]; intros i j H; unfold psum.
  - rewrite !firstn_nil; auto.
  - destruct i, j; cbn [firstn]; rewrite ?list_sum_cons, ?list_sum_nil; try lia. specialize (IH i j ltac:(lia)). unfold psum in IH. lia.
Qed.
Lemma psum_le_sum l k : psum l k <= list_sum l.
Proof.
  destruct (Nat.le_gt_cases (length l) k); [rewrite psum_all; auto|].
  rewrite <- (psum_all l (Nat.le_refl (length l))). apply psum_mono; lia.
Qed.
Lemma psum_app l1 l2 k : k <= length l1 -> psum (l1 ++ l2) k = psum l1 k.
Proof. intros. unfold psum. rewrite firstn_app. replace (k - length l1) with 0 by lia. simpl. now rewrite app_nil_r. Qed.

Lemma list_sum_repeat n k : list_sum (repeat n k) = k * n.
Proof. induction k; simpl; auto. rewrite list_sum_cons, IHk. lia. Qed.

Lemma list_sum_upd l k v : k < length l -> list_sum (upd l k v) + nth k l 0 = list_sum l + v.
Proof.
  revert k; induction l as [|h t IH]; intros [|k]; simpl; intros; rewrite ?list_sum_cons; try lia.
  specialize (IH k ltac:(lia)). lia.
Qed.

Lemma list_sum_nth l k : nth k l 0 <= list_sum l.
Proof. revert k; induction l as [|h t IH]; intros [|k]; simpl; rewrite ?list_sum_cons; try lia. specialize (IH k). lia. Qed.

Lemma lens_nth {A} (d : dist A) k : nth k (lens d) 0 = length (nth k d []).
Proof. unfold lens. change 0 with (length (@nil A)). now rewrite map_nth. Qed.
Lemma lens_length {A} (d : dist A) : length (lens d) = length d.
Proof. apply map_length. Qed.
Lemma glob_length {A} (d : dist A) : length (glob d) = list_sum (lens d).
Proof. unfold glob, lens. induction d as [|h t IH]; simpl; auto. now rewrite app_length, IH, list_sum_cons. Qed.

Lemma glob_cut {A} (d : dist A) k : k < length d ->
  glob d = glob (firstn k d) ++ nth k d [] ++ glob (skipn (S k) d).
Proof.
  intros H. destruct (upd_split d (k:=k) [] [] H) as [_ E]. unfold glob. rewrite E at 1.
  now rewrite concat_app.
Qed.
Lemma glob_firstn_length {A} (d : dist A) k : length (glob (firstn k d)) = psum (lens d) k.
Proof. rewrite glob_length. unfold lens, psum. now rewrite firstn_map. Qed.

(** element k of rank r sits at global position (prefix sum of counts) + k *)
Lemma glob_nth {A} (d : dist A) r k x : k < length (nth r d []) ->
  nth (psum (lens d) r + k) (glob d) x = nth k (nth r d []) x.
Proof.
  intros H. assert (r < length d) by (destruct (Nat.lt_ge_cases r (length d)); auto; rewrite nth_overflow in H by auto; simpl in H; lia).
  rewrite (glob_cut d (k:=r)) by auto. rewrite <- glob_firstn_length, app_nth2_plus, app_nth1; auto.
Qed.

Lemma sub_length {A} (l : list A) a n : a + n <= length l -> length (sub l a n) = n.
Proof. intros; unfold sub. rewrite firstn_length, skipn_length. lia. Qed.
Lemma sub_nth {A} (l : list A) a n i x : i < n -> nth i (sub l a n) x = nth (a + i) l x.
Proof.
  intros H; unfold sub. revert a i H. intros a i H.
  assert (E : nth i (firstn n (skipn a l)) x = nth i (skipn a l) x).
  { revert i H. generalize (skipn a l) as m. clear. induction n; intros m i H; [lia|]. destruct m; simpl; [destruct i; auto|]. destruct i; auto. apply IHn; lia. }
  rewrite E. clear. revert l. induction a; intros l; simpl; auto. destruct l; simpl; auto. destruct i; auto.
Qed.
Lemma sub_all {A} (l : list A) : sub l 0 (length l) = l.
Proof. unfold sub; simpl. apply firstn_all. Qed.
Lemma sub_app_sub {A} (l : list A) a n m : sub l a n ++ sub l (a + n) m = sub l a (n + m).
Proof.
  unfold sub. revert l n m. induction a; intros l n m.
  - simpl. revert l. induction n; intros l; simpl; auto. destruct l; simpl; [now rewrite firstn_nil|]. f_equal. apply IHn.
  - destruct l; simpl; [now rewrite !firstn_nil|]. apply IHa.
Qed.
Lemma sub_0 {A} (l : list A) a : sub l a 0 = [].
Proof. reflexivity. Qed.

(** The blocks cut out by consecutive counts concatenate to the whole list. *)
Lemma concat_blocks {A} (l : list A) (c : list nat) :
  list_sum c = length l ->
  concat (map (fun r => sub l (psum c r) (nth r c 0)) (seq 0 (length c))) = l.
Proof.
  intros H.
  assert (G : forall k, k <= length c ->
     concat (map (fun r => sub l (psum c r) (nth r c 0)) (seq 0 k)) = sub l 0 (psum c k)).
  { induction k; intros Hk; [reflexivity|].
    rewrite seq_S, map_app, concat_app, IHk by lia. simpl. rewrite app_nil_r.
    rewrite psum_S by lia. apply (sub_app_sub l 0). }
  rewrite G by lia. rewrite psum_all, H by lia. apply sub_all.
Qed.

Lemma sub_of_sub {A} (l : list A) a n b m : b + m <= n -> sub (sub l a n) b m = sub l (a + b) m.
Proof.
  intros H. unfold sub. rewrite skipn_firstn_comm, firstn_firstn.
  replace (Nat.min m (n - b)) with m by lia.
  f_equal. revert l. induction a; intros l; simpl; auto. destruct l; simpl; auto. now rewrite skipn_nil.
Qed.

Lemma map_nth_seq {A} (l : list A) d : map (fun i => nth i l d) (seq 0 (length l)) = l.
Proof.
  apply nth_ext with d d; rewrite map_length, seq_length; auto. intros n H.
  rewrite nth_indep with (d' := nth 0 l d) by (now rewrite map_length, seq_length).
  rewrite (map_nth (fun i => nth i l d) (seq 0 (length l)) 0 n). now rewrite seq_nth.
Qed.
Lemma nth_map_seq {A} (f : nat -> A) n i d : i < n -> nth i (map f (seq 0 n)) d = f i.
Proof.
  intros. rewrite nth_indep with (d' := f 0) by (now rewrite map_length, seq_length).
  rewrite map_nth. now rewrite seq_nth.
Qed.
Lemma map_seq_ext {A} (f g : nat -> A) n : (forall i, i < n -> f i = g i) -> map f (seq 0 n) = map g (seq 0 n).
Proof. intros H. apply map_ext_in. intros a Ha. apply in_seq in Ha. apply H; lia. Qed.

Lemma list_eq_nth {A} (l1 l2 : list A) : length l1 = length l2 ->
  (forall i d, i < length l1 -> nth i l1 d = nth i l2 d) -> l1 = l2.
Proof.
  intros H1 H2. destruct l1 as [|a l1]; [destruct l2; simpl in *; auto; lia|].
  apply nth_ext with a a; auto.
Qed.

Lemma skipn_skipn' {A} (a b : nat) (l : list A) : skipn a (skipn b l) = skipn (b + a) l.
Proof. revert l; induction b; intros l; simpl; auto. destruct l; simpl; auto. now rewrite skipn_nil. Qed.
Lemma map_const_seq {A} (c : A) n s : map (fun _ => c) (seq s n) = repeat c n.
Proof. revert s; induction n; intros; simpl; auto. now rewrite IHn. Qed.
Lemma nth_repeat_le {A} (c d : A) n k : nth k (repeat c n) d = if k <? n then c else d.
Proof.
  revert k; induction n; intros [|k]; simpl; auto. rewrite IHn.
  destruct (Nat.ltb_spec k n), (Nat.ltb_spec (S k) (S n)); auto; lia.
Qed.

Lemma filter_nil_iff {A} (f : A -> bool) l : filter f l = [] <-> forall x, In x l -> f x = false.
Proof.
  induction l as [|a l IH]; simpl; [split; auto; intros _ x []|]. destruct (f a) eqn:E; split.
  - discriminate. - intros H. rewrite H in E by auto. discriminate.
  - intros H x [<-|Hx]; auto. apply IH; auto. - intros H. apply IH; auto.
Qed.
Lemma filter_length_le' {A} (f : A -> bool) l : length (filter f l) <= length l.
Proof. induction l; simpl; auto. destruct (f a); simpl; lia. Qed.
Lemma filter_all_iff {A} (f : A -> bool) l : filter f l = l <-> forall x, In x l -> f x = true.
Proof.
  induction l as [|a l IH]; simpl; [split; auto; intros _ x []|]. destruct (f a) eqn:E; split.
  - intros [= H] x [<-|Hx]; auto. apply IH; auto. - intros H. f_equal. apply IH; auto.
  - intros H. exfalso. pose proof (f_equal (@length A) H) as L. simpl in L. pose proof (filter_length_le' f l). lia.
  - intros H. rewrite H in E by auto. discriminate.
Qed.
