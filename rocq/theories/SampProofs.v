(** Who sends which row to whom. *)
From Coq Require Import Permutation.
From Verif Require Import Base BaseLemmas LayoutModel LayoutProofs OpsModel RollProofs SampSpec SampModel.
Open Scope nat_scope.

Lemma holder_first (f : nat -> nat * nat) idx r m : forall k, k <= r < k + m -> (forall j, k <= j < r -> in_slice idx (f j) = false) -> in_slice idx (f r) = true ->
  holder (map f (seq k m)) k idx = r.
Proof.
  induction m as [|m IH]; intros k Hr Hb Ht; [lia|]. cbn [seq map holder]. destruct (Nat.eq_dec k r) as [->|NE]; [now rewrite Ht|].
  rewrite Hb by lia. apply IH; [lia| |auto]. intros j Hj. apply Hb. lia.
Qed.
Lemma flat_map_ext_in {A B} (f g : A -> list B) l : (forall x, In x l -> f x = g x) -> flat_map f l = flat_map g l.
Proof. induction l as [|a l IH]; intros H; [auto|]. cbn [flat_map]. rewrite H by (left; auto). f_equal. apply IH. intros; apply H; right; auto. Qed.
Lemma flat_map_window {A B} (F : A -> list B) lo hi (l : list A) : forall s,
  flat_map (fun p => if (lo <=? fst p) && (fst p <? hi) then F (snd p) else []) (combine (seq s (length l)) l) = flat_map F (sub l (lo - s) (hi - Nat.max lo s)).
Proof.
  induction l as [|x l IH]; intros s; [unfold sub; now rewrite skipn_nil, firstn_nil|]. cbn [length seq combine flat_map fst snd]. rewrite IH.
  destruct (Nat.leb_spec lo s), (Nat.ltb_spec s hi); cbn [andb].
  - replace (lo - s) with 0 by lia. replace (lo - S s) with 0 by lia. replace (hi - Nat.max lo s) with (S (hi - S s)) by lia. replace (hi - Nat.max lo (S s)) with (hi - S s) by lia. reflexivity.
  - replace (hi - Nat.max lo s) with 0 by lia. replace (hi - Nat.max lo (S s)) with 0 by lia. now rewrite !sub_0.
  - replace (lo - s) with (S (lo - S s)) by lia. replace (hi - Nat.max lo s) with (hi - Nat.max lo (S s)) by lia. reflexivity.
  - replace (hi - Nat.max lo s) with 0 by lia. replace (hi - Nat.max lo (S s)) with 0 by lia. now rewrite !sub_0.
Qed.
Lemma flat_map_filter {A} (p : A -> bool) l : flat_map (fun x => if p x then [x] else []) l = filter p l.
Proof. induction l as [|a l IH]; [auto|]. cbn [flat_map filter]. rewrite IH. destruct (p a); auto. Qed.
Lemma concat_row {E} (bl : nat) (rows : list (list E)) k : Forall (fun r => length r = bl) rows -> k < length rows -> sub (concat rows) (k * bl) bl = nth k rows [].
Proof.
  revert k. induction rows as [|r rows IH]; intros k F Hk; [cbn in Hk; lia|]. inversion F as [|? ? Hr F']; subst. destruct k as [|k]; cbn [concat nth].
  - unfold sub. cbn [Nat.mul skipn]. rewrite firstn_app, firstn_all. replace (length r - length r) with 0 by lia. cbn [firstn]. now rewrite app_nil_r.
  - rewrite <- IH by (auto; cbn in Hk; lia). unfold sub. f_equal. rewrite skipn_app. replace (S k * length r - length r) with (k * length r) by lia. rewrite skipn_all2 by lia. reflexivity.
Qed.
Lemma concat_rows_length {E} (bl : nat) (rows : list (list E)) : Forall (fun r => length r = bl) rows -> length (concat rows) = length rows * bl.
Proof. induction 1 as [|r rows Hr F IH]; [auto|]. cbn [concat length]. rewrite app_length, IH, Hr. lia. Qed.
Lemma perm_buckets {A} (key : A -> nat) n (l : list A) : (forall x, In x l -> key x < n) -> Permutation (flat_map (fun k => filter (fun x => key x =? k) l) (seq 0 n)) l.
Proof.
  induction l as [|a l IH]; intros H.
  - cbn [filter]. induction (seq 0 n); auto.
  - assert (Ha : key a < n) by (apply H; left; auto). specialize (IH (fun x Hx => H x (or_intror Hx))).
    assert (E : seq 0 n = seq 0 (key a) ++ key a :: seq (S (key a)) (n - S (key a))).
    { replace n with (key a + S (n - S (key a))) at 1 by lia. rewrite seq_app. reflexivity. }
    rewrite E in *. rewrite flat_map_app in *. cbn [flat_map filter] in *. rewrite Nat.eqb_refl.
    assert (Q : forall ks, ~ In (key a) ks -> flat_map (fun k => if key a =? k then a :: filter (fun x => key x =? k) l else filter (fun x => key x =? k) l) ks = flat_map (fun k => filter (fun x => key x =? k) l) ks).
    { intros ks Hk. apply flat_map_ext_in. intros k HI. destruct (Nat.eqb_spec (key a) k); [congruence|auto]. }
    rewrite !Q by (rewrite in_seq; lia). rewrite <- app_comm_cons. symmetry. apply Permutation_cons_app. symmetry. exact IH.
Qed.

Section Plan.
Variable ls : list nat.
Definition slices := map (fun r => (psum ls r, psum ls r + nth r ls 0)) (seq 0 (length ls)).
Definition own (g : nat) := holder slices 0 g.

Lemma in_slice_iff g r : in_slice g (psum ls r, psum ls r + nth r ls 0) = (psum ls r <=? g) && (g <? psum ls r + nth r ls 0).
Proof. unfold in_slice. cbn [fst snd]. destruct (Nat.ltb_spec g (psum ls r)), (Nat.leb_spec (psum ls r + nth r ls 0) g), (Nat.leb_spec (psum ls r) g), (Nat.ltb_spec g (psum ls r + nth r ls 0)); auto; lia. Qed.
Lemma own_at r i : r < length ls -> i < nth r ls 0 -> own (psum ls r + i) = r.
Proof.
  intros Hr Hi. unfold own, slices. apply holder_first; [lia| |].
  - intros j Hj. rewrite in_slice_iff. assert (psum ls (S j) <= psum ls r) by (apply psum_mono; lia). rewrite psum_S in H by lia.
    destruct (Nat.ltb_spec (psum ls r + i) (psum ls j + nth j ls 0)); [lia|apply andb_false_r].
  - rewrite in_slice_iff. destruct (Nat.leb_spec (psum ls r) (psum ls r + i)), (Nat.ltb_spec (psum ls r + i) (psum ls r + nth r ls 0)); auto; lia.
Qed.
Lemma own_spec g : g < list_sum ls -> own g < length ls /\ psum ls (own g) <= g < psum ls (own g) + nth (own g) ls 0.
Proof. intros Hg. destruct (locate ls g Hg) as (r & i & Hr & Hi & ->). rewrite own_at by auto. lia. Qed.
Lemma own_window g r : g < list_sum ls -> r < length ls -> (own g =? r) = (psum ls r <=? g) && (g <? psum ls r + nth r ls 0).
Proof.
  intros Hg Hr. destruct (own_spec g Hg) as (Ho & Hb). destruct (Nat.eqb_spec (own g) r) as [<-|NE].
  - destruct (Nat.leb_spec (psum ls (own g)) g), (Nat.ltb_spec g (psum ls (own g) + nth (own g) ls 0)); auto; lia.
  - destruct (Nat.leb_spec (psum ls r) g), (Nat.ltb_spec g (psum ls r + nth r ls 0)); auto. exfalso. apply NE. replace g with (psum ls r + (g - psum ls r)) by lia. apply own_at; auto. lia.
Qed.
Lemma slices_nth r : r < length ls -> nth r slices (0, 0) = (psum ls r, psum ls r + nth r ls 0).
Proof. intros Hr. unfold slices. apply (@nth_map_seq _ (fun r => (psum ls r, psum ls r + nth r ls 0))). auto. Qed.
Lemma in_slice_own g r : g < list_sum ls -> r < length ls -> in_slice g (nth r slices (0, 0)) = (own g =? r).
Proof. intros Hg Hr. rewrite slices_nth, in_slice_iff by auto. symmetry. now apply own_window. Qed.
Variable indices : list nat.
Hypothesis HN : length indices = list_sum ls.
Hypothesis HI : forall x, In x indices -> x < list_sum ls.
Definition L (q : nat) := sub indices (psum ls q) (nth q ls 0).
Lemma L_in q x : In x (L q) -> x < list_sum ls.
Proof.
  intros H. apply HI. unfold L, sub in H. rewrite <- (firstn_skipn (psum ls q) indices). apply in_or_app. right. rewrite <- (firstn_skipn (nth q ls 0) (skipn (psum ls q) indices)). apply in_or_app. now left.
Qed.
Lemma buffer_windows q (F : nat -> list nat) : q < length ls ->
  flat_map (fun p => if own (fst p) =? q then F (snd p) else []) (combine (seq 0 (length indices)) indices) = flat_map F (L q).
Proof.
  intros Hq. unfold L. rewrite (flat_map_ext_in _ (fun p => if (psum ls q <=? fst p) && (fst p <? psum ls q + nth q ls 0) then F (snd p) else [])).
  - rewrite flat_map_window. f_equal. f_equal; lia.
  - intros [i x] H. apply in_combine_l, in_seq in H. cbn [fst snd]. rewrite own_window by (auto; lia). auto.
Qed.
Lemma send_plan r q : r < length ls -> q < length ls -> send_indice slices indices r q = filter (fun x => own x =? r) (L q).
Proof.
  intros Hr Hq. unfold send_indice, indice_buffer. fold own. destruct (Nat.eqb_spec q r) as [->|NE].
  - rewrite (flat_map_ext_in _ (fun p => if own (fst p) =? r then [snd p] else [])).
    + rewrite (buffer_windows r (fun x => [x])) by auto. rewrite flat_map_concat_map, <- (map_id (L r)) at 1.
      assert (E : forall l : list nat, concat (map (fun x => [x]) (map (fun x => x) l)) = l) by (induction l; cbn; f_equal; auto). rewrite E.
      apply filter_ext_in. intros x Hx. apply in_slice_own; auto. apply (L_in r). auto.
    + intros [i x] H. cbn [fst snd]. fold (own i) (own x). destruct (Nat.eqb_spec (own i) r) as [E|]; [auto|]. destruct (Nat.eqb_spec (own x) r); [|auto]. destruct (Nat.eqb_spec r (own i)); [congruence|auto].
  - rewrite (flat_map_ext_in _ (fun p => if own (fst p) =? q then (if own (snd p) =? r then [snd p] else []) else [])).
    + rewrite (buffer_windows q (fun x => if own x =? r then [x] else [])) by auto. apply flat_map_filter.
    + intros [i x] H. cbn [fst snd]. fold (own i) (own x). destruct (Nat.eqb_spec (own i) r) as [E|NE1].
      * destruct (Nat.eqb_spec (own i) q); [congruence|auto].
      * rewrite (Nat.eqb_sym q). destruct (own x =? r), (own i =? q); auto.
Qed.
Lemma recv_plan q r : r < length ls -> q < length ls -> recv_count slices indices q r = length (filter (fun x => own x =? r) (L q)).
Proof.
  intros Hr Hq. unfold recv_count. assert (E : indice_buffer slices indices q q = L q).
  { unfold indice_buffer. rewrite (flat_map_ext_in _ (fun p => if own (fst p) =? q then [snd p] else [])).
    - rewrite (buffer_windows q (fun x => [x])) by auto. rewrite flat_map_concat_map. induction (L q); cbn; f_equal; auto.
    - intros [i x] H. cbn [fst snd]. fold (own i) (own x). rewrite Nat.eqb_refl. destruct (Nat.eqb_spec (own i) q) as [E|]; [auto|]. destruct (Nat.eqb_spec (own x) q); [|auto]. destruct (Nat.eqb_spec q (own i)); [congruence|auto]. }
  rewrite E. f_equal. apply filter_ext_in. intros x Hx. fold (own x). rewrite in_slice_own by (auto; apply (L_in q); auto). apply andb_diag.
Qed.
End Plan.
