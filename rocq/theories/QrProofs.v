(** Lemmas for C93, C94: sums over any commutative monoid, stacked matrices, groups of processes. *)
From Coq Require Import Ring.
From Verif Require Import Base QrSpec QrModel OpsModel.
Open Scope nat_scope.

Section Gsum.
Context {T : Type} (z : T) (op : T -> T -> T) (oc : forall a b, op a b = op b a) (oa : forall a b c, op a (op b c) = op (op a b) c) (oz : forall a, op z a = a).
Definition gsum (n : nat) (f : nat -> T) : T := fold_right op z (map f (seq 0 n)).
Lemma fold_op_app l1 l2 : fold_right op z (l1 ++ l2) = op (fold_right op z l1) (fold_right op z l2).
Proof. induction l1 as [|a l IH]; cbn; [now rewrite oz|]. now rewrite IH, oa. Qed.
Lemma gsum_S n f : gsum (S n) f = op (gsum n f) (f n).
Proof. unfold gsum. rewrite seq_S, map_app, fold_op_app. cbn. now rewrite (oc (f n) z), oz. Qed.
Lemma gsum_ext n f g : (forall i, i < n -> f i = g i) -> gsum n f = gsum n g.
Proof. clear oc oa oz. intros H. unfold gsum. f_equal. apply map_ext_in. intros i Hi. apply in_seq in Hi. apply H. lia. Qed.
Lemma gsum_z n : gsum n (fun _ => z) = z.
Proof. induction n; [reflexivity|]. now rewrite gsum_S, IHn, oz. Qed.
Lemma gsum_zero n f : (forall i, i < n -> f i = z) -> gsum n f = z.
Proof. intros H. rewrite (gsum_ext n f (fun _ => z)) by auto. apply gsum_z. Qed.
Lemma gsum_op n f g : gsum n (fun i => op (f i) (g i)) = op (gsum n f) (gsum n g).
Proof. induction n; [cbn; now rewrite oz|]. rewrite !gsum_S, IHn. rewrite <- !oa. f_equal. rewrite !oa. f_equal. apply oc. Qed.
Lemma gsum_swap n m f : gsum n (fun i => gsum m (f i)) = gsum m (fun j => gsum n (fun i => f i j)).
Proof. induction n; [cbn; symmetry; apply gsum_z|]. rewrite gsum_S, IHn, <- gsum_op. apply gsum_ext. intros j _. now rewrite gsum_S. Qed.
(** one term *)
Lemma gsum_one n k f : k < n -> gsum n (fun i => if i =? k then f i else z) = f k.
Proof.
  induction n as [|n IH]; [lia|]. intros H. rewrite gsum_S. destruct (Nat.eqb_spec n k) as [->|N]; [|rewrite IH by lia; rewrite oc; apply oz].
  rewrite gsum_zero; [apply oz|]. intros i Hi. destruct (Nat.eqb_spec i k); [lia|reflexivity].
Qed.
Lemma gsum_app n m f : gsum (n + m) f = op (gsum n f) (gsum m (fun i => f (n + i))).
Proof. induction m; [rewrite Nat.add_0_r; cbn; now rewrite oc, oz|]. rewrite Nat.add_succ_r, !gsum_S, IHm, oa. reflexivity. Qed.
(** rows of stacked blocks *)
Lemma gsum_blocks (ks : list nat) f : gsum (list_sum ks) f = gsum (length ks) (fun p => gsum (nth p ks 0) (fun t => f (list_sum (firstn p ks) + t))).
Proof.
  revert f. induction ks as [|k ks IH]; intros f; [reflexivity|]. change (list_sum (k :: ks)) with (k + list_sum ks). rewrite gsum_app, IH.
  cbn [length]. rewrite <- (Nat.add_1_l (length ks)), gsum_app. f_equal; [cbn; unfold gsum; cbn; now rewrite oc, oz|].
  apply gsum_ext. intros p _. cbn [plus nth firstn]. apply gsum_ext. intros t _. change (list_sum (k :: firstn p ks)) with (k + list_sum (firstn p ks)). f_equal. lia.
Qed.
(** sorting terms by the value of [c] *)
Lemma gsum_class n L (c : nat -> nat) (f : nat -> T) : (forall i, i < n -> f i = z \/ c i < L) -> gsum n f = gsum L (fun p => gsum n (fun i => if c i =? p then f i else z)).
Proof.
  intros H. rewrite gsum_swap. apply gsum_ext. intros i Hi. destruct (H i Hi) as [E|G].
  - rewrite gsum_zero; [auto|]. intros p Hp. rewrite E. destruct (c i =? p); reflexivity.
  - rewrite <- (gsum_one L (c i) (fun _ => f i) G) at 1. apply gsum_ext. intros p Hp. rewrite (Nat.eqb_sym (c i)). reflexivity.
Qed.
End Gsum.

Section Stack.
Context {V : Type} (zero : V).
Lemma vstack_mr n (l : list (mat V)) : mr (vstack zero n l) = list_sum (map mr l).
Proof. induction l as [|a l IH]; [reflexivity|]. cbn [vstack mr map]. rewrite IH. reflexivity. Qed.
Lemma vstack_mc n (l : list (mat V)) : mc (vstack zero n l) = n.
Proof. destruct l; reflexivity. Qed.
Lemma vstack_me n (l : list (mat V)) p t j d : p < length l -> t < mr (nth p l d) -> me (vstack zero n l) (list_sum (map mr (firstn p l)) + t) j = me (nth p l d) t j.
Proof.
  revert p. induction l as [|a l IH]; intros [|p] Hp Ht; cbn [length] in Hp; try lia; cbn [vstack me firstn map nth] in *.
  - change (list_sum []) with 0; cbn [plus]; destruct (Nat.ltb_spec t (mr a)); [reflexivity|lia].
  - change (list_sum (mr a :: map mr (firstn p l))) with (mr a + list_sum (map mr (firstn p l))). destruct (Nat.ltb_spec (mr a + list_sum (map mr (firstn p l)) + t) (mr a)); [lia|].
    rewrite <- (IH p) by (auto; lia). f_equal. lia.
Qed.
End Stack.

(** current_procs: the multiples of the leaf size *)
Definition procs (w c : nat) : list nat := map (fun i => i * w) (seq 0 c).
Definition cdiv (c q : nat) := (c + q - 1) / q.
Lemma pos_procs w c r : 0 < w -> pos r (procs w c) = if (r mod w =? 0) && (r / w <? c) then Some (r / w) else None.
Proof.
  intros Hw. unfold procs. pose proof (Nat.div_mod r w ltac:(lia)) as D. set (d := r / w) in *. set (m := r mod w) in *.
  assert (DU : forall a, a * w = r -> d = a /\ m = 0) by (intros a <-; split; [apply Nat.div_mul|apply Nat.mod_mul]; lia). clearbody d m.
  assert (G : forall c a, pos r (map (fun i => i * w) (seq a c)) = if (m =? 0) && (a <=? d) && (d <? a + c) then Some (d - a) else None).
  { clear c. induction c as [|c IH]; intros a.
    - cbn [seq map pos]. destruct (Nat.leb_spec a d), (Nat.ltb_spec d (a + 0)); try lia; now rewrite ?andb_false_r.
    - cbn [seq map pos]. rewrite IH. destruct (Nat.eqb_spec (a * w) r) as [E|N].
      + destruct (DU a E) as [-> ->]. rewrite Nat.leb_refl. cbn [Nat.eqb andb]. destruct (Nat.ltb_spec a (a + S c)); [now rewrite Nat.sub_diag|lia].
      + destruct (Nat.eqb_spec m 0) as [Z0|NZ]; [|reflexivity]. cbn [andb]. assert (d <> a) by (intros X; apply N; rewrite D, X, Z0; lia).
        destruct (Nat.leb_spec (S a) d), (Nat.leb_spec a d), (Nat.ltb_spec d (S a + c)), (Nat.ltb_spec d (a + S c)); cbn; try reflexivity; try lia. f_equal. lia. }
  rewrite G. cbn [Nat.leb plus]. rewrite Nat.sub_0_r. destruct (m =? 0); reflexivity.
Qed.
Lemma group_procs q w c g : group q (procs w c) g = map (fun p => (g * q + p) * w) (seq 0 (Nat.min q (c - g * q))).
Proof.
  unfold group, procs. assert (SK : forall k a c, skipn k (seq a c) = seq (a + k) (c - k)) by (induction k as [|k IH]; intros a c'; [now rewrite Nat.add_0_r, Nat.sub_0_r|]; destruct c'; [reflexivity|]; cbn [seq skipn]; rewrite IH; f_equal; lia).
  assert (FN : forall k a c, firstn k (seq a c) = seq a (Nat.min k c)) by (induction k as [|k IH]; intros a c'; [reflexivity|]; destruct c'; [reflexivity|]; cbn [seq firstn Nat.min]; now rewrite IH).
  rewrite skipn_map, firstn_map, SK, FN. cbn [plus]. rewrite <- (Nat.add_0_r (g * q)) at 1. generalize (Nat.min q (c - g * q)) as m. intros m.
  transitivity (map (fun i => i * w) (map (fun p => g * q + p) (seq 0 m))); [|now rewrite map_map]. f_equal. generalize 0 as a. induction m as [|m IH]; intros a; [reflexivity|]. cbn [seq map]. f_equal. rewrite <- IH. f_equal. lia.
Qed.
Lemma next_procs_ok q w c : 0 < q -> next_procs q (procs w c) = procs (w * q) (cdiv c q).
Proof.
  intros Hq. unfold next_procs. replace (length (procs w c)) with c by (unfold procs; now rewrite map_length, seq_length).
  assert (F : filter (fun i => i mod q =? 0) (seq 0 c) = map (fun i => i * q) (seq 0 (cdiv c q))).
  { induction c as [|c IH]; [unfold cdiv; rewrite (Nat.div_small (0 + q - 1) q) by lia; reflexivity|]. rewrite seq_S, filter_app, IH. cbn [filter plus]. unfold cdiv. pose proof (Nat.div_mod c q ltac:(lia)) as D. pose proof (Nat.mod_upper_bound c q ltac:(lia)) as B.
    destruct (Nat.eqb_spec (c mod q) 0) as [Z0|NZ].
    - replace ((c + q - 1) / q) with (c / q) by (apply (Nat.div_unique _ _ _ (q - 1)); lia). replace ((S c + q - 1) / q) with (S (c / q)) by (apply (Nat.div_unique _ _ _ 0); lia). rewrite seq_S, map_app. cbn [map plus]. do 2 f_equal. lia.
    - replace ((S c + q - 1) / q) with (S (c / q)) by (apply (Nat.div_unique _ _ _ (c mod q)); lia). replace ((c + q - 1) / q) with (S (c / q)) by (apply (Nat.div_unique _ _ _ (c mod q - 1)); lia). apply app_nil_r. }
  rewrite F, map_map. unfold procs. apply map_ext_in. intros i Hi. apply in_seq in Hi. assert (i * q < c).
  { unfold cdiv in Hi. pose proof (Nat.mul_div_le (c + q - 1) q ltac:(lia)). nia. }
  rewrite (nth_indep _ 0 (0 * w)) by (rewrite map_length, seq_length; auto). rewrite (map_nth (fun i => i * w)), seq_nth by auto. lia.
Qed.
