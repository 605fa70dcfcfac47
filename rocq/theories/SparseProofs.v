(** Lemmas about compressed matrices: a well-formed one is determined by its lines. *)
From Verif Require Import Base BaseLemmas LayoutModel LayoutProofs RedistModel RedistProofs TensorSpec NdSpec TensorLemmas NdLemmas OpsModel ShapeModel BinModel FactoryModel DtypeModel DtypeProofs3 SparseSpec SparseModel.
Open Scope nat_scope.

Definition lines {V} (t : csx V) : list (list (nat * V)) := map (line t) (seq 0 (x_major t)).
Definition ptr_of {X} (L : list (list X)) : list nat := map (psum (lens L)) (seq 0 (S (length L))).
Definition of_lines {V} (m : nat) (L : list (list (nat * V))) : csx V :=
  Csx (length L) m (ptr_of L) (concat (map (map fst) L)) (concat (map (map snd) L)).

Lemma lines_length {V} (t : csx V) : length (lines t) = x_major t.
Proof. unfold lines. now rewrite map_length, seq_length. Qed.
Lemma lines_nth {V} (t : csx V) i : i < x_major t -> nth i (lines t) [] = line t i.
Proof. intros H. unfold lines. now apply (@nth_map_seq _ (line t)). Qed.
Lemma nth_error_ptr {X} (L : list (list X)) k : k <= length L -> nth k (ptr_of L) 0 = psum (lens L) k.
Proof. intros H. unfold ptr_of. rewrite (@nth_map_seq _ (psum (lens L))) by lia. reflexivity. Qed.
Lemma ptr_of_length {X} (L : list (list X)) : length (ptr_of L) = S (length L).
Proof. unfold ptr_of. now rewrite map_length, seq_length. Qed.

Lemma line_length {V} (t : csx V) i : well_formed t -> i < x_major t ->
  length (line t i) = nth (S i) (x_ptr t) 0 - nth i (x_ptr t) 0.
Proof.
  intros (L & Z0 & M & E & LV & _) Hi. unfold line. rewrite combine_length.
  assert (MM : forall j, S i <= j -> j <= x_major t -> nth (S i) (x_ptr t) 0 <= nth j (x_ptr t) 0).
  { intros j Hj. induction Hj as [|j Hj IH]; intros; [lia|]. specialize (M j). lia. }
  specialize (MM (x_major t) ltac:(lia) ltac:(lia)). specialize (M i Hi).
  rewrite !sub_length; lia.
Qed.
Lemma wf_mono {V} (t : csx V) : well_formed t -> forall i j, i <= j -> j <= x_major t -> nth i (x_ptr t) 0 <= nth j (x_ptr t) 0.
Proof. intros (L & Z0 & M & E & LV & _) i j Hj. induction Hj as [|j Hj IH]; intros; [lia|]. specialize (M j). lia. Qed.

Lemma lines_psum {V} (t : csx V) : well_formed t -> forall k, k <= x_major t -> psum (lens (lines t)) k = nth k (x_ptr t) 0.
Proof.
  intros W. induction k as [|k IH]; intros Hk.
  - rewrite psum_0. destruct W as (_ & Z0 & _). auto.
  - rewrite psum_S by (rewrite lens_length, lines_length; lia). rewrite IH by lia. rewrite lens_nth, lines_nth by lia.
    rewrite line_length by (auto; lia). pose proof (wf_mono t W k (S k) ltac:(lia) Hk). lia.
Qed.
Lemma wf_ptr {V} (t : csx V) : well_formed t -> x_ptr t = ptr_of (lines t).
Proof.
  intros W. destruct W as (L & W'). apply (@nth_ext2 _ _ _ 0); rewrite ?ptr_of_length, ?lines_length; [auto|].
  intros k Hk. rewrite nth_error_ptr by (rewrite lines_length; lia). rewrite lines_psum; [auto|split; auto|lia].
Qed.

Lemma combine_sub_fst {V} (a : list nat) (b : list V) s n : length a = length b -> map fst (combine (sub a s n) (sub b s n)) = sub a s n.
Proof.
  intros H. unfold sub. revert s n b H. intros s n b H.
  assert (E : length (firstn n (skipn s a)) = length (firstn n (skipn s b))) by (rewrite !firstn_length, !skipn_length; lia).
  revert E. generalize (firstn n (skipn s a)) as u. generalize (firstn n (skipn s b)) as v. induction v; destruct u; cbn; intros; try lia; auto. now rewrite IHv by lia.
Qed.
Lemma combine_sub_snd {V} (a : list nat) (b : list V) s n : length a = length b -> map snd (combine (sub a s n) (sub b s n)) = sub b s n.
Proof.
  intros H. unfold sub.
  assert (E : length (firstn n (skipn s a)) = length (firstn n (skipn s b))) by (rewrite !firstn_length, !skipn_length; lia).
  revert E. generalize (firstn n (skipn s a)) as u. generalize (firstn n (skipn s b)) as v. induction v; destruct u; cbn; intros; try lia; auto. now rewrite IHv by lia.
Qed.
Lemma pieces_concat {B} (l : list B) (p : nat -> nat) n : p 0 = 0 -> (forall i, i < n -> p i <= p (S i)) ->
  concat (map (fun i => sub l (p i) (p (S i) - p i)) (seq 0 n)) = sub l 0 (p n).
Proof.
  intros P0. induction n as [|n IH]; intros M; [cbn; now rewrite P0, sub_0|].
  rewrite seq_S, map_app, concat_app, IH by (intros; apply M; lia). cbn. rewrite app_nil_r.
  change (sub l (p n)) with (sub l (0 + p n)). rewrite sub_app_sub. f_equal. specialize (M n ltac:(lia)). lia.
Qed.
Lemma wf_ind {V} (t : csx V) : well_formed t -> x_ind t = concat (map (map fst) (lines t)).
Proof.
  intros (L & Z0 & M & E & LV & _). unfold lines. rewrite map_map.
  rewrite (map_ext _ (fun i => sub (x_ind t) (nth i (x_ptr t) 0) (nth (S i) (x_ptr t) 0 - nth i (x_ptr t) 0)))
    by (intros i; unfold line; apply combine_sub_fst; auto).
  rewrite (pieces_concat (x_ind t) (fun i => nth i (x_ptr t) 0)); auto. rewrite E. now rewrite sub_all.
Qed.
Lemma wf_val {V} (t : csx V) : well_formed t -> x_val t = concat (map (map snd) (lines t)).
Proof.
  intros (L & Z0 & M & E & LV & _). unfold lines. rewrite map_map.
  rewrite (map_ext _ (fun i => sub (x_val t) (nth i (x_ptr t) 0) (nth (S i) (x_ptr t) 0 - nth i (x_ptr t) 0)))
    by (intros i; unfold line; apply combine_sub_snd; auto).
  rewrite (pieces_concat (x_val t) (fun i => nth i (x_ptr t) 0)); auto. rewrite E, <- LV. now rewrite sub_all.
Qed.
Lemma nnz_lines {V} (t : csx V) : well_formed t -> length (x_val t) = list_sum (lens (lines t)).
Proof.
  intros W. rewrite <- (@psum_all (lens (lines t)) (x_major t)) by (rewrite lens_length, lines_length; lia).
  rewrite lines_psum by auto. destruct W as (L & Z0 & M & E & LV & _). congruence.
Qed.

Lemma of_lines_line {V} m (L : list (list (nat * V))) i : i < length L -> line (of_lines m L) i = nth i L [].
Proof.
  intros Hi. unfold line, of_lines. cbn [x_ptr x_ind x_val]. rewrite !nth_error_ptr by lia.
  rewrite psum_S by (rewrite lens_length; lia). rewrite lens_nth. replace (psum (lens L) i + length (nth i L []) - psum (lens L) i) with (length (nth i L [])) by lia.
  assert (G : forall B (f : nat * V -> B), sub (concat (map (map f) L)) (psum (lens L) i) (length (nth i L [])) = map f (nth i L [])).
  { intros B f. clear m. revert i Hi. induction L as [|l L IH]; intros i Hi; [cbn in Hi; lia|]. destruct i as [|i].
    - cbn [nth map concat]. rewrite psum_0. unfold sub. rewrite skipn_O. rewrite <- (map_length f l). rewrite firstn_app, firstn_all, Nat.sub_diag, firstn_O. apply app_nil_r.
    - cbn [nth map concat]. cbn [lens map]. rewrite psum_cons. unfold sub. rewrite skipn_app, map_length.
      rewrite skipn_all2 by (rewrite map_length; lia). cbn [app]. replace (length l + psum (map (length (A:=nat * V)) L) i - length l) with (psum (lens L) i) by (unfold lens; lia).
      apply IH. cbn in Hi. lia. }
  rewrite !G. generalize (nth i L []) as l. induction l as [|[a b] l IH]; cbn; congruence.
Qed.
Lemma of_lines_lines {V} m (L : list (list (nat * V))) : lines (of_lines m L) = L.
Proof.
  apply (@nth_ext2 _ _ _ []); rewrite lines_length; [reflexivity|]. intros i Hi. rewrite lines_nth by auto. apply of_lines_line. exact Hi.
Qed.
Lemma of_lines_wf {V} m (L : list (list (nat * V))) :
  Forall (fun l => NoDup (map fst l) /\ Forall (fun p => fst p < m) l) L -> well_formed (of_lines m L).
Proof.
  intros H. split; [apply ptr_of_length|]. split; [cbn [of_lines x_ptr]; rewrite nth_error_ptr by lia; apply psum_0|].
  split; [intros i Hi; cbn [of_lines x_ptr x_major] in *; rewrite !nth_error_ptr by lia; apply psum_mono; lia|].
  assert (LL : forall B (f : nat * V -> B), length (concat (map (map f) L)) = list_sum (lens L)).
  { intros B f. clear H. induction L as [|l L IH]; [reflexivity|]. cbn [map concat]. rewrite app_length, map_length, IH. reflexivity. }
  split; [cbn [of_lines x_ptr x_ind x_major]; rewrite nth_error_ptr by lia; rewrite psum_all by (rewrite lens_length; lia); now rewrite LL|].
  split; [cbn [of_lines x_val x_ind]; now rewrite !LL|].
  intros i Hi. rewrite of_lines_line by exact Hi. rewrite Forall_forall in H. apply (H (nth i L [])). apply nth_In, Hi.
Qed.
Lemma wf_lines {V} (t : csx V) : well_formed t -> Forall (fun l => NoDup (map fst l) /\ Forall (fun p => fst p < x_minor t) l) (lines t).
Proof. intros W. apply Forall_forall. intros l Hl. apply in_map_iff in Hl as (i & <- & Hi). apply in_seq in Hi. apply W. lia. Qed.
Lemma of_lines_eta {V} (t : csx V) : well_formed t -> t = of_lines (x_minor t) (lines t).
Proof.
  intros W. pose proof (wf_ptr t W) as E1. pose proof (wf_ind t W) as E2. pose proof (wf_val t W) as E3. pose proof (lines_length t) as E4.
  unfold of_lines. rewrite <- E1, <- E2, <- E3, E4. now destruct t.
Qed.

Lemma stacked_lines {V} (ls : list (csx V)) g : stacked ls g <-> x_major g = list_sum (map x_major ls) /\
  Forall (fun t => x_minor t = x_minor g) ls /\ concat (map lines ls) = lines g.
Proof. unfold stacked. rewrite flat_map_concat_map. reflexivity. Qed.

Lemma stack_exists {V} (ls : list (csx V)) m : Forall well_formed ls -> Forall (fun t => x_minor t = m) ls ->
  exists g, well_formed g /\ stacked ls g /\ x_minor g = m.
Proof.
  intros W M. exists (of_lines m (concat (map lines ls))). split; [|split; [|reflexivity]].
  - apply of_lines_wf. apply Forall_forall. intros l Hl. apply in_concat in Hl as (L & HL & Hl). apply in_map_iff in HL as (t & <- & Ht).
    rewrite Forall_forall in W, M. specialize (W t Ht). specialize (M t Ht). apply wf_lines in W. rewrite Forall_forall in W. rewrite <- M. apply W, Hl.
  - apply stacked_lines. split; [|split; [exact M|now rewrite of_lines_lines]]. cbn [of_lines x_major]. clear W M. induction ls as [|t ls IH]; [reflexivity|].
    cbn [map concat]. rewrite app_length, lines_length, IH. reflexivity.
Qed.

Lemma stacked_line {V} (ls : list (csx V)) g r t i : stacked ls g -> nth_error ls r = Some t -> i < x_major t ->
  line g (psum (map x_major ls) r + i) = line t i.
Proof.
  rewrite stacked_lines. intros (HM & _ & E) Ht Hi.
  assert (LE : lens (map lines ls) = map x_major ls) by (unfold lens; rewrite map_map; apply map_ext; intros; apply lines_length).
  assert (Hr : r < length ls) by (apply nth_error_Some; congruence).
  assert (EN : nth r (map lines ls) [] = lines t) by (apply nth_error_nth; now rewrite nth_error_map, Ht).
  pose proof (glob_nth (map lines ls) r (k:=i) [] ltac:(rewrite EN, lines_length; auto)) as G.
  rewrite EN, lines_nth in G by auto. unfold glob in G. rewrite E, LE in G. rewrite <- G. symmetry. apply lines_nth.
  rewrite HM. pose proof (psum_le_sum (map x_major ls) (S r)) as Q. rewrite psum_S in Q by (rewrite map_length; auto).
  assert (nth r (map x_major ls) 0 = x_major t) by (apply nth_error_nth; now rewrite nth_error_map, Ht). lia.
Qed.

(** cutting lines out *)
Lemma take_lines_spec {V} (t : csx V) P r : 0 < P -> r < P -> well_formed t ->
  take_lines P t r = of_lines (x_minor t) (sub (lines t) (psum (counts_of (x_major t) P) r) (nth r (counts_of (x_major t) P) 0)).
Proof.
  intros HP Hr W. unfold take_lines, chunk_sparse. destruct (chunk_1d (x_major t) r P) as [st n] eqn:EC.
  assert (E1 : st = psum (counts_of (x_major t) P) r) by (rewrite counts_of_psum by lia; unfold cstart; now rewrite EC).
  assert (E2 : n = nth r (counts_of (x_major t) P) 0) by (rewrite counts_of_nth by lia; unfold clen; now rewrite EC).
  rewrite <- E1, <- E2.
  assert (HB : st + n <= x_major t).
  { pose proof (psum_le_sum (counts_of (x_major t) P) (S r)) as Q. rewrite psum_S, counts_of_sum in Q by (rewrite ?counts_of_length; lia). lia. }
  clear E1 E2 EC. set (L := lines t). assert (LL : length L = x_major t) by apply lines_length.
  rewrite (wf_ptr t W), (wf_ind t W), (wf_val t W). fold L. rewrite !nth_error_ptr by lia.
  assert (SL : length (sub L st n) = n) by (apply sub_length; lia).
  assert (PS : forall k, k <= n -> psum (lens (sub L st n)) k = psum (lens L) (st + k) - psum (lens L) st).
  { induction k as [|k IH]; intros Hk; [rewrite psum_0, Nat.add_0_r; lia|]. rewrite psum_S by (rewrite lens_length; lia). rewrite IH by lia.
    rewrite lens_nth, sub_nth by lia. replace (st + S k) with (S (st + k)) by lia. rewrite psum_S by (rewrite lens_length; lia). rewrite lens_nth.
    pose proof (psum_mono (lens L) (i:=st) (j:=st + k) ltac:(lia)). lia. }
  unfold of_lines. rewrite SL. replace (st + n - st) with n by lia. f_equal.
  - apply (@nth_ext2 _ _ _ 0).
    { rewrite map_length, sub_length by (rewrite ptr_of_length; lia). rewrite ptr_of_length. lia. }
    intros k Hk. rewrite map_length, sub_length in Hk by (rewrite ptr_of_length; lia).
    rewrite nth_error_ptr, PS by lia.
    rewrite (nth_indep _ 0 ((fun p => p - hd 0 (sub (ptr_of L) st (st + n + 1 - st))) 0)) by (rewrite map_length, sub_length by (rewrite ptr_of_length; lia); lia).
    rewrite (map_nth (fun p => p - hd 0 (sub (ptr_of L) st (st + n + 1 - st)))). rewrite sub_nth by lia. rewrite nth_error_ptr by lia. f_equal.
    change (hd 0 (sub (ptr_of L) st (st + n + 1 - st))) with (hd 0 (sub (ptr_of L) st (st + n + 1 - st))).
    replace (hd 0 (sub (ptr_of L) st (st + n + 1 - st))) with (nth 0 (sub (ptr_of L) st (st + n + 1 - st)) 0) by (destruct (sub (ptr_of L) st (st + n + 1 - st)); reflexivity).
    rewrite sub_nth by lia. rewrite nth_error_ptr by lia. f_equal. lia.
  - assert (G : forall B (f : nat * V -> B), sub (concat (map (map f) L)) (psum (lens L) st) (psum (lens L) (st + n) - psum (lens L) st) = concat (map (map f) (sub L st n))).
    { intros B f. rewrite <- (firstn_skipn st L) at 1. rewrite <- (firstn_skipn n (skipn st L)). rewrite !map_app, !concat_app.
      assert (CL : forall M : list (list (nat * V)), length (concat (map (map f) M)) = list_sum (lens M)).
      { induction M as [|l M IM]; [reflexivity|]. cbn [map concat]. rewrite app_length, map_length, IM. reflexivity. }
      fold (sub L st n). pose proof (CL (firstn st L)) as C1. pose proof (CL (sub L st n)) as C2.
      assert (F1 : list_sum (lens (firstn st L)) = psum (lens L) st) by (unfold lens, psum; now rewrite firstn_map).
      assert (F2 : list_sum (lens (sub L st n)) = psum (lens L) (st + n) - psum (lens L) st) by (rewrite <- PS by lia; symmetry; apply psum_all; rewrite lens_length; lia).
      rewrite F1 in C1. rewrite F2 in C2. unfold sub at 1. rewrite skipn_app, C1, Nat.sub_diag, skipn_O. rewrite skipn_all2 by lia. cbn [app].
      rewrite <- C2. rewrite firstn_app, firstn_all, Nat.sub_diag, firstn_O. apply app_nil_r. }
    apply G.
  - assert (G : forall B (f : nat * V -> B), sub (concat (map (map f) L)) (psum (lens L) st) (psum (lens L) (st + n) - psum (lens L) st) = concat (map (map f) (sub L st n))).
    { intros B f. rewrite <- (firstn_skipn st L) at 1. rewrite <- (firstn_skipn n (skipn st L)). rewrite !map_app, !concat_app.
      assert (CL : forall M : list (list (nat * V)), length (concat (map (map f) M)) = list_sum (lens M)).
      { induction M as [|l M IM]; [reflexivity|]. cbn [map concat]. rewrite app_length, map_length, IM. reflexivity. }
      fold (sub L st n). pose proof (CL (firstn st L)) as C1. pose proof (CL (sub L st n)) as C2.
      assert (F1 : list_sum (lens (firstn st L)) = psum (lens L) st) by (unfold lens, psum; now rewrite firstn_map).
      assert (F2 : list_sum (lens (sub L st n)) = psum (lens L) (st + n) - psum (lens L) st) by (rewrite <- PS by lia; symmetry; apply psum_all; rewrite lens_length; lia).
      rewrite F1 in C1. rewrite F2 in C2. unfold sub at 1. rewrite skipn_app, C1, Nat.sub_diag, skipn_O. rewrite skipn_all2 by lia. cbn [app].
      rewrite <- C2. rewrite firstn_app, firstn_all, Nat.sub_diag, firstn_O. apply app_nil_r. }
    apply G.
Qed.
Lemma take_lines_wf {V} (t : csx V) P r : 0 < P -> r < P -> well_formed t -> well_formed (take_lines P t r).
Proof.
  intros HP Hr W. rewrite take_lines_spec by auto. apply of_lines_wf. apply wf_lines in W. apply Forall_forall. intros l Hl. rewrite Forall_forall in W. apply W.
  unfold sub in Hl. rewrite <- (firstn_skipn (psum (counts_of (x_major t) P) r) (lines t)), in_app_iff. right.
  rewrite <- (firstn_skipn (nth r (counts_of (x_major t) P) 0) (skipn _ _)), in_app_iff. now left.
Qed.
