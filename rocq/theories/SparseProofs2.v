(** Construction, global views and element-wise operations. *)
From Verif Require Import Base BaseLemmas LayoutModel LayoutProofs RedistModel RedistProofs TensorSpec NdSpec TensorLemmas NdLemmas OpsModel OpsProofs2 OpsProofs4 ShapeModel ShapeProps BinModel BinProofs2 FactoryModel FactoryProps ConcatProofs3 DtypeModel DtypeProofs3 SparseSpec SparseModel SparseProofs.
Open Scope nat_scope.

Section S.
Context {V : Type}.
Variable zero : V.

Lemma entry_line (t u : csx V) i k j : line t i = line u k -> entry zero t i j = entry zero u k j.
Proof. unfold entry. now intros ->. Qed.

(** dense parts of stacked matrices represent the dense whole *)
Lemma stacked_represents (ls : list (csx V)) g col : stacked ls g ->
  represents (adat (dense zero col g)) (ash (dense zero col g)) (Some (major_axis col)) (map Z.of_nat (map x_major ls)) (map (dense zero col) ls).
Proof.
  intros HS. assert (HS' := HS). destruct HS as (HM & HMin & _).
  assert (SUM : zsum (map Z.of_nat (map x_major ls)) = Z.of_nat (x_major g)).
  { rewrite HM. clear. induction (map x_major ls) as [|a l IH]; [reflexivity|]. cbn [map]. rewrite list_sum_cons. cbn [zsum fold_right]. fold (zsum (map Z.of_nat l)). rewrite IH. lia. }
  split; [now rewrite !map_length|]. split; [destruct col; cbn; repeat constructor; lia|].
  split; [destruct col; cbn; lia|]. split; [apply Forall_forall; intros c Hc; apply in_map_iff in Hc as (k & <- & _); lia|].
  split; [rewrite SUM; destruct col; reflexivity|].
  intros r t Ht. rewrite nth_error_map in Ht. destruct (nth_error ls r) as [u|] eqn:Eu; [|discriminate]. injection Ht as <-.
  assert (E1 : nth r (map Z.of_nat (map x_major ls)) 0%Z = Z.of_nat (x_major u)) by (apply nth_error_nth; now rewrite !nth_error_map, Eu).
  assert (E2 : x_minor u = x_minor g) by (rewrite Forall_forall in HMin; apply HMin; eapply nth_error_In; eauto).
  assert (E3 : zsum (firstn r (map Z.of_nat (map x_major ls))) = Z.of_nat (psum (map x_major ls) r)).
  { apply psum_zsum_nat. }
  rewrite E1, E3. split; [destruct col; cbn; congruence|].
  intros idx Hi. assert (Li := in_bounds_length _ _ Hi). apply in_bounds_nth in Hi as [_ Hi].
  destruct col; cbn [dense adat ash major_axis] in *; cbn [upd length] in Li; destruct idx as [|i [|j [|]]]; try (cbn in Li; lia);
    pose proof (Hi 0%nat ltac:(cbn; lia)) as B0; pose proof (Hi 1%nat ltac:(cbn; lia)) as B1; cbn [nth upd] in B0, B1; cbn [move_axis_idx nth upd];
    apply entry_line; symmetry.
  - replace (Z.to_nat (j + Z.of_nat (psum (map x_major ls) r))) with (psum (map x_major ls) r + Z.to_nat j) by lia. apply stacked_line; auto. lia.
  - replace (Z.to_nat (i + Z.of_nat (psum (map x_major ls) r))) with (psum (map x_major ls) r + Z.to_nat i) by lia. apply stacked_line; auto. lia.
Qed.

Lemma take_stacked (t : csx V) P : 0 < P -> well_formed t -> stacked (map (take_lines P t) (seq 0 P)) t.
Proof.
  intros HP W. apply stacked_lines. split; [|split].
  - rewrite map_map. transitivity (list_sum (counts_of (x_major t) P)); [symmetry; now apply counts_of_sum|]. f_equal.
    apply (@nth_ext2 _ _ _ 0); rewrite ?counts_of_length, ?map_length, ?seq_length; auto. intros r Hr. rewrite (@nth_map_seq _ (fun x => x_major (take_lines P t x))) by auto.
    rewrite take_lines_spec by auto. cbn [of_lines x_major]. rewrite sub_length; [auto|]. rewrite lines_length.
    pose proof (psum_le_sum (counts_of (x_major t) P) (S r)) as Q. rewrite psum_S, counts_of_sum in Q by (rewrite ?counts_of_length; lia). lia.
  - apply Forall_forall. intros u Hu. apply in_map_iff in Hu as (r & <- & Hr). apply in_seq in Hr. rewrite take_lines_spec by (auto; lia). reflexivity.
  - rewrite map_map. rewrite (map_ext_in _ (fun r => sub (lines t) (psum (counts_of (x_major t) P) r) (nth r (counts_of (x_major t) P) 0))).
    2:{ intros r Hr. apply in_seq in Hr. rewrite take_lines_spec by (auto; lia). apply of_lines_lines. }
    pose proof (concat_blocks (lines t) (counts_of (x_major t) P)) as CB. rewrite counts_of_length in CB. apply CB. rewrite lines_length. apply counts_of_sum; auto.
Qed.

(** * global views *)
Lemma put_app {B} (pre l rest : list B) : length l <= length rest -> put (pre ++ rest) (length pre) l = pre ++ l ++ skipn (length l) rest.
Proof.
  intros H. unfold put. rewrite firstn_app, firstn_all, Nat.sub_diag, firstn_O, app_nil_r. do 2 f_equal.
  rewrite skipn_app. rewrite skipn_all2 by lia. cbn [app]. f_equal. lia.
Qed.
Lemma fold_put {B} : forall (bufs : list (list B)) (pre rest : list B), length rest = list_sum (lens bufs) ->
  fold_left (fun b p => put b (snd (snd p)) (fst p)) (combine bufs (combine (lens bufs) (displs_from (length pre) (lens bufs)))) (pre ++ rest) = pre ++ concat bufs.
Proof.
  induction bufs as [|l bufs IH]; intros pre rest H; cbn [lens map combine displs_from fold_left concat].
  - cbn in H. destruct rest; [|discriminate]. reflexivity.
  - cbn [lens map] in H. rewrite list_sum_cons in H. fold (lens bufs) in *. cbn [fst snd]. rewrite put_app by lia.
    rewrite app_assoc. replace (length pre + length l) with (length (pre ++ l)) by apply app_length.
    rewrite IH by (rewrite skipn_length; lia). now rewrite <- app_assoc.
Qed.
Lemma allgatherv_exact {B} (junk : B) n (bufs : list (list B)) : n = list_sum (lens bufs) ->
  allgatherv_into junk n bufs (lens bufs) (displs_from 0 (lens bufs)) = Ok (concat bufs).
Proof.
  intros ->. unfold allgatherv_into.
  assert (F : forall (l : list (list B)) off n, off + list_sum (lens l) <= n ->
     forallb (fun p => (length (fst p) <=? fst (snd p)) && (fst (snd p) + snd (snd p) <=? n)) (combine l (combine (lens l) (displs_from off (lens l)))) = true).
  { induction l as [|a l IH]; intros off n H; [reflexivity|]. cbn [lens map combine displs_from forallb fst snd] in *. rewrite list_sum_cons in H.
    rewrite andb_true_iff. split; [lia|]. apply IH. fold (lens l) in *. lia. }
  rewrite F by lia. f_equal. apply (fold_put bufs [] (repeat junk (list_sum (lens bufs)))). now rewrite repeat_length.
Qed.

Definition small (m : dcsx V) : Prop := (Z.of_nat (s_gnnz m) <= 16777216)%Z.
Lemma counts_small (m : dcsx V) : small m -> s_gnnz m = list_sum (map lnnz (s_locals m)) ->
  nnz_counts m = map Z.of_nat (map lnnz (s_locals m)) /\
  forall r, nnz_displ m r = Z.of_nat (psum (map lnnz (s_locals m)) r).
Proof.
  unfold small. intros HS E. rewrite E in HS.
  assert (EC : nnz_counts m = map Z.of_nat (map lnnz (s_locals m))).
  { unfold nnz_counts. rewrite map_map. apply map_ext_in. intros t Ht. apply fl32_id. apply (in_map lnnz) in Ht. apply (In_nth _ _ 0) in Ht as (k & Hk & <-).
    pose proof (list_sum_nth (map lnnz (s_locals m)) k). lia. }
  split; auto. intros r. unfold nnz_displ. rewrite EC.
  assert (E3 : zsum (firstn r (map Z.of_nat (map lnnz (s_locals m)))) = Z.of_nat (psum (map lnnz (s_locals m)) r)).
  { apply psum_zsum_nat. }
  rewrite E3. apply fl32_id. pose proof (psum_le_sum (map lnnz (s_locals m)) r). lia.
Qed.
Lemma displs_map l : map (psum l) (seq 0 (length l)) = displs_from 0 l.
Proof.
  apply (@nth_ext2 _ _ _ 0); rewrite ?displs_from_length, ?map_length, ?seq_length; auto. intros k Hk.
  rewrite (@nth_map_seq _ (psum l)) by auto. now rewrite displs_from_nth by auto.
Qed.
Lemma gather_exact {B} (junk : B) (m : dcsx V) (get : csx V -> list B) : s_split m = true -> small m ->
  s_gnnz m = list_sum (map lnnz (s_locals m)) -> (forall t, In t (s_locals m) -> length (get t) = lnnz t) ->
  gather_nnz junk m get = Ok (concat (map get (s_locals m))).
Proof.
  intros HS SM E HG. unfold gather_nnz. rewrite HS. destruct (counts_small m SM E) as [EC ED]. rewrite EC.
  rewrite (map_ext _ (psum (map lnnz (s_locals m)))) by (intros r; rewrite ED; lia).
  assert (EL : lens (map get (s_locals m)) = map lnnz (s_locals m)) by (unfold lens; rewrite map_map; apply map_ext_in; auto).
  rewrite map_map. rewrite (map_ext (fun x => Z.to_nat (Z.of_nat x)) (fun x => x)) by (intros; lia). rewrite map_id. rewrite E.
  rewrite <- (map_length lnnz (s_locals m)). rewrite displs_map. rewrite <- EL. now apply allgatherv_exact.
Qed.

Lemma map_add_ptr {X} (L : list (list X)) off : removelast (map (fun p => p + off) (ptr_of L)) = map (fun k => psum (lens L) k + off) (seq 0 (length L)).
Proof. unfold ptr_of. rewrite seq_S, !map_app, map_map. cbn [map]. rewrite removelast_last. reflexivity. Qed.
Lemma ptr_of_app {X} (L M : list (list X)) : ptr_of (L ++ M) = map (psum (lens L)) (seq 0 (length L)) ++ map (fun p => p + list_sum (lens L)) (ptr_of M).
Proof.
  unfold ptr_of. rewrite app_length. replace (S (length L + length M)) with (length L + S (length M)) by lia. rewrite seq_app, map_app. f_equal.
  - apply map_ext_in. intros k Hk. apply in_seq in Hk. unfold lens. rewrite map_app. apply psum_app. rewrite map_length. lia.
  - rewrite map_map. cbn [plus]. rewrite <- (Nat.add_0_r (length L)) at 1. generalize 0 as s. induction (S (length M)) as [|n IH]; intros s; [reflexivity|].
    cbn [seq map]. f_equal; [|replace (S (length L + s)) with (length L + S s) by lia; apply IH].
    unfold lens, psum. rewrite map_app, firstn_app, map_length. rewrite firstn_all2 by (rewrite map_length; lia).
    replace (length L + s - length L) with s by lia. rewrite list_sum_app. apply Nat.add_comm.
Qed.
Definition ptr_parts (n : nat) (off0 : nat) (ks : list nat) (nn : list nat) (Ls : list (list (list (nat * V)))) : list (list nat) :=
  map (fun p => let g := map (fun q => q + (off0 + psum nn (fst p))) (ptr_of (snd p)) in if fst p =? n - 1 then g else removelast g) (combine ks Ls).
Lemma ptr_glue : forall (Ls : list (list (list (nat * V)))) off, Ls <> [] ->
  concat (map (fun p => let g := map (fun q => q + (off + psum (map (fun L => list_sum (lens L)) Ls) (fst p))) (ptr_of (snd p)) in
                        if fst p =? length Ls - 1 then g else removelast g) (combine (seq 0 (length Ls)) Ls))
  = map (fun q => q + off) (ptr_of (concat Ls)).
Proof.
  induction Ls as [|L Ls IH]; intros off HN; [congruence|]. destruct Ls as [|L' Ls].
  - cbn. rewrite !app_nil_r. rewrite psum_0, Nat.add_0_r. reflexivity.
  - set (Ms := L' :: Ls) in *. cbn [length seq combine map concat fst snd]. rewrite psum_0, Nat.add_0_r.
    replace (0 =? S (length Ms) - 1) with false by (symmetry; apply Nat.eqb_neq; unfold Ms; cbn; lia).
    rewrite map_add_ptr. rewrite ptr_of_app, map_app. f_equal; [rewrite map_map; apply map_ext; intros; reflexivity|].
    rewrite map_map. rewrite (map_ext _ (fun q => q + (off + list_sum (lens L)))) by (intros; lia). rewrite <- IH by (unfold Ms; discriminate). f_equal.
    rewrite <- seq_shift. 
    assert (CM : forall (ks : list nat) (Zs : list (list (list (nat * V)))), combine (map S ks) Zs = map (fun p => (S (fst p), snd p)) (combine ks Zs)).
    { induction ks as [|k ks IK]; intros [|z zs]; cbn; auto. now rewrite IK. }
    rewrite CM, map_map. apply map_ext_in. intros [k M] Hk. apply in_combine_l in Hk. apply in_seq in Hk. cbn [fst snd].
    rewrite psum_cons. replace (S k =? S (length Ms) - 1) with (k =? length Ms - 1) by (apply eq_true_iff_eq; rewrite !Nat.eqb_eq; lia).
    replace (off + (list_sum (lens L) + psum (map (fun L0 => list_sum (lens L0)) Ms) k)) with (off + list_sum (lens L) + psum (map (fun L0 => list_sum (lens L0)) Ms) k) by lia. reflexivity.
Qed.

Lemma combine_map_r {A B C} (f : B -> C) (ks : list A) (l : list B) : combine ks (map f l) = map (fun p => (fst p, f (snd p))) (combine ks l).
Proof. revert l. induction ks as [|k ks IH]; intros [|b l]; cbn; auto. now rewrite IH. Qed.

Lemma nnz_sum (ls : list (csx V)) g : Forall well_formed ls -> well_formed g -> stacked ls g -> lnnz g = list_sum (map lnnz ls).
Proof.
  intros W Wg ST. apply stacked_lines in ST as (_ & _ & E). unfold lnnz. rewrite (nnz_lines g Wg), <- E. clear E.
  induction W as [|t ls Wt W IH]; [reflexivity|]. cbn [map concat]. unfold lens in *. rewrite list_sum_cons, map_app, list_sum_app, IH. now rewrite (nnz_lines t Wt).
Qed.

Lemma indptr_exact (m : dcsx V) g : s_split m = true -> small m -> s_locals m <> [] -> Forall well_formed (s_locals m) -> well_formed g -> stacked (s_locals m) g ->
  s_gnnz m = lnnz g -> gindptr m = Ok (x_ptr g).
Proof.
  intros HS SM NE HW WG ST EG. rewrite (nnz_sum _ _ HW WG ST) in EG. apply stacked_lines in ST as (HM & HMi & EL). rewrite Forall_forall in HW.
    unfold gindptr, global_indptr. rewrite HS. cbn [bind]. f_equal. destruct (counts_small m SM EG) as [_ ED].
    rewrite (wf_ptr g WG), <- EL.
    pose proof (ptr_glue (map lines (s_locals m)) 0 ltac:(destruct (s_locals m); [congruence|discriminate])) as PG.
    rewrite (map_ext (fun q => q + 0) (fun q => q)), map_id in PG by (intros; lia). rewrite <- PG, map_length. f_equal.
    rewrite combine_map_r, map_map. apply map_ext_in. intros [r t] Hr. cbn [fst snd]. unfold indptr_part.
    assert (Ht : In t (s_locals m)) by (eapply in_combine_r; eauto). rewrite (wf_ptr t (HW t Ht)). rewrite ED.
    replace (map (fun L => list_sum (lens L)) (map lines (s_locals m))) with (map lnnz (s_locals m)); [rewrite Nat2Z.id; reflexivity|].
    rewrite map_map. apply map_ext_in. intros u Hu. unfold lnnz. now apply nnz_lines, HW.
Qed.


Lemma views_exact (m : dcsx V) g : s_split m = true -> small m -> s_locals m <> [] -> Forall well_formed (s_locals m) -> well_formed g -> stacked (s_locals m) g ->
  s_gnnz m = lnnz g ->
  gdata zero m = Ok (x_val g) /\ gindices m = Ok (x_ind g) /\ gindptr m = Ok (x_ptr g) /\ lnnz g = list_sum (map lnnz (s_locals m)).
Proof.
  intros HS SM NE HW WG ST EG. assert (ST' := ST). apply stacked_lines in ST as (HM & HMi & EL).
  rewrite Forall_forall in HW.
  assert (CV : forall B (f : nat * V -> B) (get : csx V -> list B), (forall t, well_formed t -> get t = concat (map (map f) (lines t))) -> concat (map get (s_locals m)) = get g).
  { intros B f get HG. rewrite (HG g WG), <- EL. clear EL HM HMi ST' EG SM NE. revert HW. induction (s_locals m) as [|t ls IH]; intros HW; [reflexivity|].
    cbn [map concat]. rewrite map_app, concat_app, <- IH by (intros; apply HW; now right). now rewrite <- HG by (apply HW; now left). }
  assert (EN : lnnz g = list_sum (map lnnz (s_locals m))).
  { unfold lnnz. rewrite <- (CV _ snd x_val) by (intros; now apply wf_val). clear. induction (s_locals m) as [|t l IH]; [reflexivity|]. cbn [map concat]. now rewrite app_length, list_sum_cons, IH. }
  rewrite EN in EG.
  split; [|split; [|split; auto]].
  - unfold gdata. rewrite (gather_exact zero m x_val HS SM EG) by reflexivity. f_equal. apply (CV _ snd x_val). intros; now apply wf_val.
  - unfold gindices. rewrite (gather_exact 0 m x_ind HS SM EG); [|intros t Ht; destruct (HW t Ht) as (_ & _ & _ & _ & E & _); unfold lnnz; auto].
    f_equal. apply (CV _ fst x_ind). intros; now apply wf_ind.
  - apply indptr_exact; auto; [now apply Forall_forall|]. now rewrite EN.
Qed.
End S.
