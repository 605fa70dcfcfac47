(** C25 (moments) and C26 (bincount). *)
From Coq Require Import QArith Qfield List ZArith Bool Lia.
From Verif Require Import Base BaseLemmas StatModel StatSpec StatProofs.
Import ListNotations.
Open Scope Q_scope.

(** the global sample: every rank's numbers, in rank order *)
Definition finite (data : list (list Q)) : list (list num) := map (map Some) data.

Lemma row_mean_flat l : row_mean l (nan_to_zero (torch_mean (map Some l)), nnat (length (map Some l))).
Proof.
  split; cbn [fst snd]; [|apply isq_len]. destruct l as [|x l]; [exists 0; split; reflexivity|].
  destruct (isq_mean (x :: l)) as (q & E & H); [easy|]. rewrite E. exists q. auto.
Qed.
Lemma row_mean_axis l : row_mean l (if Nat.eqb (length (map Some l)) 0 then Some 0 else torch_mean (map Some l), nnat (length (map Some l))).
Proof.
  split; cbn [fst snd]; [|apply isq_len]. destruct l as [|x l]; [exists 0; split; reflexivity|]. now apply isq_mean.
Qed.
Lemma sq_dev_one x : sq_dev [x] (mean_of [x]) == 0.
Proof. unfold sq_dev, mean_of, qlen. cbn. field. Qed.
Lemma torch_var_one x : torch_var true [Some x] = None.
Proof. reflexivity. Qed.
Lemma row_var_flat c l : row_var c l (nan_to_zero (torch_var c (map Some l)), nan_to_zero (torch_mean (map Some l)), nnat (length (map Some l))).
Proof.
  destruct (row_mean_flat l) as [A B]. cbn [fst snd] in *. split; [exact A|]. split; [exact B|]. cbn [fst snd].
  destruct l as [|x l].
  - exists 0. split; [destruct c; exists 0; split; reflexivity|]. unfold sq_dev. cbn [map]. rewrite qsum_nil. ring.
  - destruct (Bool.bool_dec c true) as [->|Nc]; [destruct l as [|y l]|].
    + exists 0. split; [cbn [map]; rewrite torch_var_one; exists 0; split; reflexivity|]. rewrite sq_dev_one. ring.
    + exists (var_of true (x :: y :: l)). split.
      * destruct (isq_var true (x :: y :: l)) as (q & E & H); [easy|cbn; lia|]. rewrite E. exists q. auto.
      * unfold var_of, sq_dev. field. apply (qlen_minus (x :: y :: l) true). cbn. lia.
    + destruct c; [easy|]. exists (var_of false (x :: l)). split.
      * destruct (isq_var false (x :: l)) as (q & E & H); [easy|easy|]. rewrite E. exists q. auto.
      * unfold var_of, sq_dev. field. apply qlen_nonzero. easy.
Qed.
Lemma row_var_axis c l : (c = true -> length l <> 1%nat) ->
  row_var c l (if Nat.eqb (length (map Some l)) 0 then Some 0 else torch_var c (map Some l),
               if Nat.eqb (length (map Some l)) 0 then Some 0 else torch_mean (map Some l), nnat (length (map Some l))).
Proof.
  intros Hc. destruct (row_mean_axis l) as [A B]. cbn [fst snd] in *. split; [exact A|]. split; [exact B|]. cbn [fst snd].
  destruct l as [|x l].
  - exists 0. split; [exists 0; split; reflexivity|]. unfold sq_dev. cbn [map]. rewrite qsum_nil. ring.
  - exists (var_of c (x :: l)). split.
    + rewrite map_length. change (Nat.eqb (length (x :: l)) 0) with false. cbv iota. now apply isq_var.
    + unfold var_of, sq_dev. field. apply qlen_minus. destruct c; auto; easy.
Qed.

Lemma fold_mean (f : list Q -> num * num) : (forall l, row_mean l (f l)) -> forall data a acc,
  row_mean a acc -> match data with b :: _ => a ++ b <> [] | [] => True end ->
  row_mean (a ++ concat data) (fold_left merge_mean (map f data) acc).
Proof.
  intros Hf. induction data as [|b data IH]; intros a acc Ha H; cbn [map fold_left concat]; [now rewrite app_nil_r|].
  rewrite app_assoc. apply IH.
  - apply merge_mean_ok; auto.
  - destruct data; auto. destruct a, b; cbn in *; try easy.
Qed.
Lemma fold_var c (f : list Q -> num * num * num) data : (forall l, In l data -> row_var c l (f l)) -> forall a acc,
  row_var c a acc -> data <> [] -> match data with b :: _ => (if c then 2 else 1) <= length (a ++ b) | [] => True end%nat ->
  isq (fst (fst (fold_left (merge_var c) (map f data) acc))) (var_of c (a ++ concat data)).
Proof.
  induction data as [|b data IH]; intros Hf a acc Ha Hd H; [easy|]. cbn [map fold_left concat].
  destruct (merge_var_ok c a b acc (f b) Ha ltac:(apply Hf; cbn; auto)) as [R V].
  - intros E. rewrite E in H. cbn in H. destruct c; lia.
  - intros ->. lia.
  - destruct data as [|b' data].
    + cbn [map fold_left concat]. now rewrite app_nil_r.
    + rewrite app_assoc. apply IH; auto.
      * intros l Hl. apply Hf. cbn. auto.
      * easy.
      * rewrite app_length. lia.
Qed.

(** C25: the mean of a sample distributed over at least two ranks, computed with axis=None
    or along the split axis (one lane), is the mean of the whole sample, for every division
    of the sample among the ranks.  Restriction: the first two ranks are not both empty. *)
Theorem C25_mean_partial : forall d0 d1 ds, d0 ++ d1 <> [] ->
  let data := d0 :: d1 :: ds in
  exists m m', mean_flat (finite data) = Some m /\ m == mean_of (concat data) /\
               mean_axis (finite data) = Some m' /\ m' == mean_of (concat data).
Proof.
  intros d0 d1 ds H data. unfold mean_flat, mean_axis, fold_rows, finite. cbn [map hd tl data].
  rewrite !map_map.
  pose proof (fold_mean (fun l => (nan_to_zero (torch_mean (map Some l)), nnat (length (map Some l)))) row_mean_flat (d1 :: ds) d0 _ (row_mean_flat d0) H) as [(m & E & M) _].
  pose proof (fold_mean (fun l => (if Nat.eqb (length (map Some l)) 0 then Some 0 else torch_mean (map Some l), nnat (length (map Some l)))) row_mean_axis (d1 :: ds) d0 _ (row_mean_axis d0) H) as [(m' & E' & M') _].
  exists m, m'. auto.
Qed.
Print Assumptions C25_mean_partial.
(** Variance (ddof 0 or 1) over all elements.  Restriction: the first two ranks together
    hold at least ddof + 1 numbers. *)
Theorem C25_var_flat_partial : forall (c : bool) (d0 d1 : list Q) (ds : list (list Q)), ((if c then 2 else 1) <= length (d0 ++ d1))%nat ->
  let data := d0 :: d1 :: ds in exists v, var_flat c (finite data) = Some v /\ v == var_of c (concat data).
Proof.
  intros c d0 d1 ds H data. unfold var_flat, fold_rows, finite. cbn [map hd tl data]. rewrite !map_map.
  pose proof (fold_var c (fun l => (nan_to_zero (torch_var c (map Some l)), nan_to_zero (torch_mean (map Some l)), nnat (length (map Some l)))) (d1 :: ds)
    (fun l _ => row_var_flat c l) d0 _ (row_var_flat c d0) ltac:(easy) H) as (v & E & V).
  exists v. auto.
Qed.
Print Assumptions C25_var_flat_partial.
(** Variance along the split axis.  Restriction: also, with ddof = 1 no rank holds exactly one row. *)
Theorem C25_var_axis_partial : forall (c : bool) (d0 d1 : list Q) (ds : list (list Q)), let data := d0 :: d1 :: ds in
  ((if c then 2 else 1) <= length (d0 ++ d1))%nat -> (c = true -> forall l, In l data -> length l <> 1%nat) ->
  exists v, var_axis c (finite data) = Some v /\ v == var_of c (concat data).
Proof.
  intros c d0 d1 ds data H H1. unfold var_axis, fold_rows, finite. cbn [map hd tl data]. rewrite !map_map.
  pose proof (fold_var c (fun l => (if Nat.eqb (length (map Some l)) 0 then Some 0 else torch_var c (map Some l),
                 if Nat.eqb (length (map Some l)) 0 then Some 0 else torch_mean (map Some l), nnat (length (map Some l)))) (d1 :: ds)
    (fun l Hl => row_var_axis c l (fun E => H1 E l (or_intror Hl))) d0 _ (row_var_axis c d0 (fun E => H1 E d0 (or_introl eq_refl))) ltac:(easy) H) as (v & E & V).
  exists v. auto.
Qed.
Print Assumptions C25_var_axis_partial.
Example C25_instance : [] ++ [3; 5] <> ([] : list Q) /\ (2 <= length ([] ++ [3; 5] : list Q)%Q)%nat /\
  match var_axis true (finite [[]; [3; 5]; [7; 1]; []]) with Some v => v == 20 # 3 | None => False end.
Proof. repeat split; cbn; auto; easy. Qed.

(** Two empty leading ranks make the mean NaN; *)
Theorem C25_empty_ranks_refuted : mean_axis (finite [[]; []; [4]]) = None /\ mean_flat (finite [[]; []; [4]]) = None.
Proof. split; reflexivity. Qed.
(** one row per rank makes the unbiased variance along the split axis NaN; *)
Theorem C25_one_row_refuted : var_axis true (finite [[1]; [2]; [6]]) = None /\ var_of true [1; 2; 6] == 7.
Proof. split; reflexivity. Qed.
(** a NaN in the data is ignored by mean with axis=None (NumPy returns NaN). *)
Theorem C25_nan_masked_refuted : exists m, mean_flat [[Some 1; None]; [Some 4; Some 4]] = Some m /\ m == 2.
Proof. eexists. split; [vm_compute; reflexivity|]. reflexivity. Qed.

(** Reported split axis of mean / var over axes other than the split axis: one axis *)
Theorem C25_split_int : forall ndim split axis, (split < ndim)%nat -> (axis < ndim)%nat -> axis <> split ->
  nth_error (filter (fun d => negb (Nat.eqb d axis)) (seq 0 ndim)) (moment_split_int split axis) = Some split.
Proof.
  assert (F : forall n s axis, (axis < s)%nat -> filter (fun d => negb (Nat.eqb d axis)) (seq s n) = seq s n).
  { induction n as [|n IH]; intros s axis H; cbn [seq filter]; auto. destruct (Nat.eqb_spec s axis); [lia|]. cbn. f_equal. apply IH. lia. }
  assert (N : forall n s k, (k < n)%nat -> nth_error (seq s n) k = Some (s + k)%nat).
  { induction n as [|n IH]; intros s k H; [lia|]. destruct k; cbn; [f_equal; lia|]. rewrite IH by lia. f_equal. lia. }
  assert (G : forall n s split axis, (s <= split < s + n)%nat -> (s <= axis < s + n)%nat -> axis <> split ->
    nth_error (filter (fun d => negb (Nat.eqb d axis)) (seq s n)) (if Nat.ltb split axis then split - s else split - s - 1)%nat = Some split).
  { induction n as [|n IH]; intros s split axis H1 H2 H3; [lia|]. cbn [seq filter]. destruct (Nat.eqb_spec s axis) as [->|Ne]; cbn [negb].
    - rewrite F by lia. destruct (Nat.ltb_spec split axis); [lia|]. rewrite N by lia. f_equal. lia.
    - destruct (Nat.eq_dec s split) as [->|Ns].
      + destruct (Nat.ltb_spec split axis); [|lia]. rewrite Nat.sub_diag. reflexivity.
      + specialize (IH (S s) split axis ltac:(lia) ltac:(lia) H3). destruct (Nat.ltb_spec split axis).
        * replace (split - s)%nat with (S (split - S s)) by lia. exact IH.
        * replace (split - s - 1)%nat with (S (split - S s - 1)) by lia. exact IH. }
  intros ndim split axis H1 H2 H3. specialize (G ndim 0%nat split axis ltac:(lia) ltac:(lia) H3). rewrite Nat.sub_0_r in G. exact G.
Qed.
Print Assumptions C25_split_int.
(** a tuple of axes, one of them before the split axis: wrong *)
Theorem C25_split_tuple_refuted :
  moment_split_tuple 4 1 [0; 3]%nat = 1%nat /\ nth_error (filter (fun d => negb (existsb (Nat.eqb d) [0; 3]%nat)) (seq 0 4)) 1 = Some 2%nat.
Proof. split; reflexivity. Qed.

(** * C26 *)
Lemma nth_map_seq0 {A} (f : nat -> A) n b d : nth b (map f (seq 0 n)) d = if Nat.ltb b n then f b else d.
Proof.
  destruct (Nat.ltb_spec b n); [now rewrite nth_map_seq|]. apply nth_overflow. now rewrite map_length, seq_length.
Qed.
Lemma weight_above b l : (max_plus_one l <= b)%nat -> weight_of b l = 0%Z.
Proof.
  unfold weight_of, max_plus_one. induction l as [|[v w] l IH]; cbn [map fold_right filter fst]; auto.
  intros H. destruct (Nat.eqb_spec v b); [lia|]. apply IH. lia.
Qed.
Lemma local_bincount_nth vw m b : nth b (local_bincount vw m) 0%Z = weight_of b vw.
Proof.
  unfold local_bincount. rewrite nth_map_seq0. fold (max_plus_one vw). destruct (Nat.ltb_spec b (Nat.max (max_plus_one vw) m)); [reflexivity|].
  symmetry. apply weight_above. lia.
Qed.
Lemma local_bincount_length vw m : length (local_bincount vw m) = Nat.max (max_plus_one vw) m.
Proof. unfold local_bincount. now rewrite map_length, seq_length. Qed.
Lemma weight_app b l1 l2 : weight_of b (l1 ++ l2) = (weight_of b l1 + weight_of b l2)%Z.
Proof.
  unfold weight_of. rewrite filter_app, map_app. induction (map snd (filter (fun p => Nat.eqb (fst p) b) l1)) as [|x t IH]; cbn [app fold_right]; lia.
Qed.
Lemma max_app l1 l2 : max_plus_one (l1 ++ l2) = Nat.max (max_plus_one l1) (max_plus_one l2).
Proof. unfold max_plus_one. rewrite map_app. induction (map (fun p => S (fst p)) l1) as [|x t IH]; cbn [app fold_right]; lia. Qed.

(** bincount of a distributed array: every rank holds, for every bin, the total weight of
    the bin's occurrences in the global array; the length is max(max+1, minlength). *)
Theorem C26_bincount : forall data minlength res, data <> [] -> In res (bincount true data minlength) ->
  length res = Nat.max (max_plus_one (concat data)) minlength /\
  forall b, nth b res 0%Z = weight_of b (concat data).
Proof.
  intros data m res Hd Hr. unfold bincount in Hr. set (counts := map (fun vw => local_bincount vw m) data) in *.
  set (ml := fold_right Nat.max 0%nat (map (@length Z) counts)) in *.
  assert (ML : ml = Nat.max (max_plus_one (concat data)) m).
  { unfold ml, counts. rewrite map_map. clear Hr ml counts. induction data as [|x data IH]; [easy|].
    cbn [map fold_right concat]. rewrite local_bincount_length, max_app. destruct data as [|y data]; [cbn; lia|].
    rewrite IH by easy. lia. }
  apply in_map_iff in Hr. destruct Hr as (x & <- & _). cbv zeta in *.
  assert (G : forall dat, (forall vw, In vw dat -> length (local_bincount vw m) <= ml)%nat ->
    let r := fold_right zip_add (repeat 0%Z ml) (map (fun c => c ++ repeat 0%Z (ml - length c)) (map (fun vw => local_bincount vw m) dat)) in
    length r = ml /\ forall b, nth b r 0%Z = weight_of b (concat dat)).
  { induction dat as [|vw dat IH]; intros H; cbn [map fold_right concat].
    - cbv zeta. rewrite repeat_length. split; auto. intros b. apply nth_repeat.
    - destruct IH as [IL IN]; [intros; apply H; cbn; auto|]. cbv zeta in *. set (r := fold_right zip_add _ _) in *.
      set (c := local_bincount vw m). assert (Lc : length (c ++ repeat 0%Z (ml - length c)) = ml).
      { rewrite app_length, repeat_length. specialize (H vw (or_introl eq_refl)). fold c in H. lia. }
      assert (LZ : length (zip_add (c ++ repeat 0%Z (ml - length c)) r) = ml) by (unfold zip_add; rewrite map_length, combine_length; lia).
      split; [exact LZ|]. intros b. rewrite weight_app, <- IN, <- (local_bincount_nth vw m b). fold c.
      assert (NC : nth b c 0%Z = nth b (c ++ repeat 0%Z (ml - length c)) 0%Z).
      { destruct (Nat.lt_ge_cases b (length c)); [now rewrite app_nth1|]. rewrite app_nth2, nth_repeat by auto. now apply nth_overflow. }
      rewrite NC. set (c' := c ++ _) in *. destruct (Nat.lt_ge_cases b ml) as [Lt|Ge].
      + unfold zip_add. set (g := fun p : Z * Z => (fst p + snd p)%Z). rewrite nth_indep with (d' := g (0%Z, 0%Z)) by (rewrite map_length, combine_length; lia).
        rewrite (map_nth g), combine_nth by lia. reflexivity.
      + rewrite !nth_overflow by lia. reflexivity. }
  destruct (G data) as [GL GN].
  { intros vw Hv. unfold ml, counts. clear - Hv. induction data as [|y data IH]; [easy|]. cbn [map fold_right]. destruct Hv as [->|Hv]; [lia|]. specialize (IH Hv). lia. }
  cbv zeta in *. split; [rewrite <- ML; exact GL|exact GN].
Qed.
Print Assumptions C26_bincount.
(** split = None: every rank holds the whole array and computes alone *)
Theorem C26_bincount_replicated : forall l P minlength res, In res (bincount false (repeat l P) minlength) ->
  length res = Nat.max (max_plus_one l) minlength /\ forall b, nth b res 0%Z = weight_of b l.
Proof.
  intros l P m res H. unfold bincount in H. cbv zeta in H. apply in_map_iff in H. destruct H as (c & <- & H).
  apply in_map_iff in H. destruct H as (vw & <- & H). apply repeat_spec in H. subst vw.
  assert (E : forall ml, ml = length (local_bincount l m) \/ ml = 0%nat -> (ml - length (local_bincount l m) = 0)%nat) by lia.
  rewrite E, app_nil_r, local_bincount_length.
  - split; auto. intros b. apply local_bincount_nth.
  - rewrite !map_map. clear. induction P as [|P IH]; cbn [repeat map fold_right]; [auto|]. lia.
Qed.
Print Assumptions C26_bincount_replicated.
Example C26_instance : bincount true [[(1%nat, 1%Z); (4%nat, 1%Z)]; []; [(1%nat, 1%Z)]] 2 = repeat [0; 2; 0; 0; 1]%Z 3. Proof. reflexivity. Qed.
(** float32 weights: an empty rank hands a float64 buffer to the reduction, the others float32 *)
Theorem C26_dtype_refuted : bincount_dtype W32 [] 0 = BFloat64 /\ bincount_dtype W32 [(3%nat, 1%Z)] 0 = BFloat32.
Proof. split; reflexivity. Qed.
Theorem C26_dtype_partial : forall w vw vw' m, w <> W32 \/ (0 < m)%nat \/ (vw <> [] /\ vw' <> []) -> bincount_dtype w vw m = bincount_dtype w vw' m.
Proof.
  intros w vw vw' m H. unfold bincount_dtype. rewrite !local_bincount_length.
  assert (Z0 : forall v : list (nat * Z), v <> [] -> (0 < max_plus_one v)%nat).
  { intros [|p v] Hv; [easy|]. unfold max_plus_one. cbn [map fold_right]. lia. }
  destruct H as [H|[H|[H H']]].
  - destruct w; [|easy|]; now destruct (Nat.eqb _ _), (Nat.eqb _ _).
  - destruct (Nat.eqb_spec (Nat.max (max_plus_one vw) m) 0), (Nat.eqb_spec (Nat.max (max_plus_one vw') m) 0); auto; lia.
  - apply Z0 in H, H'. destruct (Nat.eqb_spec (Nat.max (max_plus_one vw) m) 0), (Nat.eqb_spec (Nat.max (max_plus_one vw') m) 0); auto; lia.
Qed.
Print Assumptions C26_dtype_partial.
