(** C75: histc / histogram count the global data. *)
From Coq Require Import QArith Qround Permutation Lqa.
From Verif Require Import Base ShapeSpec BaseLemmas NdSpec TensorSpec TensorLemmas NdLemmas NdPerm OpsModel OpsProofs2 OpsProofs5 ShapeModel PercModel HistSpec HistModel HistProofs.
Open Scope Z_scope.

Definition good_hist (lo hi : Q) (n : Z) (data : list Q) (h : list Z) : Prop :=
  Z.of_nat (length h) = n /\ forall k, 0 <= k < n -> nth (Z.to_nat k) h 0 = count (in_bin lo hi n k) data.

(** For every array, layout and number of processes: on every process the result is the list
    of the numbers of elements of the global array in the n equal bins between lo and hi,
    where lo, hi is the given range or, if min == max, the range of the global data. *)
Theorem C75_histogram : forall cast G gsh split cnts ls n mn mx lo hi,
  represents G gsh split cnts ls -> 0 < n -> hist_range cast (map G (row_major gsh)) mn mx lo hi ->
  exists hs, histc cast (mk_dnd ls gsh split) n mn mx None = Ok hs /\ length hs = length ls /\
    Forall (good_hist lo hi n (map G (row_major gsh))) hs.
Proof.
  intros cast G gsh split cnts ls n mn mx lo hi R Hn HR. unfold histc. cbv beta iota zeta delta [d_split d_locals].
  set (data := map G (row_major gsh)) in *.
  set (pool := fun t : arr Q => match split with None => elems t | Some _ => flat_map elems ls end).
  assert (PP : forall t, In t ls -> Permutation (pool t) data).
  { intros t Hin. unfold pool. destruct split as [s|]; [now apply (elems_perm G gsh s cnts)|].
    destruct R as (_ & _ & R). rewrite (elems_agrees _ _ _ (R t Hin)). apply Permutation_refl. }
  assert (PE : forall t x, In t ls -> In x (elems t) -> In x data).
  { intros t x Hin Hx. apply (Permutation_in _ (PP t Hin)). unfold pool. destruct split; [|exact Hx].
    apply in_flat_map. now exists t. }
  destruct (all_ok_Q (fun t => if Qeq_bool mn mx then if is_nil (pool t) then Err RuntimeError else torch_histc cast (elems t) n (qmin (pool t)) (qmax (pool t)) else torch_histc cast (elems t) n mn mx)
     (fun t h => length h = Z.to_nat n /\ forall k, 0 <= k < n -> nth (Z.to_nat k) h 0 = count (in_bin lo hi n k) (elems t)) ls) as (hs & E & F).
  { intros t Hin.
    assert (T : forall mn' mx', (if Qeq_bool mn mx then is_min mn' data /\ is_max mx' data else mn' = mn /\ mx' = mx) ->
       exists y, torch_histc cast (elems t) n mn' mx' = Ok y /\ length y = Z.to_nat n /\ forall k, 0 <= k < n -> nth (Z.to_nat k) y 0 = count (in_bin lo hi n k) (elems t)).
    { intros mn' mx' HM. apply (torch_histc_spec cast data (elems t) n mn mx lo hi mn' mx' Hn HR); auto. intros x. now apply PE. }
    destruct (Qeq_bool mn mx) eqn:Q; [|now apply T].
    assert (NE : pool t <> []).
    { destruct HR as [(N & _)|(_ & _ & a & b & [Ha _] & _)]; [apply Qeq_bool_iff in Q; contradiction|].
      intros C. specialize (PP t Hin). rewrite C in PP. apply Permutation_nil in PP. rewrite PP in Ha. destruct Ha. }
    destruct (pool t) as [|x p] eqn:EP; [contradiction|]. cbn [is_nil]. apply T.
    destruct (qmin_spec (x :: p) ltac:(discriminate)) as [I1 I2], (qmax_spec (x :: p) ltac:(discriminate)) as [J1 J2].
    specialize (PP t Hin). rewrite EP in PP. split; (split; [now apply (Permutation_in _ PP)|]); intros y Hy;
    [apply I2|apply J2]; now apply (Permutation_in _ (Permutation_sym PP)). }
  unfold pool in E. cbv beta zeta in E |- *. rewrite E. cbn [bind]. pose proof (Forall2_len _ _ _ F) as Lh.
  assert (FC : forall k, 0 <= k < n -> Forall2 (fun l h => nth (Z.to_nat k) h 0 = count (in_bin lo hi n k) l) (map elems ls) hs).
  { intros k Hk. clear - F Hk. induction F as [|t h ls hs [_ H] F IH]; cbn; constructor; auto. }
  destruct split as [s|]; cbn [negb].
  - assert (PD : Permutation (concat (map elems ls)) data).
    { rewrite <- flat_map_concat_map. now apply (elems_perm G gsh s cnts). }
    destruct (Nat.ltb_spec 1 (length ls)) as [Hl|Hl]; cbn [negb].
    + eexists. split; [reflexivity|]. split; [now rewrite map_length|]. apply Forall_forall. intros h Hin.
      apply in_map_iff in Hin as (h0 & <- & _). split.
      * unfold sum_hist. rewrite map_length, length_zr. lia.
      * intros k Hk. rewrite (sum_hist_spec n (in_bin lo hi n k) hs (map elems ls) k Hk (FC k Hk)). now apply count_perm.
    + eexists. split; [reflexivity|]. split; [auto|]. destruct F as [|t h ls' hs' [F1 F2] F]; [constructor|].
      cbn in Hl. assert (length ls' = 0%nat) by lia. destruct ls'; [|discriminate]. inversion F; subst.
      constructor; [|constructor]. split; [lia|]. intros k Hk. rewrite F2 by auto. apply count_perm.
      cbn in PD. now rewrite app_nil_r in PD.
  - eexists. split; [reflexivity|]. split; [auto|]. apply Forall_forall. intros h Hin.
    destruct (Forall2_In_r _ _ _ F h Hin) as (t & Ht & H1 & H2). split; [lia|]. intros k Hk. rewrite H2 by auto.
    destruct R as (_ & _ & R). now rewrite (elems_agrees _ _ _ (R t Ht)).
Qed.
Print Assumptions C75_histogram.

(** With out= the result is the same, unless there is one process and the input has a split. *)
Theorem C75_out : forall cast G gsh split cnts ls n mn mx lo hi (out : list (list Z)),
  represents G gsh split cnts ls -> 0 < n -> hist_range cast (map G (row_major gsh)) mn mx lo hi ->
  split = None \/ (1 < length ls)%nat -> length out = length ls -> Forall (fun o => Z.of_nat (length o) = n) out ->
  exists hs, histc cast (mk_dnd ls gsh split) n mn mx (Some out) = Ok hs /\
    histc cast (mk_dnd ls gsh split) n mn mx None = Ok hs /\ length hs = length ls /\
    Forall (good_hist lo hi n (map G (row_major gsh))) hs.
Proof.
  intros cast G gsh split cnts ls n mn mx lo hi out R Hn HR HS HL HO.
  destruct (C75_histogram cast G gsh split cnts ls n mn mx lo hi R Hn HR) as (hs & E & HH).
  exists hs. split; [|split; auto]. rewrite <- E. unfold histc. cbn [d_split d_locals].
  destruct (all_ok _) as [h0|e]; [|reflexivity]. cbn [bind]. destruct split as [s|]; [|reflexivity].
  destruct HS as [C|Hl]; [discriminate|]. apply Nat.ltb_lt in Hl. rewrite Hl. cbn [negb].
  replace (forallb _ out) with true; [reflexivity|]. symmetry. apply forallb_forall. intros o Ho.
  rewrite Forall_forall in HO. apply Z.eqb_eq. auto.
Qed.
Print Assumptions C75_out.

(** The bins are disjoint and cover the range: the counts add up to the number of elements
    between lo and hi; elements outside are ignored. *)
Theorem C75_total : forall lo hi n data h, (lo < hi)%Q -> 0 < n -> good_hist lo hi n data h ->
  zsum h = count (fun x => Qle_bool lo x && Qle_bool x hi) data.
Proof.
  intros lo hi n data h D Hn [HL HG].
  assert (E : h = map (fun k => count (in_bin lo hi n k) data) (zr n)).
  { apply nth_ext with (d := 0) (d' := 0).
    - rewrite map_length, length_zr. lia.
    - intros k Hk. specialize (HG (Z.of_nat k) ltac:(lia)). rewrite Nat2Z.id in HG. rewrite HG. unfold zr. rewrite map_map.
      rewrite nth_map_seq by lia. reflexivity. }
  rewrite E. clear E HL HG. induction data as [|x data IH].
  - cbn. induction (zr n); cbn; auto.
  - assert (ST : zsum (map (fun k => count (in_bin lo hi n k) (x :: data)) (zr n)) =
       zsum (map (fun k => if in_bin lo hi n k x then 1 else 0) (zr n)) + zsum (map (fun k => count (in_bin lo hi n k) data) (zr n))).
    { generalize (zr n). intros z. induction z as [|k z IHz]; [reflexivity|]. cbn [map]. unfold zsum in *. cbn [fold_right]. rewrite IHz.
      unfold count. cbn [filter]. destruct (in_bin lo hi n k x); cbn [length]; lia. }
    rewrite ST, IH. unfold count at 2. cbn [filter]. fold (count (fun x => Qle_bool lo x && Qle_bool x hi) data).
    assert (ON : zsum (map (fun k => if in_bin lo hi n k x then 1 else 0) (zr n)) = if Qle_bool lo x && Qle_bool x hi then 1 else 0).
    { assert (U : forall p z, NoDup z -> (forall k, In k z -> in_bin lo hi n k x = (k =? p)) ->
         zsum (map (fun k => if in_bin lo hi n k x then 1 else 0) z) = if existsb (Z.eqb p) z then 1 else 0).
      { intros p z ND. induction ND as [|k z Hnin ND IHz]; intros Hz; [reflexivity|]. cbn [map]. unfold zsum in *. cbn [fold_right existsb].
        rewrite IHz by (intros; apply Hz; now right). rewrite (Hz k) by now left. rewrite (Z.eqb_sym p k).
        destruct (Z.eqb_spec k p) as [->|]; cbn [orb]; [|reflexivity].
        replace (existsb (Z.eqb p) z) with false; [reflexivity|]. symmetry. apply not_true_iff_false. intros C.
        apply existsb_exists in C as (q & Hq & Eq). apply Z.eqb_eq in Eq. now subst q. }
      destruct (Qle_bool lo x && Qle_bool x hi) eqn:B.
      - apply andb_true_iff in B as [B1 B2]. apply Qle_bool_iff in B1, B2.
        destruct (in_bin_exists lo hi n x D Hn B1 B2) as [P1 P2].
        rewrite (U (bin_pos lo hi n x) (zr n) (NoDup_zr n)).
        + replace (existsb _ _) with true; [reflexivity|]. symmetry. apply existsb_exists. exists (bin_pos lo hi n x).
          split; [now apply in_zr|apply Z.eqb_refl].
        + intros k Hk. apply in_zr in Hk. rewrite <- bin_pos_spec by auto.
          apply Qle_bool_iff in B1, B2. rewrite B1, B2. cbn [andb]. apply Z.eqb_sym.
      - rewrite (U (-1) (zr n) (NoDup_zr n)).
        + replace (existsb _ _) with false; [reflexivity|]. symmetry. apply not_true_iff_false. intros C.
          apply existsb_exists in C as (q & Hq & Eq). apply in_zr in Hq. apply Z.eqb_eq in Eq. lia.
        + intros k Hk. apply in_zr in Hk. rewrite <- bin_pos_spec by auto. rewrite B. cbn [andb]. symmetry. apply Z.eqb_neq. lia. }
    rewrite ON. unfold count. destruct (Qle_bool lo x && Qle_bool x hi); cbn [length]; lia.
Qed.
Print Assumptions C75_total.

(** A range the wrong way round, or no bins, raises RuntimeError. *)
Theorem C75_errors : forall cast x n mn mx out, d_locals x <> [] ->
  (~ mn == mx)%Q -> n <= 0 \/ (cast mx < cast mn)%Q ->
  histc cast x n mn mx out = Err RuntimeError.
Proof.
  intros cast x n mn mx out NE Hne H. unfold histc.
  assert (Q1 : Qeq_bool mn mx = false) by (destruct (Qeq_bool mn mx) eqn:Q; auto; apply Qeq_bool_iff in Q; contradiction).
  assert (T : forall l, torch_histc cast l n mn mx = Err RuntimeError).
  { intros l. unfold torch_histc. destruct (Z.leb_spec n 0); [reflexivity|]. destruct H as [H|H]; [lia|].
    assert (Q2 : Qeq_bool (cast mn) (cast mx) = false) by (destruct (Qeq_bool (cast mn) (cast mx)) eqn:Q; auto; apply Qeq_bool_iff in Q; lra).
    rewrite Q2. cbn [andb]. rewrite Q2. replace (Qle_bool (cast mx) (cast mn)) with true; [reflexivity|].
    symmetry. apply Qle_bool_iff. lra. }
  destruct (d_locals x) as [|t ls]; [contradiction|]. cbn. rewrite Q1, T. reflexivity.
Qed.
Print Assumptions C75_errors.

(** concrete data: 0, 1, 2, 3, 4 on three processes (one empty) *)
Definition c75_x : list (arr Q) :=
  [mk_arr [3] (fun i => inject_Z (nth 0 i 0)); mk_arr [0] (fun _ => 0%Q); mk_arr [2] (fun i => inject_Z (nth 0 i 0 + 3))].
Lemma c75_x_ok : represents (fun i => inject_Z (nth 0 i 0)) [5] (Some 0%nat) [3; 0; 2] c75_x.
Proof.
  split; [reflexivity|]. split; [repeat constructor; lia|]. split; [cbn; lia|]. split; [repeat constructor; lia|]. split; [reflexivity|].
  intros [|[|[|r]]] t E; cbn in E; try (injection E as <-); try (now destruct r); (split; [reflexivity|]);
  intros idx Hi; inversion Hi as [|? k ? l H1 H2]; subst; inversion H2; subst; unfold move_axis_idx; cbn [nth upd adat]; f_equal; cbn in *; lia.
Qed.
Example C75_instance :
  represents (fun i => inject_Z (nth 0 i 0)) [5] (Some 0%nat) [3; 0; 2] c75_x /\
  hist_range (fun q => q) (map (fun i => inject_Z (nth 0 i 0)) (row_major [5])) 0 0 0 4 /\
  hist_range (fun q => q) (map (fun i => inject_Z (nth 0 i 0)) (row_major [5])) 1 (7 # 2) 1 (7 # 2) /\
  histc (fun q => q) (mk_dnd c75_x [5] (Some 0%nat)) 2 0 0 None = Ok [[2; 3]; [2; 3]; [2; 3]] /\
  histc (fun q => q) (mk_dnd c75_x [5] (Some 0%nat)) 2 1 (7 # 2) None = Ok [[2; 1]; [2; 1]; [2; 1]].
Proof.
  split; [exact c75_x_ok|]. split; [|split; [|split; reflexivity]].
  - right. split; [reflexivity|]. split; [intros; reflexivity|]. exists 0%Q, 4%Q. split; [|split; [|left; repeat split; reflexivity]].
    + split; [now left|]. cbn. intros x H. repeat (destruct H as [<-|H]; [apply Qle_bool_iff; reflexivity|]). destruct H.
    + split; [do 4 right; now left|]. cbn. intros x H. repeat (destruct H as [<-|H]; [apply Qle_bool_iff; reflexivity|]). destruct H.
  - left. repeat split; try reflexivity. intros C. discriminate C.
Qed.
(** all data equal: the range is widened, also for a process without data *)
Example C75_constant_instance :
  histc (fun q => q) (mk_dnd [mk_arr [2] (fun _ => 5%Q); mk_arr [0] (fun _ => 0%Q)] [2] (Some 0%nat)) 3 0 0 None = Ok [[0; 2; 0]; [0; 2; 0]].
Proof. reflexivity. Qed.

(** One process and an input with a split: out is returned without having been written. *)
Theorem C75_out_one_process_refuted : forall cast G gsh s cnts t n mn mx lo hi o,
  represents G gsh (Some s) cnts [t] -> 0 < n -> hist_range cast (map G (row_major gsh)) mn mx lo hi ->
  histc cast (mk_dnd [t] gsh (Some s)) n mn mx (Some o) = Ok o.
Proof.
  intros cast G gsh s cnts t n mn mx lo hi o R Hn HR.
  destruct (C75_histogram cast G gsh (Some s) cnts [t] n mn mx lo hi R Hn HR) as (hs & E & HH).
  unfold histc in *. cbn [d_split d_locals] in *.
  destruct (all_ok _) as [h0|e]; [|discriminate]. reflexivity.
Qed.
Print Assumptions C75_out_one_process_refuted.

(** min and max that are different numbers but equal in float32: every process takes the
    range of its own data, and the result depends on the number of processes. *)
Theorem C75_range_equal_in_float32_refuted :
  exists G gsh cnts ls cnts' ls' n mn mx,
    represents G gsh (Some 0%nat) cnts ls /\ represents G gsh (Some 0%nat) cnts' ls' /\ (mn < mx)%Q /\
    (forall i, f32 (G i) == G i)%Q /\
    exists h h', histc f32 (mk_dnd ls gsh (Some 0%nat)) n mn mx None = Ok [h] /\
                 histc f32 (mk_dnd ls' gsh (Some 0%nat)) n mn mx None = Ok [h'; h'] /\ h <> h'.
Proof.
  exists (fun i => if nth 0 i 0 =? 0 then inject_Z 16777216 else inject_Z 16777218), [2], [2],
    [mk_arr [2] (fun i => if nth 0 i 0 =? 0 then inject_Z 16777216 else inject_Z 16777218)], [1; 1],
    [mk_arr [1] (fun i => inject_Z 16777216); mk_arr [1] (fun i => inject_Z 16777218)], 2, (inject_Z 16777216), (inject_Z 16777217).
  split; [|split; [|split; [reflexivity|split]]].
  - split; [reflexivity|]. split; [repeat constructor; lia|]. split; [cbn; lia|]. split; [repeat constructor; lia|]. split; [reflexivity|].
    intros [|r] t E; cbn in E; try (injection E as <-); try (now destruct r). split; [reflexivity|].
    intros idx Hi. inversion Hi as [|? k ? l H1 H2]; subst. unfold move_axis_idx. cbn [nth upd adat]. cbn [zsum firstn fold_right]. now rewrite Z.add_0_r.
  - split; [reflexivity|]. split; [repeat constructor; lia|]. split; [cbn; lia|]. split; [repeat constructor; lia|]. split; [reflexivity|].
    intros [|[|r]] t E; cbn in E; try (injection E as <-); try (now destruct r); (split; [reflexivity|]);
    intros idx Hi; inversion Hi as [|? k ? l H1 H2]; subst; cbn in H1; assert (k = 0) by lia; subst k; reflexivity.
  - intros i. destruct (_ =? _); vm_compute; reflexivity.
  - exists [1; 1], [0; 2]. split; [vm_compute; reflexivity|]. split; [vm_compute; reflexivity|discriminate].
Qed.
Print Assumptions C75_range_equal_in_float32_refuted.
