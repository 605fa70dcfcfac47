(** Indexing the sorted data along axis 0, and mixing floors and ceils. *)
From Coq Require Import QArith Qround Permutation Sorted Lqa.
From Verif Require Import Base ShapeSpec BaseLemmas LayoutModel LayoutProofs NdSpec TensorSpec TensorLemmas NdLemmas OpsModel OpsProofs2 OpsProofs3 OpsProofs4 OpsProofs5 OpsProofs6 RedistModel RedistProofs IndexModel IndexProofs ShapeModel ShapeProofs ShapeProofs2 ShapeProofs3 ShapeProofs4 ShapeProps SortModel SortNd SortSpec PercSpec PercModel PercFloat.
From Verif Require ConcatProofs3.
Open Scope Z_scope.

Lemma zsum_of_nat l : zsum (map Z.of_nat l) = Z.of_nat (list_sum l).
Proof. induction l; [reflexivity|]. rewrite list_sum_cons. cbn [map zsum fold_right]. fold (zsum (map Z.of_nat l)). lia. Qed.
Lemma upd_cons {A} (h : A) t s v : upd (h :: t) (S s) v = h :: upd t s v.
Proof. reflexivity. Qed.
Lemma move_cons k s d (i : list Z) : k :: move_axis_idx s d i = move_axis_idx (S s) d (k :: i).
Proof. reflexivity. Qed.
Lemma cons_bounds n (sh : list Z) k i : 0 <= k < n -> in_bounds sh i -> in_bounds (n :: sh) (k :: i).
Proof. intros. constructor; auto. Qed.

Lemma bounds_cons n (sh : list Z) i : in_bounds (n :: sh) i -> exists k i', i = k :: i' /\ 0 <= k < n /\ in_bounds sh i'.
Proof. intros H. inversion H; subst. eauto. Qed.
(** slabs of local arrays *)
Lemma slab_agrees {A} (t : arr A) n sh F k : agrees t (n :: sh) F -> 0 <= k < n -> agrees (slab k t) sh (fun i => F (k :: i)).
Proof. intros [E D] Hk. unfold slab. split; cbn [ash adat]; [now rewrite E|]. intros i Hi. apply D. now apply cons_bounds. Qed.
Lemma pick_agrees {A} (t : arr A) n sh F ks : agrees t (n :: sh) F -> Forall (fun k => 0 <= k < n) ks ->
  agrees (pick ks t) (Z.of_nat (length ks) :: sh) (fun i => F (nth (Z.to_nat (nth 0 i 0)) ks 0 :: tl i)).
Proof.
  intros [E D] Hk. unfold pick. split; cbn [ash adat]; [now rewrite E|]. intros i Hi. inversion Hi as [|? j ? i' B Hi' E1 E2]; subst. cbn [nth tl]. apply D. apply cons_bounds; auto.
  apply (proj1 (Forall_forall _ _) Hk). apply nth_In. lia.
Qed.

Section Get.
Variables (x : dnd Q) (H : list Z -> Q) (cnts : list Z) (n : Z) (rest : list Z).
Hypothesis HR : rep x cnts H.
Hypothesis HS : d_gshape x = n :: rest.
Hypothesis HP : (0 < length cnts)%nat.

Lemma HP' : length (d_locals x) = length cnts.
Proof. exact (proj1 HR). Qed.
Lemma rest_nonneg : Forall (fun m => 0 <= m) rest.
Proof. destruct HR as (_ & B & _). rewrite HS in B. now inversion B. Qed.

Definition split1 (sp : option nat) : option nat := match sp with Some (S s) => Some s | _ => None end.

Lemma rep_slabs k sp : 0 <= k < n -> d_split x = sp -> (sp = Some 0%nat -> length cnts = 1%nat) ->
  rep (mk_dnd (map (slab k) (d_locals x)) rest (split1 sp)) cnts (fun i => H (k :: i)).
Proof.
  intros Hk E H1. unfold rep. cbn [d_locals d_gshape d_split]. pose proof HR as R. unfold rep in R. rewrite E, HS in R. destruct R as (A & B & C).
  split; [now rewrite map_length|]. split; [apply rest_nonneg|]. destruct sp as [[|s]|]; cbn [split1].
  - destruct C as (C1 & C2 & C3 & C4). intros t Ht. apply in_map_iff in Ht as (u & <- & Hu). specialize (H1 eq_refl). destruct cnts as [|c [|? ?]] eqn:EC; cbn in H1; try lia. destruct (d_locals x) as [|t0 [|? ?]] eqn:El; cbn in A; try lia.
    destruct Hu as [<-|[]]. specialize (C4 0%nat t0 eq_refl). cbn [nth upd firstn zsum fold_right] in C3, C4. rewrite Z.add_0_r in C3. cbn in C3. subst c.
    apply (@slab_agrees _ _ n) with (F := H); auto. destruct C4 as [Q1 Q2]. split; [exact Q1|]. intros i Hi. rewrite Q2 by auto. unfold move_axis_idx. cbn [nth]. rewrite Z.add_0_r. inversion Hi; subst. reflexivity.
  - destruct C as (C1 & C2 & C3 & C4). cbn [length nth] in *. split; [lia|]. split; [auto|]. split; [auto|]. intros r t Ht. rewrite nth_error_map in Ht. destruct (nth_error (d_locals x) r) as [u|] eqn:Eu; [|discriminate]. injection Ht as <-.
    specialize (C4 r u Eu). cbn [upd] in C4. apply (slab_agrees _ _ _ _ k C4 Hk).
  - intros t Ht. apply in_map_iff in Ht as (u & <- & Hu). apply (slab_agrees _ _ _ _ k (C u Hu) Hk).
Qed.

Lemma starts0_nth r : d_split x = Some 0%nat -> (r < length cnts)%nat -> nth r (starts0 x) 0 = zsum (firstn r cnts).
Proof.
  intros E Hr. unfold starts0, counts0. assert (R := HR). unfold rep in R. rewrite E in R. rewrite (local_counts _ _ _ _ _ R). rewrite (nth_map_seq (fun r => zsum (firstn r cnts))); auto. rewrite HP'. auto.
Qed.
Lemma starts0_length : length (starts0 x) = length cnts.
Proof. unfold starts0. rewrite map_length, seq_length. apply HP'. Qed.

Lemma find_owner k : d_split x = Some 0%nat -> 0 <= k < n -> exists a, find_last (fun b => b <=? k) (starts0 x) 0 None = Some a /\
  (a < length cnts)%nat /\ zsum (firstn a cnts) <= k < zsum (firstn a cnts) + nth a cnts 0.
Proof.
  intros E Hk. assert (R := HR). unfold rep in R. rewrite E, HS in R. destruct R as (A & B & C1 & C2 & C3 & C4). cbn [nth] in C3.
  destruct (zsum_find cnts k C2 ltac:(lia)) as (r & R1 & R2).
  destruct (find_last (fun b => b <=? k) (starts0 x) 0 None) as [a|] eqn:Ef.
  - apply find_last_spec in Ef. destruct Ef as [[Ef _]|(P1 & P2 & P3)]; [discriminate|]. rewrite Nat.sub_0_r in *. rewrite starts0_length in *.
    rewrite starts0_nth in P2 by (auto; lia). assert (a = r).
    { destruct (Nat.lt_trichotomy a r) as [L|[L|L]]; auto; exfalso.
      - specialize (P3 r ltac:(lia)). rewrite starts0_nth in P3 by (auto; lia). lia.
      - assert (M := zsum_firstn_mono cnts (S r) a C2 ltac:(lia)). rewrite zsum_firstn_S in M by auto. lia. }
    subst a. exists r. auto.
  - apply find_last_none in Ef. destruct Ef as [_ F]. specialize (F r ltac:(rewrite starts0_length; lia)). rewrite starts0_nth in F by (auto; lia). lia.
Qed.

(** x[k] *)
Lemma get_int_ok k : 0 <= k < n -> exists y c, get_int 0%Q x k = Ok y /\ length c = length cnts /\ d_gshape y = rest /\ d_split y = split1 (d_split x) /\
  rep y c (fun i => H (k :: i)) /\ (d_split x <> Some 0%nat -> c = cnts).
Proof.
  intros Hk. unfold get_int. rewrite HS. cbn [nth tl]. replace ((k <? - n) || (n <=? k)) with false by lia. replace (k <? 0) with false by lia.
  destruct (d_split x) as [[|s]|] eqn:E; cbn [split1].
  - unfold distributed. rewrite E. destruct (1 <? length (d_locals x))%nat eqn:L.
    + destruct (find_owner k E Hk) as (a & -> & A1 & A2). rewrite starts0_nth by auto. eexists _, cnts. split; [reflexivity|]. split; [auto|]. split; [auto|]. split; [auto|]. split; [|auto].
      assert (R := HR). unfold rep in R. rewrite E, HS in R. destruct R as (A & B & C1 & C2 & C3 & C4).
      unfold rep. cbn [d_locals d_gshape d_split]. split; [now rewrite map_length|]. split; [apply rest_nonneg|]. intros t Ht. apply in_map_iff in Ht as (u & <- & _).
      destruct (nth_error (d_locals x) a) as [ta|] eqn:Ea; [|apply nth_error_None in Ea; lia]. rewrite (nth_error_nth _ _ _ Ea). specialize (C4 a ta Ea). cbn [upd] in C4.
      destruct (slab_agrees _ _ _ _ (k - zsum (firstn a cnts)) C4 ltac:(lia)) as [G1 G2]. split; [exact G1|]. intros i Hi. rewrite G2 by auto. unfold move_axis_idx. cbn [nth upd]. f_equal. f_equal. lia.
    + eexists _, cnts. split; [reflexivity|]. split; [auto|]. split; [auto|]. split; [auto|]. split; [|auto]. apply (rep_slabs k (Some 0%nat) Hk E). intros _. rewrite HP' in L. lia.
  - eexists _, cnts. split; [reflexivity|]. split; [auto|]. split; [auto|]. split; [auto|]. split; [|auto]. apply (rep_slabs k (Some (S s)) Hk E). discriminate.
  - eexists _, cnts. split; [reflexivity|]. split; [auto|]. split; [auto|]. split; [auto|]. split; [|auto]. apply (rep_slabs k None Hk E). discriminate.
Qed.

(** x[[k0, k1, ...]] *)
Lemma filter_split (l : list Z) a b c : StronglySorted Z.le l -> a <= b <= c ->
  filter (fun k => (a <=? k) && (k <? b)) l ++ filter (fun k => (b <=? k) && (k <? c)) l = filter (fun k => (a <=? k) && (k <? c)) l.
Proof.
  intros HSo B. induction HSo as [|h t HSo IH HF]; [reflexivity|]. cbn [filter].
  destruct (Z_lt_le_dec h a); [replace ((a <=? h) && (h <? b)) with false by lia; replace ((b <=? h) && (h <? c)) with false by lia; replace ((a <=? h) && (h <? c)) with false by lia; auto|].
  destruct (Z_lt_le_dec h b); [replace ((a <=? h) && (h <? b)) with true by lia; replace ((b <=? h) && (h <? c)) with false by lia; replace ((a <=? h) && (h <? c)) with true by lia; cbn [app]; now rewrite IH|].
  replace ((a <=? h) && (h <? b)) with false by lia.
  assert (EN : filter (fun k => (a <=? k) && (k <? b)) t = []).
  { apply filter_nil_iff. intros k Hk. rewrite Forall_forall in HF. specialize (HF k Hk). lia. }
  rewrite EN in *. cbn [app] in *. rewrite <- IH. destruct (Z_lt_le_dec h c); [replace ((b <=? h) && (h <? c)) with true by lia; replace ((a <=? h) && (h <? c)) with true by lia; auto|].
  replace ((b <=? h) && (h <? c)) with false by lia; replace ((a <=? h) && (h <? c)) with false by lia; auto.
Qed.
Definition piece (ks : list Z) (st c : Z) : list Z := filter (fun k => (st <=? k) && (k <? st + c)) ks.
Lemma pieces_concat ks : StronglySorted Z.le ks -> forall cs st, Forall (fun c => 0 <= c) cs ->
  concat (map (fun r => piece ks (st + zsum (firstn r cs)) (nth r cs 0)) (seq 0 (length cs))) = filter (fun k => (st <=? k) && (k <? st + zsum cs)) ks.
Proof.
  intros HSo. induction cs as [|c cs IH]; intros st HF.
  - cbn. symmetry. apply filter_nil_iff. intros; lia.
  - inversion HF; subst. cbn [length seq map concat]. rewrite <- seq_shift, map_map. cbn [firstn nth zsum fold_right]. fold (zsum cs).
    rewrite (map_ext _ (fun r => piece ks (st + c + zsum (firstn r cs)) (nth r cs 0))) by (intros r; unfold piece; cbn [zsum fold_right]; fold (zsum (firstn r cs)); apply filter_ext; intros k; f_equal; f_equal; lia).
    rewrite IH by auto. unfold piece. rewrite Z.add_0_r. assert (0 <= zsum cs) by now apply zsum_nonneg. rewrite Z.add_assoc. apply filter_split; auto; lia.
Qed.

Lemma combine_starts : combine (starts0 x) (d_locals x) = map (fun r => (nth r (starts0 x) 0, nth r (d_locals x) (mk_arr [] (fun _ => 0%Q)))) (seq 0 (length cnts)).
Proof.
  apply (@nth_ext2 _ _ _ (0, mk_arr [] (fun _ => 0%Q))).
  - rewrite combine_length, map_length, seq_length, starts0_length, HP'. lia.
  - intros r Hr. rewrite combine_length, starts0_length, HP' in Hr. rewrite combine_nth by (rewrite starts0_length, HP'; auto). now rewrite (nth_map_seq (fun r => (nth r (starts0 x) 0, nth r (d_locals x) (mk_arr [] (fun _ => 0%Q))))) by lia.
Qed.

Lemma get_list_ok ks : Forall (fun k => 0 <= k < n) ks ->
  (d_split x = Some 0%nat -> (1 < length cnts)%nat -> StronglySorted Z.le ks /\ (1 < length ks)%nat) ->
  exists y c, get_list 0%Q x ks = Ok y /\ length c = length cnts /\ d_gshape y = Z.of_nat (length ks) :: rest /\ d_split y = d_split x /\
    rep y c (fun i => H (nth (Z.to_nat (nth 0 i 0)) ks 0 :: tl i)) /\ (d_split x <> Some 0%nat -> c = cnts).
Proof.
  intros Hk HO. unfold get_list. rewrite HS. cbn [nth tl].
  assert (EE : existsb (fun k => (k <? - n) || (n <=? k)) ks = false).
  { destruct (existsb _ ks) eqn:E; auto. apply existsb_exists in E as (k & K1 & K2). rewrite Forall_forall in Hk. specialize (Hk k K1). lia. }
  rewrite EE. assert (EM : map (fun k => if k <? 0 then k + n else k) ks = ks).
  { rewrite <- (map_id ks) at 2. apply map_ext_in. intros k K1. rewrite Forall_forall in Hk. specialize (Hk k K1). replace (k <? 0) with false by lia. auto. }
  rewrite EM. assert (R := HR). unfold rep in R. rewrite HS in R.
  assert (NN : Forall (fun m => 0 <= m) (Z.of_nat (length ks) :: rest)) by (constructor; [lia|apply rest_nonneg]).
  destruct (d_split x) as [[|s]|] eqn:E.
  - destruct R as (A & B & C1 & C2 & C3 & C4). cbn [nth] in C3. unfold distributed. rewrite E. destruct (1 <? length (d_locals x))%nat eqn:L.
    + destruct (HO eq_refl ltac:(lia)) as [O1 O2]. replace (length ks <=? 1)%nat with false by lia.
      set (pcs := map (fun r => piece ks (zsum (firstn r cnts)) (nth r cnts 0)) (seq 0 (length cnts))).
      set (cc := map Z.of_nat (map (@length Z) pcs)). eexists _, cc. split; [reflexivity|]. split; [unfold cc, pcs; rewrite !map_length, seq_length; auto|]. split; [auto|]. split; [auto|]. split; [|intros X; now contradict X].
      assert (CC : concat pcs = ks).
      { unfold pcs. assert (Q := pieces_concat ks O1 cnts 0 C2). etransitivity; [exact Q|]. apply filter_all_iff. intros k K. rewrite Forall_forall in Hk. specialize (Hk k K). lia. }
      unfold rep. cbn [d_locals d_gshape d_split]. rewrite combine_starts, map_map. split; [unfold cc, pcs; now rewrite !map_length|]. split; [auto|]. split; [cbn; lia|]. split; [unfold cc; apply Forall_forall; intros z Hz; apply in_map_iff in Hz as (? & <- & _); lia|].
      split; [unfold cc; change (map (@length Z) pcs) with (lens pcs); rewrite zsum_of_nat, <- glob_length; unfold glob; rewrite CC; reflexivity|].
      intros r t Ht. rewrite nth_error_map in Ht. destruct (nth_error (seq 0 (length cnts)) r) as [r'|] eqn:Er; [|discriminate].
      assert (r < length cnts)%nat by (rewrite <- (seq_length (length cnts) 0); apply nth_error_Some; congruence). assert (r' = r). { apply nth_error_nth with (d := 0%nat) in Er. rewrite seq_nth in Er by auto. lia. } subst r'.
      cbn beta iota in Ht. injection Ht as <-. rewrite starts0_nth by auto.
      destruct (nth_error (d_locals x) r) as [t|] eqn:Et; [|apply nth_error_None in Et; lia]. rewrite (nth_error_nth _ _ _ Et). specialize (C4 r t Et). cbn [upd] in C4 |- *.
      assert (ET : nth 0 (ash t) 0 = nth r cnts 0) by (rewrite (proj1 C4); reflexivity). rewrite ET. fold (piece ks (zsum (firstn r cnts)) (nth r cnts 0)).
      set (p := piece ks (zsum (firstn r cnts)) (nth r cnts 0)).
      assert (EP : nth r pcs [] = p) by (unfold pcs; now rewrite (nth_map_seq (fun r => piece ks (zsum (firstn r cnts)) (nth r cnts 0))) by auto).
      assert (EL : nth r cc 0 = Z.of_nat (length p)).
      { unfold cc. change 0 with (Z.of_nat 0). rewrite map_nth. change 0%nat with (@length Z []) at 1. rewrite map_nth, EP. auto. }
      rewrite EL.
      destruct (pick_agrees t _ _ _ (map (fun k => k - zsum (firstn r cnts)) p) C4) as [P1 P2].
      { apply Forall_forall. intros k K. apply in_map_iff in K as (j & <- & J). apply filter_In in J as [_ J]. lia. }
      rewrite map_length in P1, P2. split; [exact P1|]. intros i Hi. rewrite P2 by auto. destruct (bounds_cons _ _ _ Hi) as (j & i' & -> & Bj & Hi'). unfold move_axis_idx. cbn [nth upd tl]. f_equal. f_equal.
      rewrite (nth_indep _ 0 (0 - zsum (firstn r cnts))) by (rewrite map_length; lia). rewrite (map_nth (fun k => k - zsum (firstn r cnts))).
      unfold cc. change (map (@length Z) pcs) with (lens pcs). rewrite ConcatProofs3.psum_zsum_nat.
      rewrite <- CC. change (concat pcs) with (glob pcs). replace (Z.to_nat (j + Z.of_nat (psum (lens pcs) r))) with (psum (lens pcs) r + Z.to_nat j)%nat by lia.
      rewrite glob_nth by (rewrite EP; lia). rewrite EP. lia.
    + eexists _, [Z.of_nat (length ks)]. rewrite A in L. split; [reflexivity|]. split; [simpl; lia|]. split; [auto|]. split; [auto|]. split; [|intros X; now contradict X].
      destruct cnts as [|c [|? ?]] eqn:EC; cbn in L, HP; try lia. destruct (d_locals x) as [|t0 [|? ?]] eqn:El; cbn in A; try lia.
      unfold rep. cbn [d_locals d_gshape d_split map]. split; [auto|]. split; [auto|]. split; [cbn; lia|]. split; [constructor; [lia|auto]|]. split; [cbn; lia|].
      intros [|[|r]] t Ht; cbn in Ht; try discriminate. injection Ht as <-. cbn [nth firstn upd]. specialize (C4 0%nat t0 eq_refl). cbn [nth upd firstn] in C4. cbn in C3. rewrite Z.add_0_r in C3. subst c.
      destruct (pick_agrees _ _ _ _ ks C4 Hk) as [P1 P2]. split; [exact P1|]. intros i Hi. rewrite P2 by auto. destruct (bounds_cons _ _ _ Hi) as (j & i' & -> & Bj & Hi'). unfold move_axis_idx. cbn [nth upd tl zsum fold_right]. now rewrite !Z.add_0_r.
  - destruct R as (A & B & C1 & C2 & C3 & C4). eexists _, cnts. split; [reflexivity|]. split; [auto|]. split; [auto|]. split; [auto|]. split; [|auto].
    unfold rep. cbn [d_locals d_gshape d_split]. split; [now rewrite map_length|]. split; [auto|]. split; [cbn in *; lia|]. split; [auto|]. split; [auto|]. intros r t Ht. rewrite nth_error_map in Ht. destruct (nth_error (d_locals x) r) as [u|] eqn:Eu; [|discriminate]. injection Ht as <-.
    specialize (C4 r u Eu). cbn [upd] in C4 |- *. destruct (pick_agrees _ _ _ _ ks C4 Hk) as [P1 P2]. split; [exact P1|]. intros i Hi. rewrite P2 by auto. inversion Hi; subst. reflexivity.
  - destruct R as (A & B & C). eexists _, cnts. split; [reflexivity|]. split; [auto|]. split; [auto|]. split; [auto|]. split; [|auto].
    unfold rep. cbn [d_locals d_gshape d_split]. split; [now rewrite map_length|]. split; [auto|]. intros t Ht. apply in_map_iff in Ht as (u & <- & Hu). apply (pick_agrees _ _ _ _ ks (C u Hu) Hk).
Qed.
End Get.
