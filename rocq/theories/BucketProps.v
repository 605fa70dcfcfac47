(** C74: bucketize and digitize follow their documented tables. *)
From Coq Require Import QArith.
From Verif Require Import Base ShapeSpec BaseLemmas NdSpec TensorSpec TensorLemmas NdLemmas OpsModel ShapeModel BinSpec LocalModel LocalProofs LocalProps BucketSpec BucketModel.
Open Scope Z_scope.

Lemma bsearch_spec stop bd : forall fuel a b, (a <= b <= length bd)%nat -> (b - a < fuel)%nat ->
  ((0 < a)%nat -> stop (nth (a - 1) bd 0%Q) = false) -> ((b < length bd)%nat -> stop (nth b bd 0%Q) = true) ->
  let k := bsearch fuel stop bd a b in
  (k <= length bd)%nat /\ ((0 < k)%nat -> stop (nth (k - 1) bd 0%Q) = false) /\ ((k < length bd)%nat -> stop (nth k bd 0%Q) = true).
Proof.
  induction fuel as [|fuel IH]; intros a b Hab Hf Ha Hb; [lia|]. cbn [bsearch].
  destruct (Nat.ltb_spec a b) as [Hlt|Hge].
  - assert (Hd : ((b - a) / 2 < b - a)%nat) by (apply Nat.div_lt; lia).
    set (mid := (a + (b - a) / 2)%nat) in *.
    destruct (stop (nth mid bd 0%Q)) eqn:E.
    + apply IH; auto; lia.
    + apply IH; auto; try lia. intros _. replace (S mid - 1)%nat with mid by lia. exact E.
  - assert (a = b) by lia. subst b. split; [lia|]. split; auto.
Qed.
Lemma nltb a b : negb (Qle_bool a b) = true <-> (b < a)%Q.
Proof.
  rewrite negb_true_iff. destruct (Qle_bool a b) eqn:E; split; intros H; try discriminate; auto.
  - apply Qle_bool_iff in E. exfalso. apply (Qlt_irrefl a). now apply Qle_lt_trans with b.
  - apply Qnot_le_lt. intros C. apply Qle_bool_iff in C. congruence.
Qed.
Lemma bucketize_table right bd v : bucket_table right bd v (torch_bucketize right bd v).
Proof.
  unfold torch_bucketize.
  set (stop := fun m => if right then negb (Qle_bool m v) else Qle_bool v m).
  destruct (bsearch_spec stop bd (S (length bd)) 0 (length bd) ltac:(lia) ltac:(lia) ltac:(lia) ltac:(lia)) as (H1 & H2 & H3).
  set (k := bsearch _ _ _ _ _) in *.
  assert (T : between (fun m x => stop m = false) (fun x m => stop m = true) bd v (Z.of_nat k)).
  { split; [lia|]. replace (Z.to_nat (Z.of_nat k - 1)) with (k - 1)%nat by lia. rewrite Nat2Z.id. split; intros; [apply H2|apply H3]; lia. }
  destruct T as (T1 & T2 & T3). unfold bucket_table. unfold stop in *. destruct right; (split; [exact T1|]; split; intros H).
  - specialize (T2 H). apply negb_false_iff in T2. now apply Qle_bool_iff in T2.
  - now apply nltb, T3.
  - specialize (T2 H). apply nltb. now rewrite T2.
  - now apply Qle_bool_iff, T3.
Qed.

(** increasing boundaries: the table determines the index *)
Theorem C74_table_unique : forall right bd v i j, increasing bd ->
  bucket_table right bd v i -> bucket_table right bd v j -> i = j.
Proof.
  assert (W : forall right bd v i j, increasing bd -> bucket_table right bd v i -> bucket_table right bd v j -> i < j -> False).
  { intros right bd v i j Inc Hi Hj Hlt.
    assert (B : 0 <= i <= Z.of_nat (length bd) /\ 0 <= j <= Z.of_nat (length bd)) by (destruct right; split; [apply Hi|apply Hj|apply Hi|apply Hj]).
    specialize (Inc (Z.to_nat i) (Z.to_nat (j - 1)) ltac:(lia)).
    destruct right; destruct Hi as (_ & _ & Hi), Hj as (_ & Hj & _); specialize (Hi ltac:(lia)); specialize (Hj ltac:(lia)).
    - apply (Qlt_irrefl v). eapply Qlt_le_trans; [exact Hi|]. eapply Qle_trans; [exact Inc|exact Hj].
    - apply (Qlt_irrefl v). eapply Qle_lt_trans; [exact Hi|]. eapply Qle_lt_trans; [exact Inc|exact Hj]. }
  intros right bd v i j Inc Hi Hj. destruct (Z.lt_trichotomy i j) as [H|[H|H]]; auto; exfalso; eauto.
Qed.
Print Assumptions C74_table_unique.

(** bucketize: for every array, layout and boundaries the result has the layout of
    the input and obeys the documented table; distributed boundaries are refused. *)
Theorem C74_bucketize : forall G gsh split cnts ls bd right,
  represents G gsh split cnts ls ->
  (exists I y, bucketize (mk_dnd ls gsh split) false bd right None = Ok y /\ d_gshape y = gsh /\ d_split y = split /\
     represents I gsh split cnts (d_locals y) /\ forall i, bucket_table right bd (G i) (I i)) /\
  bucketize (mk_dnd ls gsh split) true bd right None = Err RuntimeError.
Proof.
  intros G gsh split cnts ls bd right R. split; [|reflexivity].
  destruct (C73_elementwise _ _ (torch_bucketize right bd) G gsh split cnts ls R) as (y & E & H1 & H2 & H3).
  exists (fun i => torch_bucketize right bd (G i)), y. split; [exact E|]. repeat (split; auto).
  intros i. now apply bucketize_table.
Qed.
Print Assumptions C74_bucketize.

Lemma last_nth {A} (l : list A) d : last l d = nth (length l - 1) l d.
Proof. induction l as [|x l IH]; [reflexivity|]. destruct l as [|y l]; [reflexivity|]. change (last (x :: y :: l) d) with (last (y :: l) d). rewrite IH. cbn. now rewrite Nat.sub_0_r. Qed.
(** digitize: NumPy's table, for increasing and for decreasing bins. *)
Theorem C74_digitize : forall G gsh split cnts ls (bins : list Q) right (incr : bool),
  represents G gsh split cnts ls -> bins <> [] -> (if incr then increasing bins else decreasing bins) ->
  (* a constant sequence counts as increasing *)
  (incr = false -> (last bins 0 < nth 0 bins 0)%Q) ->
  (exists I y, digitize (mk_dnd ls gsh split) false bins right = Ok y /\ d_gshape y = gsh /\ d_split y = split /\
     represents I gsh split cnts (d_locals y) /\ forall i, digitize_table right incr bins (G i) (I i)) /\
  digitize (mk_dnd ls gsh split) true bins right = Err RuntimeError.
Proof.
  intros G gsh split cnts ls bins right incr R NE Mono Strict. split; [|reflexivity]. unfold digitize.
  destruct bins as [|b0 bs]; [contradiction|]. set (bins := b0 :: bs) in *. cbv zeta.
  destruct incr.
  - assert (E : Qle_bool (nth 0 bins 0%Q) (last bins 0%Q) = true).
    { apply Qle_bool_iff. rewrite last_nth. apply Mono. cbn. lia. }
    rewrite E. cbn [negb].
    destruct (C73_elementwise _ _ (torch_bucketize (negb right) bins) G gsh split cnts ls R) as (y & Ey & H1 & H2 & H3).
    rewrite Ey. cbn [bind]. eexists _, y. split; [reflexivity|]. split; [auto|]. split; [auto|]. split; [exact H3|].
    intros i. pose proof (bucketize_table (negb right) bins (G i)) as T. destruct right; exact T.
  - assert (E : Qle_bool (nth 0 bins 0%Q) (last bins 0%Q) = false).
    { destruct (Qle_bool _ _) eqn:E; auto. apply Qle_bool_iff in E. exfalso. apply (Qlt_irrefl (last bins 0%Q)).
      apply Qlt_le_trans with (nth 0 bins 0%Q); auto. }
    rewrite E. cbn [negb].
    destruct (C73_elementwise _ _ (torch_bucketize (negb right) (rev bins)) G gsh split cnts ls R) as (y & Ey & H1 & H2 & H3).
    rewrite Ey. cbn [bind]. destruct y as [yl yg ys]. cbn in H1, H2, H3. subst yg ys.
    destruct (C73_elementwise _ _ (fun k => Z.of_nat (length (rev bins)) - k) _ gsh split cnts yl H3) as (z & Ez & K1 & K2 & K3).
    eexists _, z. split; [exact Ez|]. split; [auto|]. split; [auto|]. split; [exact K3|].
    intros i. cbn beta. pose proof (bucketize_table (negb right) (rev bins) (G i)) as T.
    rewrite rev_length. set (k := torch_bucketize _ _ _) in *.
    assert (B : 0 <= k <= Z.of_nat (length bins)).
    { rewrite <- (rev_length bins). destruct right; apply T. }
    assert (N1 : forall d, 0 < Z.of_nat (length bins) - k -> nth (Z.to_nat (Z.of_nat (length bins) - k - 1)) bins d = nth (Z.to_nat k) (rev bins) d).
    { intros d H. rewrite rev_nth by lia. f_equal. lia. }
    assert (N2 : forall d, Z.of_nat (length bins) - k < Z.of_nat (length bins) -> nth (Z.to_nat (Z.of_nat (length bins) - k)) bins d = nth (Z.to_nat (k - 1)) (rev bins) d).
    { intros d H. rewrite rev_nth by lia. f_equal. lia. }
    destruct right; destruct T as (_ & T1 & T2); rewrite rev_length in T2; (split; [lia|]; split; intros H).
    + rewrite N1 by auto. apply T2. lia.
    + rewrite N2 by auto. apply T1. lia.
    + rewrite N1 by auto. apply T2. lia.
    + rewrite N2 by auto. apply T1. lia.
Qed.
Print Assumptions C74_digitize.

(** the result does not depend on the layout: the same values give the same index *)
Theorem C74_layout_independent : forall G gsh split cnts ls split' cnts' ls' bins right y y',
  represents G gsh split cnts ls -> represents G gsh split' cnts' ls' ->
  digitize (mk_dnd ls gsh split) false bins right = Ok y -> digitize (mk_dnd ls' gsh split') false bins right = Ok y' ->
  exists I, represents I gsh split cnts (d_locals y) /\ represents I gsh split' cnts' (d_locals y').
Proof.
  intros G gsh split cnts ls split' cnts' ls' bins right y y' R R' E E'. unfold digitize in E, E'.
  destruct bins as [|b0 bs]; [discriminate|]. set (bins := b0 :: bs) in *. cbv zeta in E, E'.
  destruct (negb (Qle_bool (nth 0 bins 0%Q) (last bins 0%Q))); cbn in E, E'; injection E as <-; injection E' as <-; cbn [d_locals].
  - rewrite !map_map. exists (fun i => Z.of_nat (length (rev bins)) - torch_bucketize (negb right) (rev bins) (G i)).
    split; [apply (map_arr_represents (fun v => Z.of_nat (length (rev bins)) - torch_bucketize (negb right) (rev bins) v) _ _ _ _ _ R)
           |apply (map_arr_represents (fun v => Z.of_nat (length (rev bins)) - torch_bucketize (negb right) (rev bins) v) _ _ _ _ _ R')].
  - eexists. split; [apply (map_arr_represents _ _ _ _ _ _ R)|apply (map_arr_represents _ _ _ _ _ _ R')].
Qed.
Print Assumptions C74_layout_independent.

(** the example of the documentation, and one with decreasing bins *)
Definition c74_x : list (arr Q) := [mk_arr [3] (fun i => nth (Z.to_nat (nth 0 i 0)) [12 # 10; 10 # 1; 124 # 10]%Q 0%Q);
                                    mk_arr [2] (fun i => nth (Z.to_nat (nth 0 i 0)) [155 # 10; 20 # 1]%Q 0%Q)].
Lemma c74_x_ok : represents (fun i => nth (Z.to_nat (nth 0 i 0)) [12 # 10; 10 # 1; 124 # 10; 155 # 10; 20 # 1]%Q 0%Q) [5] (Some 0%nat) [3; 2] c74_x.
Proof.
  split; [reflexivity|]. split; [repeat constructor; lia|]. split; [cbn; lia|]. split; [repeat constructor; lia|]. split; [reflexivity|].
  intros [|[|r]] t E; cbn in E; try (injection E as <-); try (now destruct r); (split; [reflexivity|]);
  intros idx Hi; inversion Hi as [|? k ? l H1 H2]; subst; inversion H2; subst; cbn in H1; unfold move_axis_idx; cbn [nth upd adat zsum firstn fold_right Z.add].
  - assert (C : k = 0 \/ k = 1 \/ k = 2) by lia. destruct C as [-> |[-> | ->]]; reflexivity.
  - assert (C : k = 0 \/ k = 1) by lia. destruct C as [-> | ->]; reflexivity.
Qed.
Example C74_instance :
  represents (fun i => nth (Z.to_nat (nth 0 i 0)) [12 # 10; 10 # 1; 124 # 10; 155 # 10; 20 # 1]%Q 0%Q) [5] (Some 0%nat) [3; 2] c74_x /\
  increasing [0; 5; 10; 15; 20]%Q /\ decreasing [20; 15; 10; 5; 0]%Q /\
  (exists y, digitize (mk_dnd c74_x [5] (Some 0%nat)) false [0; 5; 10; 15; 20]%Q true = Ok y /\ map (fun t => map (adat t) (row_major (ash t))) (d_locals y) = [[1; 2; 3]; [4; 4]]) /\
  (exists y, digitize (mk_dnd c74_x [5] (Some 0%nat)) false [0; 5; 10; 15; 20]%Q false = Ok y /\ map (fun t => map (adat t) (row_major (ash t))) (d_locals y) = [[1; 3; 3]; [4; 5]]) /\
  (exists y, digitize (mk_dnd c74_x [5] (Some 0%nat)) false [20; 15; 10; 5; 0]%Q false = Ok y /\ map (fun t => map (adat t) (row_major (ash t))) (d_locals y) = [[4; 2; 2]; [1; 0]]).
Proof.
  split; [exact c74_x_ok|]. split; [|split; [|split; [|split]]]; try (eexists; split; reflexivity);
  intros i j [H1 H2]; cbn in H2;
  do 5 (destruct j as [|j]; [do 5 (destruct i as [|i]; [try (exfalso; lia); cbn; apply Qle_bool_iff; reflexivity|]); lia|]); lia.
Qed.

(** Side finding: sequences that are not monotone are accepted (NumPy raises ValueError), and
    an empty sequence of bins raises IndexError (NumPy returns zeros). *)
Theorem C74_unordered_bins_rejected_refuted :
  exists ls bins y, ~ increasing bins /\ ~ decreasing bins /\ digitize (mk_dnd ls [5] (Some 0%nat)) false bins false = Ok y.
Proof.
  exists c74_x, [0; 1; 0]%Q. eexists. split; [|split; [|reflexivity]].
  - intros H. specialize (H 1%nat 2%nat ltac:(cbn; lia)). cbn in H. apply Qle_bool_iff in H. discriminate H.
  - intros H. specialize (H 0%nat 1%nat ltac:(cbn; lia)). cbn in H. apply Qle_bool_iff in H. discriminate H.
Qed.
Print Assumptions C74_unordered_bins_rejected_refuted.
Theorem C74_no_bins_refuted : forall x right, digitize x false [] right = Err IndexError.
Proof. reflexivity. Qed.
Print Assumptions C74_no_bins_refuted.
