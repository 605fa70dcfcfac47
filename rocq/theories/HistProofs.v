(** Histograms: proofs. *)
From Coq Require Import QArith Qround Permutation Lqa.
From Verif Require Import Base ShapeSpec BaseLemmas NdSpec TensorSpec TensorLemmas NdLemmas NdPerm OpsModel OpsProofs2 OpsProofs5 ShapeModel HistSpec HistModel.
Open Scope Z_scope.

Lemma Qle_bool_f a b : Qle_bool a b = false <-> (b < a)%Q.
Proof.
  destruct (Qle_bool a b) eqn:E; split; intros H; try discriminate; auto.
  - apply Qle_bool_iff in E. lra.
  - apply Qnot_le_lt. intros C. apply Qle_bool_iff in C. congruence.
Qed.
Lemma le_floor k y : k <= Qfloor y <-> (inject_Z k <= y)%Q.
Proof.
  split; intros H.
  - apply Qle_trans with (inject_Z (Qfloor y)); [now rewrite <- Zle_Qle|apply Qfloor_le].
  - pose proof (Qlt_floor y) as L. assert (Hlt : (inject_Z k < inject_Z (Qfloor y + 1))%Q) by (eapply Qle_lt_trans; eauto).
    rewrite <- Zlt_Qlt in Hlt. lia.
Qed.
Lemma edge_le lo hi n k x : (lo < hi)%Q -> 0 < n ->
  (edge lo hi n k <= x)%Q <-> (inject_Z k <= (x - lo) * inject_Z n / (hi - lo))%Q.
Proof.
  intros D Hn. assert (N : (0 < inject_Z n)%Q) by (change 0%Q with (inject_Z 0); now rewrite <- Zlt_Qlt).
  assert (W : (0 < (hi - lo) / inject_Z n)%Q).
  { apply Qlt_shift_div_l; auto. lra. }
  rewrite <- (Qmult_le_r (inject_Z k) _ _ W).
  assert (E : ((x - lo) * inject_Z n / (hi - lo) * ((hi - lo) / inject_Z n) == x - lo)%Q).
  { field. split; intros C; lra. }
  unfold edge. rewrite E. split; intros H; lra.
Qed.
Lemma edge_n lo hi n : 0 < n -> (edge lo hi n n == hi)%Q.
Proof.
  intros Hn. unfold edge. field. intros C. unfold Qeq in C. cbn in C. lia.
Qed.
Lemma edge_0 lo hi n : (edge lo hi n 0 == lo)%Q.
Proof. unfold edge. ring. Qed.
Lemma edge_mono lo hi n a b : (lo < hi)%Q -> 0 < n -> a <= b -> (edge lo hi n a <= edge lo hi n b)%Q.
Proof.
  intros D Hn H. apply edge_le; auto.
  assert (N : ~ (inject_Z n == 0)%Q) by (intros C; unfold Qeq in C; cbn in C; lia).
  assert (E : ((edge lo hi n b - lo) * inject_Z n / (hi - lo) == inject_Z b)%Q).
  { unfold edge. field. split; first [exact N|intros C; lra]. }
  rewrite E. now rewrite <- Zle_Qle.
Qed.

(** torch's position is the documented bin *)
Lemma bin_pos_spec lo hi n k x : (lo < hi)%Q -> 0 < n -> 0 <= k < n ->
  (Qle_bool lo x && Qle_bool x hi && (bin_pos lo hi n x =? k)) = in_bin lo hi n k x.
Proof.
  intros D Hn Hk. apply eq_true_iff_eq. unfold in_bin, bin_pos. rewrite !andb_true_iff, !Qle_bool_iff, Z.eqb_eq.
  set (y := ((x - lo) * inject_Z n / (hi - lo))%Q).
  assert (A1 : (edge lo hi n k <= x)%Q <-> k <= Qfloor y) by (rewrite le_floor; now apply edge_le).
  assert (A2 : (edge lo hi n (k + 1) <= x)%Q <-> k + 1 <= Qfloor y) by (rewrite le_floor; now apply edge_le).
  assert (A0 : (lo <= x)%Q <-> 0 <= Qfloor y) by (rewrite le_floor; unfold y; rewrite <- edge_le, edge_0 by auto; tauto).
  assert (An : (x <= hi)%Q -> Qfloor y <= n).
  { intros H. assert (C : ~ (n + 1 <= Qfloor y)); [|lia]. rewrite le_floor. unfold y. rewrite <- edge_le by auto.
    intros C. assert (B : (edge lo hi n n < edge lo hi n (n + 1))%Q).
    { unfold edge. assert (W : (0 < (hi - lo) / inject_Z n)%Q).
      { apply Qlt_shift_div_l; [change 0%Q with (inject_Z 0); now rewrite <- Zlt_Qlt|lra]. }
      revert W. generalize ((hi - lo) / inject_Z n)%Q. intros w W. rewrite inject_Z_plus. change (inject_Z 1) with 1%Q.
      rewrite Qmult_plus_distr_l. revert W. generalize (inject_Z n * w)%Q. intros v W. lra. }
    rewrite edge_n in B by auto. lra. }
  rewrite A1. destruct (Z.eqb_spec k (n - 1)) as [E|E].
  - rewrite Qle_bool_iff. split.
    + intros ((H1 & H2) & H3). split; [lia|auto].
    + intros (H1 & H2). specialize (An H2). split; [split; [apply A0; lia|auto]|lia].
  - rewrite negb_true_iff, Qle_bool_f. split.
    + intros ((H1 & H2) & H3). split; [lia|]. apply Qnot_le_lt. rewrite A2. lia.
    + intros (H1 & H2). assert (Hf : ~ k + 1 <= Qfloor y) by (rewrite <- A2; apply Qlt_not_le; auto).
      split; [split; [apply A0; lia|]|lia].
      apply Qle_trans with (edge lo hi n (k + 1)); [now apply Qlt_le_weak|].
      rewrite <- (edge_n lo hi n Hn) at 2. apply edge_mono; auto; lia.
Qed.

(** every element of the range lies in exactly one bin *)
Lemma in_bin_pos lo hi n k x : (lo < hi)%Q -> 0 < n -> 0 <= k < n -> in_bin lo hi n k x = true ->
  (lo <= x)%Q /\ (x <= hi)%Q /\ bin_pos lo hi n x = k.
Proof.
  intros D Hn Hk H. rewrite <- bin_pos_spec in H by auto. rewrite !andb_true_iff, !Qle_bool_iff, Z.eqb_eq in H. tauto.
Qed.
Lemma in_bin_exists lo hi n x : (lo < hi)%Q -> 0 < n -> (lo <= x)%Q -> (x <= hi)%Q ->
  0 <= bin_pos lo hi n x < n /\ in_bin lo hi n (bin_pos lo hi n x) x = true.
Proof.
  intros D Hn H1 H2. assert (B : 0 <= bin_pos lo hi n x < n).
  { unfold bin_pos. assert (0 <= Qfloor ((x - lo) * inject_Z n / (hi - lo))%Q); [|lia].
    rewrite le_floor, <- edge_le, edge_0 by auto. exact H1. }
  split; [exact B|]. rewrite <- bin_pos_spec by auto. rewrite !andb_true_iff, !Qle_bool_iff, Z.eqb_eq. auto.
Qed.

Lemma in_bin_compat lo hi lo' hi' n k x : (lo == lo')%Q -> (hi == hi')%Q -> in_bin lo hi n k x = in_bin lo' hi' n k x.
Proof. intros E1 E2. unfold in_bin, edge. rewrite !E1, !E2. reflexivity. Qed.

(** extrema *)
Lemma fold_min_spec t : forall x, In (fold_left qmin2 t x) (x :: t) /\ forall y, In y (x :: t) -> (fold_left qmin2 t x <= y)%Q.
Proof.
  induction t as [|z t IH]; intros x; cbn [fold_left].
  - split; [now left|]. intros y [->|[]]. apply Qle_refl.
  - destruct (IH (qmin2 x z)) as [H1 H2].
    assert (Hm : (qmin2 x z <= x)%Q /\ (qmin2 x z <= z)%Q /\ (qmin2 x z = x \/ qmin2 x z = z)).
    { unfold qmin2. destruct (Qle_bool x z) eqn:E; [apply Qle_bool_iff in E|apply Qle_bool_f in E]; repeat split; auto; lra. }
    destruct Hm as (M1 & M2 & M3). split.
    + destruct H1 as [H1|H1]; [|now right; right]. rewrite <- H1. destruct M3 as [-> | ->]; cbn; auto.
    + intros y [<-|[<-|Hin]].
      * eapply Qle_trans; [apply H2; now left|auto].
      * eapply Qle_trans; [apply H2; now left|auto].
      * apply H2. now right.
Qed.
Lemma fold_max_spec t : forall x, In (fold_left qmax2 t x) (x :: t) /\ forall y, In y (x :: t) -> (y <= fold_left qmax2 t x)%Q.
Proof.
  induction t as [|z t IH]; intros x; cbn [fold_left].
  - split; [now left|]. intros y [->|[]]. apply Qle_refl.
  - destruct (IH (qmax2 x z)) as [H1 H2].
    assert (Hm : (x <= qmax2 x z)%Q /\ (z <= qmax2 x z)%Q /\ (qmax2 x z = x \/ qmax2 x z = z)).
    { unfold qmax2. destruct (Qle_bool x z) eqn:E; [apply Qle_bool_iff in E|apply Qle_bool_f in E]; repeat split; auto; lra. }
    destruct Hm as (M1 & M2 & M3). split.
    + destruct H1 as [H1|H1]; [|now right; right]. rewrite <- H1. destruct M3 as [-> | ->]; cbn; auto.
    + intros y [<-|[<-|Hin]].
      * eapply Qle_trans; [|apply H2; now left]; auto.
      * eapply Qle_trans; [|apply H2; now left]; auto.
      * apply H2. now right.
Qed.
Lemma qmin_spec l : l <> [] -> is_min (qmin l) l.
Proof. destruct l as [|x t]; [contradiction|]. intros _. apply fold_min_spec. Qed.
Lemma qmax_spec l : l <> [] -> is_max (qmax l) l.
Proof. destruct l as [|x t]; [contradiction|]. intros _. apply fold_max_spec. Qed.

Lemma hist_fill_spec lo hi n l k : (lo < hi)%Q -> 0 < n -> 0 <= k < n ->
  nth (Z.to_nat k) (hist_fill lo hi n l) 0 = count (in_bin lo hi n k) l.
Proof.
  intros D Hn Hk. unfold hist_fill. unfold zr. rewrite map_map.
  rewrite (nth_indep _ 0 ((fun i => Z.of_nat (length (filter (fun x => Qle_bool lo x && Qle_bool x hi && (bin_pos lo hi n x =? Z.of_nat i)) l))) 0%nat))
    by (rewrite map_length, seq_length; lia).
  rewrite (map_nth (fun i => Z.of_nat (length (filter (fun x => Qle_bool lo x && Qle_bool x hi && (bin_pos lo hi n x =? Z.of_nat i)) l)))).
  rewrite seq_nth by lia. cbn [Nat.add]. unfold count. f_equal. f_equal. apply filter_ext. intros x.
  replace (Z.of_nat (Z.to_nat k)) with k by lia. now apply bin_pos_spec.
Qed.
Lemma hist_fill_length lo hi n l : length (hist_fill lo hi n l) = Z.to_nat n.
Proof. unfold hist_fill. now rewrite map_length, length_zr. Qed.

(** one process: [torch_histc] on part of the data, with the extrema of all of it *)
Lemma torch_histc_spec cast data l n mn mx lo hi mn' mx' : 0 < n ->
  hist_range cast data mn mx lo hi -> (forall x, In x l -> In x data) ->
  (if Qeq_bool mn mx then is_min mn' data /\ is_max mx' data else mn' = mn /\ mx' = mx) ->
  exists h, torch_histc cast l n mn' mx' = Ok h /\ length h = Z.to_nat n /\
    forall k, 0 <= k < n -> nth (Z.to_nat k) h 0 = count (in_bin lo hi n k) l.
Proof.
  intros Hn HR Sub HM. unfold torch_histc. destruct (Z.leb_spec n 0); [lia|].
  set (p1 := if Qeq_bool (cast mn') (cast mx') && negb (is_nil l) then (qmin l, qmax l) else (cast mn', cast mx')).
  set (p2 := let '(lo0, hi0) := p1 in if Qeq_bool lo0 hi0 then ((lo0 - 1)%Q, (hi0 + 1)%Q) else (lo0, hi0)).
  assert (G : exists a b, p2 = (a, b) /\ (a == lo)%Q /\ (b == hi)%Q /\ (a < b)%Q).
  { unfold p2, p1. destruct HR as [(N & E1 & E2 & E3)|(N & C & a & b & Ha & Hb & HR)].
    - assert (Q1 : Qeq_bool mn mx = false) by (destruct (Qeq_bool mn mx) eqn:Q; auto; apply Qeq_bool_iff in Q; contradiction).
      rewrite Q1 in HM. destruct HM as [-> ->].
      assert (Q2 : Qeq_bool (cast mn) (cast mx) = false) by (destruct (Qeq_bool (cast mn) (cast mx)) eqn:Q; auto; apply Qeq_bool_iff in Q; lra).
      rewrite Q2. cbn [andb]. rewrite Q2. exists (cast mn), (cast mx). repeat split; auto; symmetry; auto.
    - apply Qeq_bool_iff in N. rewrite N in HM. destruct HM as [Hm Hx].
      assert (Em : (mn' == a)%Q) by (apply Qle_antisym; [apply Hm, Ha|apply Ha, Hm]).
      assert (Ex : (mx' == b)%Q) by (apply Qle_antisym; [apply Hb, Hx|apply Hx, Hb]).
      assert (Cm : (cast mn' == a)%Q) by (rewrite <- Em; apply C, Hm).
      assert (Cx : (cast mx' == b)%Q) by (rewrite <- Ex; apply C, Hx).
      destruct HR as [(D & E1 & E2)|(D & E1 & E2)].
      + assert (Q2 : Qeq_bool (cast mn') (cast mx') = false) by (destruct (Qeq_bool (cast mn') (cast mx')) eqn:Q; auto; apply Qeq_bool_iff in Q; lra).
        rewrite Q2. cbn [andb]. rewrite Q2. exists (cast mn'), (cast mx'). repeat split; auto; lra.
      + assert (Q2 : Qeq_bool (cast mn') (cast mx') = true) by (apply Qeq_bool_iff; lra).
        rewrite Q2. cbn [andb]. destruct l as [|x t]; cbn [is_nil negb].
        * rewrite Q2. eexists _, _. split; [reflexivity|]. repeat split; lra.
        * destruct (qmin_spec (x :: t) ltac:(discriminate)) as [I1 _], (qmax_spec (x :: t) ltac:(discriminate)) as [I2 _].
          apply Sub in I1, I2. set (u := qmin (x :: t)) in *. set (v := qmax (x :: t)) in *.
          assert (Eu : (u == a)%Q) by (apply Qle_antisym; [rewrite D; now apply Hb|now apply Ha]).
          assert (Ev : (v == a)%Q) by (apply Qle_antisym; [rewrite D; now apply Hb|now apply Ha]).
          assert (Q3 : Qeq_bool u v = true) by (apply Qeq_bool_iff; lra). rewrite Q3.
          eexists _, _. split; [reflexivity|]. repeat split; lra. }
  destruct G as (a & b & E & Ea & Eb & D). unfold p2 in E. destruct p1 as [u v]. rewrite E.
  assert (Q : Qle_bool b a = false) by (now apply Qle_bool_f). rewrite Q. eexists. split; [reflexivity|].
  split; [apply hist_fill_length|]. intros k Hk. rewrite hist_fill_spec by auto. unfold count. f_equal. f_equal.
  apply filter_ext. intros x. now apply in_bin_compat.
Qed.

Lemma count_perm {A} (p : A -> bool) l l' : Permutation l l' -> count p l = count p l'.
Proof.
  unfold count. intros H. f_equal. induction H; cbn; auto.
  - destruct (p x); cbn; auto.
  - destruct (p x), (p y); cbn; auto.
  - congruence.
Qed.
Lemma count_app {A} (p : A -> bool) l l' : count p (l ++ l') = count p l + count p l'.
Proof. unfold count. rewrite filter_app, app_length. lia. Qed.
Lemma sum_hist_spec n p hs (ls : list (list Q)) k : 0 <= k < n ->
  Forall2 (fun l h => nth (Z.to_nat k) h 0 = count p l) ls hs ->
  nth (Z.to_nat k) (sum_hist n hs) 0 = count p (concat ls).
Proof.
  intros Hk F. unfold sum_hist. unfold zr. rewrite map_map.
  rewrite (nth_indep _ 0 ((fun i => zsum (map (fun h => nth (Z.to_nat (Z.of_nat i)) h 0) hs)) 0%nat)) by (rewrite map_length, seq_length; lia).
  rewrite (map_nth (fun i => zsum (map (fun h => nth (Z.to_nat (Z.of_nat i)) h 0) hs))), seq_nth by lia. cbn [Nat.add].
  rewrite Nat2Z.id. induction F as [|l h ls hs E F IH]; [reflexivity|]. cbn [map concat].
  rewrite count_app, <- E, <- IH. reflexivity.
Qed.
