(** Proofs for GaussianNB. *)
From Coq Require Import List ZArith QArith Bool Lia Sorted Field Qfield.
From Verif Require Import Base GnbSpec GnbModel.
Import ListNotations.
Open Scope Q_scope.

(** * sums *)
Lemma qsum_app l m : qsum (l ++ m) == qsum l + qsum m.
Proof. induction l as [|x l IH]; cbn [app]; [change (qsum []) with 0; ring|]. change (qsum (x :: l ++ m)) with (x + qsum (l ++ m)). change (qsum (x :: l)) with (x + qsum l). rewrite IH. ring. Qed.
Lemma qsum_cons x l : qsum (x :: l) = x + qsum l. Proof. reflexivity. Qed.
Lemma qsum_ext {A} (f g : A -> Q) l : (forall x, In x l -> f x == g x) -> qsum (map f l) == qsum (map g l).
Proof. induction l as [|x l IH]; intros H; cbn [map]; [reflexivity|]. rewrite !qsum_cons, IH by (intros; apply H; now right). rewrite (H x) by now left. reflexivity. Qed.
(** first and second moments *)
Definition s1 (l : list (Q * Q)) : Q := qsum (map (fun p => fst p * snd p) l).
Definition s2 (l : list (Q * Q)) : Q := qsum (map (fun p => fst p * (snd p * snd p)) l).
Definition ssd (l : list (Q * Q)) : Q := qsum (map (fun p => fst p * ((snd p - wmean l) * (snd p - wmean l))) l).
Lemma dev_sum m l : qsum (map (fun p => fst p * ((snd p - m) * (snd p - m))) l) == s2 l - 2 * m * s1 l + m * m * weight l.
Proof.
  induction l as [|[w x] l IH]; [unfold s2, s1, weight; cbn; ring|].
  unfold s2, s1, weight in *. cbn [map fst snd]. rewrite !qsum_cons, IH. ring.
Qed.
Lemma ssd_eq l : ~ weight l == 0 -> ssd l == s2 l - s1 l * s1 l / weight l.
Proof. intros H. unfold ssd. rewrite dev_sum. unfold wmean. fold (s1 l). field. exact H. Qed.
Lemma weight_app l m : weight (l ++ m) == weight l + weight m.
Proof. unfold weight. rewrite map_app. apply qsum_app. Qed.
Lemma s1_app l m : s1 (l ++ m) == s1 l + s1 m.
Proof. unfold s1. rewrite map_app. apply qsum_app. Qed.
Lemma s2_app l m : s2 (l ++ m) == s2 l + s2 m.
Proof. unfold s2. rewrite map_app. apply qsum_app. Qed.
Lemma merge_mean l m : ~ weight l == 0 -> ~ weight m == 0 -> ~ weight l + weight m == 0 ->
  wmean (l ++ m) == (weight m * wmean m + weight l * wmean l) / (weight l + weight m).
Proof.
  intros H1 H2 H3. unfold wmean. fold (s1 (l ++ m)). fold (s1 l). fold (s1 m). rewrite s1_app, weight_app. field. auto.
Qed.
Lemma wvar_ssd l : wvar l = ssd l / weight l. Proof. reflexivity. Qed.
Lemma merge_var l m : ~ weight l == 0 -> ~ weight m == 0 -> ~ weight l + weight m == 0 ->
  wvar (l ++ m) == (weight l * wvar l + weight m * wvar m + (weight m * weight l / (weight l + weight m)) * ((wmean l - wmean m) * (wmean l - wmean m))) / (weight l + weight m).
Proof.
  intros H1 H2 H3. rewrite !wvar_ssd. assert (H4 : ~ weight (l ++ m) == 0) by (rewrite weight_app; auto).
  rewrite !ssd_eq by auto. unfold wmean. fold (s1 l). fold (s1 m). rewrite s1_app, s2_app, weight_app. field. auto.
Qed.
(** the unweighted and the weighted formula *)
Lemma weight_ones {A} (g : A -> Q) (l : list A) : weight (map (fun s => (1, g s)) l) == inject_Z (Z.of_nat (length l)).
Proof.
  induction l as [|x l IH]; [reflexivity|]. unfold weight in *. cbn [map fst]. rewrite qsum_cons, IH. cbn [length].
  rewrite Nat2Z.inj_succ, <- Z.add_1_l, inject_Z_plus. reflexivity.
Qed.
Lemma mean_ones {A} (g : A -> Q) l : mean (map g l) == wmean (map (fun s => (1, g s)) l).
Proof.
  unfold mean, wmean. rewrite weight_ones, map_length. rewrite map_map. cbn [fst snd].
  rewrite (qsum_ext (fun x => 1 * g x) g) by (intros; ring). reflexivity.
Qed.
Lemma var_ones {A} (g : A -> Q) l : var (map g l) == wvar (map (fun s => (1, g s)) l).
Proof.
  unfold var, wvar. rewrite weight_ones, !map_length, !map_map. cbn [fst snd].
  rewrite (qsum_ext (fun x => 1 * _) (fun x => (g x - mean (map g l)) * (g x - mean (map g l)))) by (intros; rewrite mean_ones; ring). reflexivity.
Qed.
Lemma average_w {A} (w g : A -> Q) l : average (map w l) (map g l) == wmean (map (fun s => (w s, g s)) l).
Proof.
  unfold average, wmean, weight. rewrite !map_map. cbn [fst snd].
  assert (E : map (fun p => fst p * snd p) (combine (map w l) (map g l)) = map (fun x => w x * g x) l).
  { induction l as [|x l IH]; cbn; [reflexivity|]. now rewrite IH. }
  now rewrite E.
Qed.
Lemma average_v {A} (w g : A -> Q) l : average (map w l) (map (fun x => (x - average (map w l) (map g l)) * (x - average (map w l) (map g l))) (map g l)) == wvar (map (fun s => (w s, g s)) l).
Proof.
  rewrite map_map. rewrite average_w. unfold wvar, wmean, weight. rewrite !map_map. cbn [fst snd].
  fold (weight (map (fun s => (w s, g s)) l)).
  rewrite (qsum_ext _ (fun x => w x * ((g x - wmean (map (fun s => (w s, g s)) l)) * (g x - wmean (map (fun s => (w s, g s)) l))))).
  - unfold wmean, weight. rewrite !map_map. cbn [fst snd]. reflexivity.
  - intros x _. rewrite average_w. reflexivity.
Qed.

(** * sorted labels *)
Lemma insert_in x l z : In z (insert x l) <-> z = x \/ In z l.
Proof.
  induction l as [|y l IH]; cbn [insert]; [cbn; intuition|]. destruct (Z.ltb_spec x y); [cbn; intuition|].
  destruct (Z.eqb_spec x y) as [->|N]; [cbn; intuition|]. cbn. rewrite IH. intuition.
Qed.
Lemma insert_sorted x l : StronglySorted Z.lt l -> StronglySorted Z.lt (insert x l).
Proof.
  induction 1 as [|y l S IH F]; cbn [insert]; [repeat constructor|].
  destruct (Z.ltb_spec x y) as [H|H].
  - constructor; [now constructor|]. constructor; [auto|]. rewrite Forall_forall in *. intros z Hz. specialize (F z Hz). lia.
  - destruct (Z.eqb_spec x y) as [->|N]; [now constructor|]. constructor; [auto|]. rewrite Forall_forall in *. intros z Hz. apply insert_in in Hz as [->|Hz]; [lia|auto].
Qed.
Lemma unique_sorted l : StronglySorted Z.lt (unique l).
Proof. induction l; cbn; [constructor|now apply insert_sorted]. Qed.
Lemma unique_in l z : In z (unique l) <-> In z l.
Proof. induction l; cbn; [intuition|]. rewrite insert_in, IHl. intuition. Qed.
Lemma sorted_nodup l : StronglySorted Z.lt l -> NoDup l.
Proof. induction 1 as [|x l S IH F]; constructor; auto. rewrite Forall_forall in F. intros H. specialize (F x H). lia. Qed.
Lemma sorted_same a : forall b, StronglySorted Z.lt a -> StronglySorted Z.lt b -> (forall z, In z a <-> In z b) -> a = b.
Proof.
  induction a as [|x a IH]; intros b Sa Sb H.
  - destruct b as [|y b]; [reflexivity|]. destruct (proj2 (H y) (or_introl eq_refl)).
  - inversion Sa as [|? ? Sa' Fa]; subst. destruct b as [|y b]; [destruct (proj1 (H x) (or_introl eq_refl))|].
    inversion Sb as [|? ? Sb' Fb]; subst. rewrite Forall_forall in Fa, Fb.
    assert (E : x = y).
    { destruct (proj1 (H x) (or_introl eq_refl)) as [->|Hx]; [auto|]. destruct (proj2 (H y) (or_introl eq_refl)) as [->|Hy]; [auto|].
      specialize (Fa y Hy). specialize (Fb x Hx). lia. }
    subst y. f_equal. apply IH; auto. intros z. split; intros Hz.
    + destruct (proj1 (H z) (or_intror Hz)) as [<-|]; [specialize (Fa _ Hz); lia|auto].
    + destruct (proj2 (H z) (or_intror Hz)) as [<-|]; [specialize (Fb _ Hz); lia|auto].
Qed.
Lemma list_eqb_eq a : forall b, list_eqb a b = true <-> a = b.
Proof.
  induction a as [|x a IH]; intros [|y b]; cbn; try (split; [discriminate|intros H; discriminate H]); [tauto|].
  rewrite andb_true_iff, Z.eqb_eq, IH. split; [intros [-> ->]; auto|intros E; injection E; auto].
Qed.
Lemma eqs_all a : forall b, length a = length b -> forallb (fun v => v) (map (fun p => Z.eqb (fst p) (snd p)) (combine a b)) = true <-> a = b.
Proof.
  induction a as [|x a IH]; intros [|y b] L; try discriminate; cbn; [tauto|]. rewrite andb_true_iff, Z.eqb_eq, IH by (cbn in L; lia).
  split; [intros [-> ->]; auto|intros E; injection E; auto].
Qed.

(** the position of a label among distinct classes *)
Lemma filter_one {A} (p : A -> bool) l x : In x l -> NoDup l -> (forall y, In y l -> (p y = true <-> y = x)) -> filter p l = [x].
Proof.
  induction l as [|a l IH]; intros Hin N H; [contradiction|]. inversion N as [|? ? Na Nl]; subst. cbn [filter].
  destruct (p a) eqn:E.
  - apply (H a (or_introl eq_refl)) in E as ->. f_equal. 
    assert (forall y, In y l -> p y = false).
    { intros y Hy. destruct (p y) eqn:Ey; [|auto]. apply (H y (or_intror Hy)) in Ey as ->. contradiction. }
    clear -H0. induction l as [|b l IHl]; cbn; [auto|]. rewrite H0 by now left. apply IHl. intros; apply H0; now right.
  - destruct Hin as [->|Hin]; [pose proof (proj2 (H x (or_introl eq_refl)) eq_refl); congruence|]. apply IH; auto. intros y Hy. apply H. now right.
Qed.
Lemma position c i : NoDup c -> (i < length c)%nat -> filter (fun k => Z.eqb (nth k c 0%Z) (nth i c 0%Z)) (seq 0 (length c)) = [i].
Proof.
  intros N Hi. apply filter_one; [apply in_seq; lia|apply seq_NoDup|]. intros k Hk. apply in_seq in Hk. rewrite Z.eqb_eq. split; [|now intros ->].
  intros E. apply (proj1 (NoDup_nth c 0%Z) N); auto; lia.
Qed.

(** * one batch *)
Lemma update_ok (b : batch) c f n mu v n' (nz : ~ weight (class_data c f b) == 0) :
  let mine := filter (fun s => Z.eqb (s_label s) c) (b_samples b) in
  let r := update_mean_variance n mu v (if b_weighted b then Some (map s_weight mine) else None) (map (fun s => s_feat s f) mine) in
  n == n' ->
  fst r == (if Qeq_bool n 0 then wmean (class_data c f b) else (weight (class_data c f b) * wmean (class_data c f b) + n' * mu) / (n' + weight (class_data c f b))) /\
  snd r == (if Qeq_bool n 0 then wvar (class_data c f b) else
     (n' * v + weight (class_data c f b) * wvar (class_data c f b) + (weight (class_data c f b) * n' / (n' + weight (class_data c f b))) * ((mu - wmean (class_data c f b)) * (mu - wmean (class_data c f b)))) / (n' + weight (class_data c f b))).
Proof.
  intros mine r En. unfold r, update_mean_variance. unfold class_data in *. fold mine in nz. fold mine.
  destruct (map (fun s => s_feat s f) mine) eqn:EM.
  { destruct mine; [|discriminate]. exfalso. apply nz. reflexivity. }
  rewrite <- EM. clear EM. destruct (b_weighted b).
  - pose proof (average_v s_weight (fun s => s_feat s f) mine) as AV. pose proof (average_w s_weight (fun s => s_feat s f) mine) as AW.
    assert (EW : weight (map (fun s => (s_weight s, s_feat s f)) mine) = qsum (map s_weight mine)) by (unfold weight; now rewrite map_map).
    destruct (Qeq_bool n 0); cbn [fst snd]; [split; auto|].
    rewrite EW. split; rewrite ?AV, ?AW, En; reflexivity.
  - pose proof (mean_ones (fun s => s_feat s f) mine) as AW. pose proof (var_ones (fun s => s_feat s f) mine) as AV.
    destruct (Qeq_bool n 0); cbn [fst snd]; [split; auto|].
    rewrite weight_ones, map_length. split; rewrite ?AV, ?AW, En; reflexivity.
Qed.
