(** C81: KMeans.fit and predict; the update of KMedoids. *)
From Coq Require Import List ZArith QArith Qabs Bool Arith Lia Lqa Field Qfield.
From Verif Require Import Base BaseLemmas LayoutModel LayoutProofs GnbSpec KmSpec KmModel KmProofs.
Import ListNotations.
Open Scope Q_scope.

Section Loop.
Variables (d k : nat).
Notation lab := (lab d k). Notation costf := (costf d k). Notation loop := (loop d k).
Definition zip (xs : list (list vec)) (C : nat -> vec) : list (list (vec * nat)) :=
  map (fun p => combine (fst p) (snd p)) (combine xs (map (assign d k C) xs)).
Lemma combine_map {A B} (f : A -> B) l : combine l (map f l) = map (fun x => (x, f x)) l.
Proof. induction l; cbn; congruence. Qed.
Lemma zip_eq xs C : zip xs C = map (map (fun x => (x, lab C x))) xs.
Proof. unfold zip. rewrite combine_map, map_map. apply map_ext. intros l. cbn [fst snd]. unfold assign. apply (combine_map (lab C)). Qed.
Lemma zip_concat xs C : concat (zip xs C) = map (fun x => (x, lab C x)) (concat xs).
Proof. rewrite zip_eq. symmetry. apply concat_map. Qed.
Lemma lab_concat xs C : concat (map (assign d k C) xs) = map (lab C) (concat xs).
Proof. unfold assign. symmetry. apply (concat_map (lab C)). Qed.
Lemma members_eq i xs C : members i (concat xs) (concat (map (assign d k C) xs)) = map fst (mem (zip xs C) i).
Proof. unfold members, mem. now rewrite lab_concat, zip_concat, combine_map. Qed.
Lemma step_le xs C : (0 < k)%nat -> costf (update (zip xs C)) (concat xs) <= costf C (concat xs).
Proof.
  intros Hk. apply Qle_trans with (qsum (map (fun x => dist2 d x (update (zip xs C) (lab C x))) (concat xs))).
  - apply qsum_le. intros x _. destruct (lab_nearest d k (update (zip xs C)) x Hk) as (_ & N & _). apply N. apply lab_nearest; auto.
  - pose proof (update_le d k (zip xs C) C) as U. rewrite zip_concat in U. rewrite !map_map in U. cbn [fst snd] in U. apply U.
    intros p Hp. apply in_map_iff in Hp as (x & <- & _). cbn [snd]. apply lab_nearest; auto.
Qed.
Lemma loop_ok xs : (0 < k)%nat -> forall todo it tol C r, loop todo it tol xs C = Ok r ->
  exists C1, costf C1 (concat xs) <= costf C (concat xs) /\ labels r = map (assign d k C1) xs /\ centers r = update (zip xs C1) /\
    inertia r = movement d k C1 (centers r) /\ (it < n_iter r <= it + todo)%nat /\
    (n_iter r = (it + todo)%nat \/ exists t, tol = Some t /\ inertia r <= t).
Proof.
  intros Hk. induction todo as [|todo IH]; intros it tol C r E; cbn [KmModel.loop] in E; [discriminate|]. fold (zip xs C) in E.
  destruct (match tol with Some t => Qle_bool (movement d k C (update (zip xs C))) t | None => false end) eqn:ES; cbn [orb] in E.
  - injection E as <-. cbn [labels centers inertia n_iter]. exists C. split; [apply Qle_refl|]. split; [auto|]. split; [auto|]. split; [auto|]. split; [lia|].
    right. destruct tol as [t|]; [|discriminate]. exists t. split; [auto|]. now apply Qle_bool_iff.
  - destruct (Nat.eqb_spec todo 0) as [->|].
    + injection E as <-. cbn [labels centers inertia n_iter]. exists C. split; [apply Qle_refl|]. split; [auto|]. split; [auto|]. split; [auto|]. split; [lia|]. left. lia.
    + apply IH in E as (C1 & A & B & D & F & G & H). exists C1. split; [eapply Qle_trans; [exact A|now apply step_le]|]. split; [auto|]. split; [auto|]. split; [auto|]. split; [lia|]. destruct H as [->|H]; [left; lia|auto].
Qed.
(** more iterations continue where fewer stop *)
Lemma loop_more xs : forall todo e it tol C r r', loop todo it tol xs C = Ok r -> loop (todo + e) it tol xs C = Ok r' ->
  r' = r \/ loop e (it + todo) tol xs (centers r) = Ok r'.
Proof.
  induction todo as [|todo IH]; intros e it tol C r r' E E'; cbn [KmModel.loop Nat.add] in E, E'; [discriminate|]. fold (zip xs C) in E, E'.
  destruct (match tol with Some t => Qle_bool (movement d k C (update (zip xs C))) t | None => false end) eqn:ES; cbn [orb] in E, E'; [left; congruence|].
  destruct (Nat.eqb_spec todo 0) as [->|Ne].
  - injection E as <-. cbn [centers]. cbn [Nat.add] in E'. destruct (Nat.eqb_spec e 0) as [->|]; [left; congruence|]. right. replace (it + 1)%nat with (S it) by lia. exact E'.
  - destruct (Nat.eqb_spec (todo + e) 0) as [|_]; [lia|]. destruct (IH e (S it) tol _ r r' E E') as [|H]; [auto|]. right. replace (it + S todo)%nat with (S it + todo)%nat by lia. exact H.
Qed.
Lemma update_eq xs ys C C' : concat xs = concat ys -> (forall x, lab C x = lab C' x) -> forall i f, update (zip xs C) i f == update (zip ys C') i f.
Proof.
  intros E EL i f. assert (EM : mem (zip xs C) i = mem (zip ys C') i). { unfold mem. rewrite !zip_concat, E. f_equal. apply map_ext. intros x. now rewrite EL. }
  destruct (mem (zip xs C) i) as [|p t] eqn:E1.
  - rewrite !update_empty; [reflexivity|auto|auto].
  - rewrite !update_mean by congruence. rewrite E1, <- EM. reflexivity.
Qed.
Lemma lab_eq C C' : (forall c f, C c f == C' c f) -> forall x, lab C x = lab C' x.
Proof. intros H x. apply argmin_eq, Forall2_map_eq. intros c _. unfold dist2. apply qsum_ext. intros f _. now rewrite H. Qed.
Lemma loop_layout xs ys : concat xs = concat ys -> forall todo it tol C C', (forall c f, C c f == C' c f) ->
  match loop todo it tol xs C, loop todo it tol ys C' with
  | Ok r, Ok r' => (forall c f, centers r c f == centers r' c f) /\ concat (labels r) = concat (labels r') /\ n_iter r = n_iter r' /\ inertia r == inertia r'
  | Err e, Err e' => e = e'
  | _, _ => False
  end.
Proof.
  intros E. induction todo as [|todo IH]; intros it tol C C' H; cbn [KmModel.loop]; [reflexivity|]. fold (zip xs C). fold (zip ys C').
  pose proof (lab_eq C C' H) as HL. pose proof (update_eq xs ys C C' E HL) as HU.
  assert (HM : movement d k C (update (zip xs C)) == movement d k C' (update (zip ys C'))).
  { unfold movement. apply qsum_ext. intros c _. apply qsum_ext. intros f _. now rewrite H, HU. }
  replace (match tol with Some t => Qle_bool (movement d k C' (update (zip ys C'))) t | None => false end) with (match tol with Some t => Qle_bool (movement d k C (update (zip xs C))) t | None => false end)
    by (destruct tol; [now apply Qle_bool_eq|reflexivity]).
  destruct (_ || _).
  - cbn [centers labels n_iter inertia]. split; [auto|]. split; [|split; auto]. rewrite !lab_concat, E. now apply map_ext.
  - apply IH. auto.
Qed.
End Loop.

(** Every fit: the labels are the nearest of the centers C1 of the last assignment, the
    final centers are the means of the points labelled so, C1 costs no more than the initial
    centers, and the loop ends at max_iter or when the centers move by at most tol *)
Theorem C81_fit : forall (d k max_iter : nat) (tol : option Q) (xs : list (list vec)) (C0 : nat -> vec) (r : fitted),
  (0 < k)%nat -> fit d k max_iter tol xs C0 = Ok r ->
  exists C1, 
    map (@length nat) (labels r) = map (@length vec) xs /\
    Forall2 (nearest d k C1) (concat xs) (concat (labels r)) /\
    (forall c f, members c (concat xs) (concat (labels r)) <> [] -> is_mean (members c (concat xs) (concat (labels r))) f (centers r c f)) /\
    (forall v v0, is_cost d k (concat xs) C1 v -> is_cost d k (concat xs) C0 v0 -> v <= v0) /\
    (1 <= n_iter r <= max_iter)%nat /\ inertia r = movement d k C1 (centers r) /\
    (n_iter r = max_iter \/ exists t, tol = Some t /\ inertia r <= t).
Proof.
  intros d k mi tol xs C0 r Hk E. destruct (loop_ok d k xs Hk mi 0 tol C0 r E) as (C1 & A & B & D & F & G & H). exists C1. rewrite B. split; [|split; [|split; [|split]]].
  - rewrite map_map. apply map_ext. intros l. unfold assign. apply map_length.
  - rewrite lab_concat. clear -Hk. induction (concat xs); cbn [map]; constructor; [now apply lab_nearest|auto].
  - intros c f NE. rewrite members_eq in *. split; [auto|]. rewrite D, map_length. apply update_mean. intros EM. apply NE. now rewrite EM.
  - intros v v0 Hv Hv0. apply cost_iff in Hv, Hv0; auto. now rewrite Hv, Hv0.
  - split; [lia|]. split; [auto|]. cbn [Nat.add] in H. exact H.
Qed.
(** The cost never increases: from the initial centers, and with more iterations *)
Theorem C81_monotone : forall (d k m e : nat) (tol : option Q) (xs : list (list vec)) (C0 : nat -> vec) (r r' : fitted) (v0 v v' : Q),
  (0 < k)%nat -> fit d k m tol xs C0 = Ok r -> fit d k (m + e) tol xs C0 = Ok r' ->
  is_cost d k (concat xs) C0 v0 -> is_cost d k (concat xs) (centers r) v -> is_cost d k (concat xs) (centers r') v' -> v' <= v <= v0.
Proof.
  intros d k m e tol xs C0 r r' v0 v v' Hk E E' H0 H H'. apply cost_iff in H0, H, H'; auto.
  assert (M : forall todo it C r, loop d k todo it tol xs C = Ok r -> costf d k (centers r) (concat xs) <= costf d k C (concat xs)).
  { intros todo it C s Es. destruct (loop_ok d k xs Hk todo it tol C s Es) as (C1 & A & _ & D & _). rewrite D. eapply Qle_trans; [apply step_le; auto|auto]. }
  rewrite H0, H, H'. split; [|eapply M; exact E]. destruct (loop_more d k xs m e 0 tol C0 r r' E E') as [->|L]; [apply Qle_refl|]. eapply M. exact L.
Qed.
(** If the last round did not move the centers, the labels are the nearest of the final centers *)
Theorem C81_converged : forall (d k max_iter : nat) (tol : option Q) (xs : list (list vec)) (C0 : nat -> vec) (r : fitted),
  (0 < k)%nat -> fit d k max_iter tol xs C0 = Ok r -> inertia r <= 0 -> Forall2 (nearest d k (centers r)) (concat xs) (concat (labels r)).
Proof.
  intros d k mi tol xs C0 r Hk E HI. destruct (loop_ok d k xs Hk mi 0 tol C0 r E) as (C1 & _ & B & D & F & _). rewrite B, lab_concat.
  assert (EQ : forall c f, (c < k)%nat -> (f < d)%nat -> C1 c f == centers r c f).
  { intros c f Hc Hf. rewrite F in HI. unfold movement in HI.
    assert (Z : forall (A : Type) (g : A -> Q) l, (forall x, In x l -> 0 <= g x) -> qsum (map g l) <= 0 -> forall x, In x l -> g x <= 0).
    { intros A g l. induction l as [|y l IH]; intros Hp Hs x Hx; [destruct Hx|]. cbn [map] in Hs. rewrite qsum_cons in Hs. assert (0 <= g y) by (apply Hp; now left). assert (0 <= qsum (map g l)) by (apply qsum_nonneg; intros; apply Hp; now right).
      destruct Hx as [<-|Hx]; [lra|]. apply IH; auto; [intros; apply Hp; now right|lra]. }
    assert (Z1 : qsum (map (fun f => (C1 c f - centers r c f) * (C1 c f - centers r c f)) (seq 0 d)) <= 0).
    { apply (Z nat (fun c => qsum (map (fun f => (C1 c f - centers r c f) * (C1 c f - centers r c f)) (seq 0 d))) (seq 0 k)); [|exact HI|apply in_seq; lia]. intros x _. apply qsum_nonneg. intros; apply sq_nonneg. }
    assert (Z2 : (C1 c f - centers r c f) * (C1 c f - centers r c f) <= 0) by (apply (Z nat (fun f => (C1 c f - centers r c f) * (C1 c f - centers r c f)) (seq 0 d)); [intros; apply sq_nonneg|exact Z1|apply in_seq; lia]).
    assert (C1 c f - centers r c f == 0) by nra. lra. }
  assert (EL : forall x, lab d k C1 x = lab d k (centers r) x).
  { intros x. apply argmin_eq, Forall2_map_eq. intros c Hc. apply in_seq in Hc. unfold dist2. apply qsum_ext. intros f Hf. apply in_seq in Hf. rewrite EQ by lia. reflexivity. }
  induction (concat xs) as [|x l IH]; cbn [map]; constructor; [rewrite EL; now apply lab_nearest|auto].
Qed.
(** The result does not depend on how the samples are distributed *)
Theorem C81_layout : forall (d k max_iter : nat) (tol : option Q) (xs ys : list (list vec)) (C0 : nat -> vec),
  concat xs = concat ys ->
  match fit d k max_iter tol xs C0, fit d k max_iter tol ys C0 with
  | Ok r, Ok r' => (forall c f, centers r c f == centers r' c f) /\ concat (labels r) = concat (labels r') /\ n_iter r = n_iter r' /\ inertia r == inertia r'
  | Err e, Err e' => e = e'
  | _, _ => False
  end.
Proof. intros d k mi tol xs ys C0 E. unfold fit. exact (loop_layout d k xs ys E mi 0 tol C0 C0 (fun c f => Qeq_refl _)). Qed.
(** fit fails iff max_iter is 0 *)
Theorem C81_fails_iff : forall (d k max_iter : nat) (tol : option Q) (xs : list (list vec)) (C0 : nat -> vec),
  (exists r, fit d k max_iter tol xs C0 = Ok r) <-> (0 < max_iter)%nat.
Proof.
  intros d k mi tol xs C0. unfold fit. split.
  - intros (r & E). destruct mi; [discriminate|lia].
  - intros H. revert H. generalize 0%nat at 2 as it. revert C0. induction mi as [|mi IH]; intros C it H; [lia|]. cbn [loop]. destruct (_ || Nat.eqb mi 0) eqn:E; [eauto|]. apply IH. apply orb_false_iff in E as [_ E]. apply Nat.eqb_neq in E. lia.
Qed.
(** A cluster without points gets the origin as its center, wherever the data and its old center are *)
Theorem C81_empty_refuted : forall (d k max_iter : nat) (tol : option Q) (xs : list (list vec)) (C0 : nat -> vec) (r : fitted) (c : nat),
  (0 < k)%nat -> fit d k max_iter tol xs C0 = Ok r -> members c (concat xs) (concat (labels r)) = [] -> forall f, centers r c f == 0.
Proof.
  intros d k mi tol xs C0 r c Hk E EM f. destruct (loop_ok d k xs Hk mi 0 tol C0 r E) as (C1 & _ & B & D & _). rewrite B, members_eq in EM. rewrite D. apply update_empty. now destruct (mem (zip d k xs C1) c).
Qed.
(** inertia_ is not the sum of squared distances: points 0 and 2, one center at 1 *)
Theorem C81_inertia_refuted :
  let xs := [[fun _ => 0; fun _ => 2]] in
  exists r v, fit 1 1 10 (Some (1 # 10000)) xs (fun _ _ => 1) = Ok r /\ is_cost 1 1 (concat xs) (centers r) v /\ inertia r == 0 /\ v == 2.
Proof.
  cbv zeta. set (xs := [[fun _ => 0; fun _ => 2]]).
  assert (B : match fit 1 1 10 (Some (1 # 10000)) xs (fun _ _ => 1) with Ok r => Qeq_bool (inertia r) 0 && Qeq_bool (costf 1 1 (centers r) (concat xs)) 2 | Err _ => false end = true) by (vm_compute; reflexivity).
  destruct (fit 1 1 10 (Some (1 # 10000)) xs (fun _ _ => 1)) as [r|e]; [|discriminate]. apply andb_prop in B as [B1 B2]. exists r, 2. split; [reflexivity|].
  split; [apply cost_iff; [auto|]; symmetry; now apply Qeq_bool_iff|]. split; [now apply Qeq_bool_iff|reflexivity].
Qed.
(** init="random" never picks the last sample, and fails for a single one *)
Theorem C81_random_init_refuted : forall (draw : nat -> nat) (rows : list vec),
  ((length rows <= 1)%nat -> random_init draw rows = Err ValueError) /\
  ((1 < length rows)%nat -> exists C, random_init draw rows = Ok C /\ forall c, exists i, (i < length rows - 1)%nat /\ nth_error rows i = Some (C c)).
Proof.
  intros draw rows. unfold random_init. split; intros H.
  - replace (length rows - 1 <=? 0)%nat with true by (symmetry; apply Nat.leb_le; lia). reflexivity.
  - replace (length rows - 1 <=? 0)%nat with false by (symmetry; apply Nat.leb_gt; lia). eexists. split; [reflexivity|]. intros c. exists (draw c mod (length rows - 1))%nat.
    assert (L : (draw c mod (length rows - 1) < length rows - 1)%nat) by (apply Nat.mod_upper_bound; lia). split; [exact L|]. apply nth_error_nth'. lia.
Qed.

(** ** KMedoids *)
Lemma find_go idx : forall cs acc p proc, (acc <= idx < acc + list_sum cs)%nat ->
  let r := (fix go (p : nat) (l : list nat) (proc : nat) : nat := match l with [] => proc | x :: l => if (idx <? x)%nat then proc else go (S p) l p end) p (displs_from acc cs) proc in
  exists j, (j < length cs)%nat /\ r = (p + j)%nat /\ (acc + psum cs j <= idx < acc + psum cs (S j))%nat.
Proof.
  induction cs as [|c cs IH]; intros acc p proc H; [change (list_sum []) with 0%nat in H; lia|]. change (list_sum (c :: cs)) with (c + list_sum cs)%nat in H. cbn [displs_from].
  replace (idx <? acc)%nat with false by (symmetry; apply Nat.ltb_ge; lia).
  destruct (le_lt_dec (acc + c) idx) as [Hge|Hlt].
  - destruct (IH (acc + c)%nat (S p) p) as (j & Hj & E & Hp); [lia|]. exists (S j). split; [cbn; lia|]. split; [rewrite E; lia|]. rewrite !psum_cons. lia.
  - exists 0%nat. split; [cbn; lia|]. split; [|rewrite psum_cons, !psum_0; lia]. destruct cs as [|c' cs]; cbn [displs_from]; [lia|]. replace (idx <? acc + c)%nat with true by (symmetry; apply Nat.ltb_lt; lia). lia.
Qed.
Lemma concat_nth {A} (xs : list (list A)) r i : (i < length (nth r xs []))%nat -> nth_error (concat xs) (psum (map (@length A) xs) r + i) = nth_error (nth r xs []) i.
Proof.
  revert r. induction xs as [|x xs IH]; intros [|r] H; cbn [nth length] in H; try (cbn in H; lia).
  - rewrite psum_0. cbn [concat nth Nat.add]. apply nth_error_app1. auto.
  - cbn [map concat nth]. rewrite psum_cons, <- Nat.add_assoc. rewrite nth_error_app2 by lia. rewrite <- (IH r H). f_equal. lia.
Qed.
Lemma fetch_ok n xs idx : map (@length vec) xs = counts_of n (length xs) -> (0 < length xs)%nat -> (idx < n)%nat -> exists v, fetch n xs idx = Ok v /\ nth_error (concat xs) idx = Some v.
Proof.
  intros E Hp Hi. unfold fetch. rewrite <- E. set (cs := map (@length vec) xs) in *. assert (ES : list_sum cs = n) by (rewrite E; now apply counts_of_sum).
  destruct (find_go idx cs 0 0 0) as (j & Hj & EF & H1); [lia|]. cbv zeta in EF. unfold find_proc. rewrite EF. cbn [Nat.add] in *. rewrite displs_from_nth by auto. cbn [Nat.add].
  rewrite psum_S in H1 by auto. assert (EL : length (nth j xs []) = nth j cs 0%nat) by (unfold cs; rewrite <- (map_nth (@length vec)); reflexivity).
  assert (LT : (idx - psum cs j < length (nth j xs []))%nat) by (rewrite EL; lia). destruct (nth_error (nth j xs []) (idx - psum cs j)) as [v|] eqn:EN; [|apply nth_error_None in EN; lia].
  exists v. split; [reflexivity|]. rewrite <- EN, <- (concat_nth xs j) by auto. fold cs. f_equal. lia.
Qed.
(** For canonical layouts every new medoid is a sample; if the cluster has a point other than
    the origin, it is a sample nearest to the median of these points *)
Theorem C81_medoid_partial : forall (d : nat) (median : list vec -> vec) (metric : vec -> vec -> Q) (sample : nat -> nat) (xs : list (list vec)) (lab : list (list nat)) (i : nat),
  concat xs <> [] -> map (@length vec) xs = counts_of (length (concat xs)) (length xs) ->
  exists v, medoid d median metric sample xs lab i = Ok v /\ In v (concat xs) /\
    let pts := filter (fun x => negb (Qeq_bool (manhattan_norm d x) 0)) (members i (concat xs) (concat lab)) in
    (pts <> [] -> forall x, In x (concat xs) -> metric v (median pts) <= metric x (median pts)).
Proof.
  intros d median metric sample xs lab i NE EC. assert (Hp : (0 < length xs)%nat) by (destruct xs; [contradiction NE; reflexivity|cbn; lia]).
  assert (Hn : (0 < length (concat xs))%nat) by (destruct (concat xs); [contradiction|cbn; lia]). unfold medoid. cbv zeta.
  destruct (filter _ _) as [|p pts] eqn:EF.
  - destruct (fetch_ok _ xs (sample i mod length (concat xs))%nat EC Hp) as (v & E & EN); [apply Nat.mod_upper_bound; lia|]. exists v. split; [exact E|]. split; [eapply nth_error_In; exact EN|]. intros H. now contradiction H.
  - set (m := median (p :: pts)). set (l := map (fun x => metric x m) (concat xs)). assert (L : length l = length (concat xs)) by (unfold l; apply map_length).
    destruct (argmin_spec l) as (A1 & A2 & _); [destruct l; cbn in L; [lia|discriminate]|].
    destruct (fetch_ok _ xs (argmin l) EC Hp) as (v & E & EN); [lia|]. exists v. split; [exact E|]. split; [eapply nth_error_In; exact EN|]. intros _ x Hx.
    apply In_nth_error in Hx as (j & Ej). assert (Hj : (j < length (concat xs))%nat) by (apply nth_error_Some; congruence).
    assert (N : forall j y, nth_error (concat xs) j = Some y -> nth j l 0 = metric y m).
    { intros a y Ey. apply nth_error_nth. unfold l. now apply (map_nth_error (fun x => metric x m)). }
    rewrite <- (N _ _ EN), <- (N _ _ Ej). apply A2. lia.
Qed.
(** the lookup uses canonical displacements: in another layout it returns another row, silently,
    or fails.  Rows 0..4 distributed 2 + 3: row 3 is looked up as row 2, row 2 raises IndexError *)
Theorem C81_medoid_layout_refuted :
  let xs := [[fun _ => 0; fun _ => 1]; [fun _ => 2; fun _ => 3; fun _ => 4]] in
  (exists v, fetch 5 xs 3 = Ok v /\ v 0%nat == 2) /\ fetch 5 xs 2 = Err IndexError.
Proof. cbv zeta. split; [eexists; split; [cbn; reflexivity|reflexivity]|cbn; reflexivity]. Qed.
(** a cluster whose points all lie in the origin counts as empty: its medoid is a random sample *)
Theorem C81_medoid_origin_refuted : forall (d : nat) (median : list vec -> vec) (metric : vec -> vec -> Q) (sample : nat -> nat) (xs : list (list vec)) (lab : list (list nat)) (i : nat),
  (forall x, In x (members i (concat xs) (concat lab)) -> forall f, x f == 0) ->
  medoid d median metric sample xs lab i = fetch (length (concat xs)) xs (sample i mod length (concat xs)).
Proof.
  intros d median metric sample xs lab i H. unfold medoid. cbv zeta. replace (filter _ _) with (@nil vec); [reflexivity|]. symmetry.
  induction (members i (concat xs) (concat lab)) as [|x l IH]; [reflexivity|]. cbn [filter].
  assert (E : Qeq_bool (manhattan_norm d x) 0 = true). { apply Qeq_bool_iff. unfold manhattan_norm. rewrite (qsum_ext _ (fun _ => 0)); [apply qsum_zero|]. intros f _. rewrite (H x (or_introl eq_refl) f). reflexivity. }
  rewrite E. cbn [negb]. apply IH. intros y Hy. apply H. now right.
Qed.
(** the hypotheses are met: two clusters on the line, 2 + 1 + 0 samples on three processes *)
Example C81_instance :
  let xs := [[fun _ => 0; fun _ => 2]; [fun _ => 10]; []] in
  exists r, fit 1 2 5 (Some 0) xs (fun c _ => match c with O => 0 | _ => 3 end) = Ok r /\ labels r = [[0%nat; 0%nat]; [1%nat]; []] /\ n_iter r = 3%nat /\
    centers r 0%nat 0%nat == 1 /\ centers r 1%nat 0%nat == 10 /\ inertia r <= 0 /\ map (@length vec) [[fun _ => 0]; [fun _ => 2]; [fun _ => 10]] = counts_of 3 3.
Proof.
  cbv zeta. set (xs := [[fun _ => 0; fun _ => 2]; [fun _ => 10]; []]). set (C0 := fun c (_ : nat) => match c with O => 0 | _ => 3 end).
  assert (B : match fit 1 2 5 (Some 0) xs C0 with Ok r => (if list_eq_dec (list_eq_dec Nat.eq_dec) (labels r) [[0%nat; 0%nat]; [1%nat]; []] then true else false) && Nat.eqb (n_iter r) 3 &&
      Qeq_bool (centers r 0%nat 0%nat) 1 && Qeq_bool (centers r 1%nat 0%nat) 10 && Qle_bool (inertia r) 0 | Err _ => false end = true) by (vm_compute; reflexivity).
  destruct (fit 1 2 5 (Some 0) xs C0) as [r|e]; [|discriminate]. apply andb_prop in B as [B B5]. apply andb_prop in B as [B B4]. apply andb_prop in B as [B B3]. apply andb_prop in B as [B1 B2].
  exists r. split; [reflexivity|]. split; [now destruct (list_eq_dec _ _ _)|]. split; [now apply Nat.eqb_eq|]. split; [now apply Qeq_bool_iff|]. split; [now apply Qeq_bool_iff|]. split; [now apply Qle_bool_iff|]. reflexivity.
Qed.
Print Assumptions C81_fit.
Print Assumptions C81_monotone.
Print Assumptions C81_converged.
Print Assumptions C81_layout.
Print Assumptions C81_fails_iff.
Print Assumptions C81_empty_refuted.
Print Assumptions C81_inertia_refuted.
Print Assumptions C81_random_init_refuted.
Print Assumptions C81_medoid_partial.
Print Assumptions C81_medoid_layout_refuted.
Print Assumptions C81_medoid_origin_refuted.
