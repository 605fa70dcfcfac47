From Verif Require Import Base BaseLemmas SchedModel.
Set Implicit Arguments.

Section Sched.
Variables S M : Type.
Notation event := (@event S M). Notation act := (@act S M). Notation msg := (@msg M).
Notation config := (@config S M).
Variable P : nat.

Inductive mev := Fresh (e : event) | Sent (e : event) (m : M).
Definition ev (x : mev) : event := match x with Fresh e => e | Sent e _ => e end.
Definition pend (i : nat) (x : mev) : bool :=
  match x with Fresh e => Nat.eqb (e_src e) i || Nat.eqb (e_dst e) i | Sent e _ => Nat.eqb (e_dst e) i end.
Definition mproj1 (i : nat) (x : mev) : list act :=
  match x with
  | Fresh e => proj1 i e
  | Sent e _ => if Nat.eqb (e_dst e) i then [ARecv (e_src e) (e_tag e) (e_recv e)] else []
  end.
Definition mexec1 (s : list S) (x : mev) : list S :=
  match x with
  | Fresh e => exec1 s e
  | Sent e m => match nth_error s (e_dst e) with Some b => upd s (e_dst e) (e_recv e b m) | None => s end
  end.
Definition mexec s L := fold_left mexec1 L s.
Definition sent1 (x : mev) : list msg :=
  match x with Fresh _ => [] | Sent e m => [Msg (e_src e) (e_dst e) (e_tag e) m] end.
Definition sent (L : list mev) := flat_map sent1 L.
Definition Rsent (x y : mev) : Prop := match y with Sent e _ => pend (e_src e) x = false | Fresh _ => True end.

Lemma FOP_app {A} (R : A -> A -> Prop) l1 l2 : ForallOrdPairs R (l1 ++ l2) <->
  ForallOrdPairs R l1 /\ ForallOrdPairs R l2 /\ (forall x y, In x l1 -> In y l2 -> R x y).
Proof.
  induction l1 as [|a l1 IH]; simpl.
  - split; [intros H; repeat split; auto; [constructor|intros x y []] | tauto].
  - split.
    + intros H. inversion H as [|a' l' Ha Hl]; subst. apply IH in Hl. destruct Hl as (H1 & H2 & H3).
      rewrite Forall_forall in Ha. repeat split; auto.
      * constructor; auto. apply Forall_forall. intros x Hx. apply Ha, in_or_app; auto.
      * intros x y [<-|Hx] Hy; [apply Ha, in_or_app; auto|auto].
    + intros (H1 & H2 & H3). inversion H1 as [|a' l' Ha Hl]; subst. rewrite Forall_forall in Ha.
      constructor; [|apply IH; auto]. apply Forall_forall. intros x Hx. apply in_app_or in Hx. destruct Hx; auto.
Qed.

Definition Inv (F : list S) (c : config) (L : list mev) : Prop :=
  length (progs c) = P /\ length (st c) = P /\
  (forall x, In x L -> e_src (ev x) < P /\ e_dst (ev x) < P /\ e_src (ev x) <> e_dst (ev x)) /\
  (forall i, nth i (progs c) [] = flat_map (mproj1 i) L) /\
  (forall i j t, filter (matches i j t) (net c) = filter (matches i j t) (sent L)) /\
  ForallOrdPairs Rsent L /\ mexec (st c) L = F.

Lemma mproj1_pend i x : mproj1 i x = [] <-> pend i x = false.
Proof.
  destruct x as [e|e m]; simpl.
  - unfold proj1. destruct (Nat.eqb (e_src e) i); simpl; [split; discriminate|].
    destruct (Nat.eqb (e_dst e) i); split; auto; discriminate.
  - destruct (Nat.eqb (e_dst e) i); split; auto; discriminate.
Qed.
Lemma mproj1_one i x a l : mproj1 i x = a :: l -> l = [].
Proof.
  destruct x as [e|e m]; simpl; unfold proj1.
  - destruct (Nat.eqb (e_src e) i); [now intros [=]|]. destruct (Nat.eqb (e_dst e) i); [now intros [=]|discriminate].
  - destruct (Nat.eqb (e_dst e) i); [now intros [=]|discriminate].
Qed.

Lemma flat_nil i L : (forall y, In y L -> pend i y = false) -> flat_map (mproj1 i) L = [].
Proof.
  induction L as [|x L IH]; simpl; auto. intros H.
  assert (mproj1 i x = []) as -> by (apply mproj1_pend, H; auto). simpl. apply IH. intros; apply H; auto.
Qed.

Lemma first_pend i L a rest : flat_map (mproj1 i) L = a :: rest ->
  exists pre x post, L = pre ++ x :: post /\ (forall y, In y pre -> pend i y = false) /\
    mproj1 i x = [a] /\ rest = flat_map (mproj1 i) post.
Proof.
  induction L as [|x L IH]; simpl; [discriminate|].
  destruct (mproj1 i x) as [|b l] eqn:E.
  - simpl. intros H. destruct (IH H) as (pre & y & post & -> & H1 & H2 & H3).
    exists (x :: pre), y, post. repeat split; auto. intros z [<-|Hz]; auto. now apply mproj1_pend.
  - pose proof (mproj1_one _ _ E). subst l. simpl. intros [= -> <-].
    exists [], x, L. repeat split; auto. intros y [].
Qed.

Lemma nth_error_upd {A} (l : list A) k j v : nth_error (upd l k v) j =
  if Nat.eqb j k then (match nth_error l k with Some _ => Some v | None => None end) else nth_error l j.
Proof. revert k j; induction l; intros [|k] [|j]; simpl; auto. destruct (Nat.eqb j k); auto. Qed.

Lemma upd_comm' {A} (l : list A) i j a b : i <> j -> upd (upd l i a) j b = upd (upd l j b) i a.
Proof. revert i j; induction l; intros [|i] [|j] H; simpl; auto; try lia. now rewrite IHl by lia. Qed.

Lemma mexec1_length s x : length (mexec1 s x) = length s.
Proof.
  destruct x; simpl; unfold exec1.
  - destruct (nth_error s (e_src e)); auto. destruct (nth_error s (e_dst e)); auto. now rewrite !upd_length.
  - destruct (nth_error s (e_dst e)); auto. now rewrite !upd_length.
Qed.
Lemma mexec_length L : forall s, length (mexec s L) = length s.
Proof. induction L; intros; simpl; auto. unfold mexec in *; simpl. now rewrite IHL, mexec1_length. Qed.

Lemma mexec1_indep s x i v : pend i x = false -> (forall e, x = Fresh e -> e_src e <> e_dst e) ->
  mexec1 (upd s i v) x = upd (mexec1 s x) i v /\ nth_error (mexec1 s x) i = nth_error s i.
Proof.
  destruct x as [e|e m]; simpl; intros H Hne.
  - apply orb_false_iff in H. destruct H as [H1 H2]. apply Nat.eqb_neq in H1, H2. unfold exec1.
    specialize (Hne e eq_refl).
    rewrite !nth_error_upd. destruct (Nat.eqb_spec (e_src e) i); [congruence|]. destruct (Nat.eqb_spec (e_dst e) i); [congruence|].
    destruct (nth_error s (e_src e)); auto. destruct (nth_error s (e_dst e)); auto. split.
    + rewrite (@upd_comm' _ s i) by auto. rewrite (upd_comm' _ (i:=i)) by auto. reflexivity.
    + rewrite !nth_error_upd. destruct (Nat.eqb_spec i (e_dst e)); [congruence|]. destruct (Nat.eqb_spec i (e_src e)); [congruence|]. auto.
  - apply Nat.eqb_neq in H. rewrite nth_error_upd. destruct (Nat.eqb_spec (e_dst e) i); [congruence|].
    destruct (nth_error s (e_dst e)); auto. split.
    + now rewrite upd_comm' by auto.
    + rewrite nth_error_upd. destruct (Nat.eqb_spec i (e_dst e)); [congruence|]. auto.
Qed.

Lemma mexec_indep L : forall s i v, (forall x, In x L -> pend i x = false) ->
  (forall x, In x L -> e_src (ev x) <> e_dst (ev x)) ->
  mexec (upd s i v) L = upd (mexec s L) i v /\ nth_error (mexec s L) i = nth_error s i.
Proof.
  induction L as [|x L IH]; intros s i v H Hne; [split; auto|].
  unfold mexec in *. simpl.
  destruct (@mexec1_indep s x i v) as [E1 E2]; [apply H; simpl; auto| |].
  { intros e ->. apply (Hne (Fresh e)); simpl; auto. }
  rewrite E1. destruct (IH (mexec1 s x) i v) as [E3 E4]; [intros; apply H; simpl; auto|intros; apply Hne; simpl; auto|].
  split; auto. congruence.
Qed.

Lemma take_first_spec (f : msg -> bool) l m l' : take_first f l = Some (m, l') ->
  f m = true /\ filter f l = m :: filter f l' /\
  (forall g, (forall x, f x = true -> g x = false) -> filter g l' = filter g l).
Proof.
  revert l'; induction l as [|x l IH]; intros l'; simpl; [discriminate|].
  destruct (f x) eqn:E.
  - intros [= -> ->]. repeat split; auto. intros g Hg. now rewrite Hg.
  - destruct (take_first f l) as [[y t]|]; [|discriminate]. intros [= -> <-].
    destruct (IH t eq_refl) as (H1 & H2 & H3). repeat split; auto.
    + simpl. now rewrite E.
    + intros g Hg. simpl. now rewrite H3.
Qed.
Lemma take_first_none (f : msg -> bool) l : take_first f l = None -> forall x, In x l -> f x = false.
Proof.
  induction l as [|x l IH]; simpl; [tauto|]. destruct (f x) eqn:E; [discriminate|].
  destruct (take_first f l) as [[y t]|]; [discriminate|]. intros _ z [<-|Hz]; auto.
Qed.
Lemma take_first_app_last (f : msg -> bool) l x : (forall y, In y l -> f y = false) -> f x = true ->
  take_first f (l ++ [x]) = Some (x, l).
Proof.
  induction l as [|a l IH]; simpl; intros H1 H2; [now rewrite H2|].
  rewrite H1 by auto. rewrite IH by auto. auto.
Qed.
Lemma take_first_some_iff (f : msg -> bool) l : filter f l <> [] -> take_first f l <> None.
Proof. intros H E. apply H. rewrite <- (app_nil_r (filter f l)). pose proof (take_first_none _ _ E) as N. clear H E.
  induction l; simpl; auto. rewrite N by (simpl; auto). apply IHl. intros; apply N; simpl; auto. Qed.

Lemma sent_app L1 L2 : sent (L1 ++ L2) = sent L1 ++ sent L2.
Proof. unfold sent. apply flat_map_app. Qed.

Lemma sent_fresh e L : sent (Fresh e :: L) = sent L. Proof. reflexivity. Qed.
Lemma sent_sent e m L : sent (Sent e m :: L) = [Msg (e_src e) (e_dst e) (e_tag e) m] ++ sent L. Proof. reflexivity. Qed.

Lemma sent_in L m : In m (sent L) -> exists e v, In (Sent e v) L /\ m = Msg (e_src e) (e_dst e) (e_tag e) v.
Proof.
  unfold sent. intros H. apply in_flat_map in H. destruct H as (x & Hx & Hm). destruct x as [e|e v]; simpl in Hm; [tauto|].
  destruct Hm as [<-|[]]. eauto.
Qed.

Definition wt (x : mev) : nat := match x with Fresh _ => 2 | Sent _ _ => 1 end.
Definition weight (L : list mev) := list_sum (map wt L).

Lemma weight_app L1 L2 : weight (L1 ++ L2) = weight L1 + weight L2.
Proof. unfold weight. now rewrite map_app, list_sum_app. Qed.

Lemma filter_nil {A} (f : A -> bool) l : (forall x, In x l -> f x = false) -> filter f l = [].
Proof. induction l; simpl; auto. intros H. rewrite H by auto. apply IHl; auto. Qed.

Lemma inv_send F c c' L : Inv F c L -> step_send c c' ->
  exists L', Inv F c' L' /\ weight L = 1 + weight L'.
Proof.
  intros (Lp & Ls & OK & PR & NT & FO & EX) St. destruct St as [c i dst tag f rest s Hp Hs].
  rewrite PR in Hp. destruct (first_pend _ _ Hp) as (pre & x & post & -> & NP & X & ->).
  destruct x as [e|e m].
  2:{ simpl in X. destruct (Nat.eqb (e_dst e) i); discriminate. }
  simpl in X. unfold proj1 in X. destruct (Nat.eqb_spec (e_src e) i) as [Ei|]; [|destruct (Nat.eqb (e_dst e) i); discriminate].
  injection X as Ed Et Ef. subst dst tag f i.
  destruct (OK (Fresh e)) as (O1 & O2 & O3); [apply in_or_app; simpl; auto|]. cbn [ev] in *.
  exists (pre ++ Sent e (fst (e_send e s)) :: post).
  assert (FO' := FO). apply FOP_app in FO'. destruct FO' as (FO1 & FO2 & FO3).
  inversion FO2 as [|x l FOx FOp]; subst x l. rewrite Forall_forall in FOx.
  split; [|rewrite !weight_app; unfold weight; cbn [map wt]; autorewrite with lsum; lia].
  unfold Inv. cbn [progs st net]. rewrite !upd_length. split; [auto|]. split; [auto|]. split; [|split; [|split; [|split]]].
  - intros x Hx. apply in_app_or in Hx. destruct Hx as [Hx|[<-|Hx]].
    + apply OK, in_or_app; auto.
    + cbn [ev]; auto.
    + apply OK, in_or_app; simpl; auto.
  - intros k. rewrite flat_map_app. cbn [flat_map mproj1].
    destruct (Nat.eq_dec k (e_src e)) as [->|Nk].
    + rewrite upd_same by (rewrite Lp; exact O1). rewrite (@flat_nil (e_src e) pre NP). destruct (Nat.eqb_spec (e_dst e) (e_src e)); [congruence|]. reflexivity.
    + rewrite upd_other by auto. rewrite PR, flat_map_app. cbn [flat_map mproj1]. f_equal. f_equal. unfold proj1.
      destruct (Nat.eqb_spec (e_src e) k); [congruence|]. reflexivity.
  - intros i j t. rewrite filter_app, NT, !sent_app, !filter_app, sent_fresh, sent_sent.
    rewrite <- app_assoc. f_equal. rewrite filter_app.
    destruct (matches i j t (Msg (e_src e) (e_dst e) (e_tag e) (fst (e_send e s)))) eqn:Mt.
    + rewrite (@filter_nil _ _ (sent post)); [now rewrite app_nil_r|].
      intros y Hy. apply sent_in in Hy. destruct Hy as (e' & v & Hin & ->).
      specialize (FOx _ Hin). cbn [Rsent pend] in FOx. unfold matches in *. cbn [g_src g_dst g_tag] in *.
      destruct (Nat.eqb_spec (e_src e') i); auto. cbn.
      assert (e_src e = i) by (apply andb_true_iff in Mt; destruct Mt as [Mt _]; apply andb_true_iff in Mt; destruct Mt as [Mt _]; now apply Nat.eqb_eq in Mt).
      subst i. rewrite H in FOx. rewrite Nat.eqb_refl in FOx. discriminate.
    + cbn [filter]. rewrite Mt. cbn. now rewrite app_nil_r.
  - apply FOP_app. split; [auto|]. split.
    + constructor; auto. apply Forall_forall. intros y Hy. specialize (FOx y Hy). destruct y as [e'|e' v]; cbn [Rsent pend] in *; auto.
      apply orb_false_iff in FOx. tauto.
    + intros x y Hx [<-|Hy].
      * cbn [Rsent]. auto.
      * apply FO3; simpl; auto.
  - unfold mexec in *. rewrite fold_left_app in *. cbn [fold_left] in *.
    destruct (@mexec_indep pre (st c) (e_src e) (snd (e_send e s))) as [E1 E2]; [auto| |].
    { intros x Hx. apply OK, in_or_app; auto. }
    unfold mexec in E1, E2. rewrite E1. rewrite <- EX. f_equal. cbn [mexec1]. unfold exec1. rewrite E2, Hs.
    rewrite nth_error_upd. destruct (Nat.eqb_spec (e_dst e) (e_src e)); [congruence|].
    destruct (nth_error (fold_left mexec1 pre (st c)) (e_dst e)) eqn:En; auto.
    exfalso. apply nth_error_None in En. pose proof (mexec_length pre (st c)) as ML. unfold mexec in ML. lia.
Qed.

Lemma inv_recv F c c' L : Inv F c L -> step_recv c c' ->
  exists L', Inv F c' L' /\ weight L = 1 + weight L'.
Proof.
  intros (Lp & Ls & OK & PR & NT & FO & EX) St. destruct St as [c j src tag f rest s m net' Hp Hs Ht].
  rewrite PR in Hp. destruct (first_pend _ _ Hp) as (pre & x & post & -> & NP & X & ->).
  assert (FO' := FO). apply FOP_app in FO'. destruct FO' as (FO1 & FO2 & FO3).
  inversion FO2 as [|x' l FOx FOp]; subst x' l. rewrite Forall_forall in FOx.
  destruct (take_first_spec _ _ Ht) as (Tm & Tf & Tg).
  assert (Npre : forall t, filter (matches src j t) (sent pre) = []).
  { intros t. apply filter_nil. intros y Hy. apply sent_in in Hy. destruct Hy as (e & v & Hin & ->).
    specialize (NP _ Hin). cbn [pend] in NP. unfold matches; cbn. rewrite NP. now rewrite andb_false_r. }
  pose proof (NT src j tag) as N1. rewrite Tf, sent_app, filter_app, Npre in N1. cbn [app] in N1.
  destruct x as [e|e v].
  - (* Fresh: impossible *)
    exfalso. simpl in X. unfold proj1 in X. destruct (Nat.eqb (e_src e) j) eqn:Q; [discriminate|].
    destruct (Nat.eqb (e_dst e) j); [|discriminate]. injection X as E1 E2 E3. subst src tag f.
    cbn [sent flat_map sent1 app] in N1.
    assert (In m (sent post)). { assert (In m (filter (matches (e_src e) j (e_tag e)) (sent post))) by (unfold sent; rewrite <- N1; simpl; auto). apply filter_In in H. tauto. }
    apply sent_in in H. destruct H as (e' & v & Hin & ->). specialize (FOx _ Hin). cbn [Rsent pend] in FOx.
    unfold matches in Tm. cbn in Tm. apply andb_true_iff in Tm. destruct Tm as [Tm _]. apply andb_true_iff in Tm. destruct Tm as [Tm _].
    apply Nat.eqb_eq in Tm. rewrite Tm, Nat.eqb_refl in FOx. discriminate.
  - simpl in X. destruct (Nat.eqb_spec (e_dst e) j) as [Ej|]; [|discriminate]. injection X as E1 E2 E3. subst src tag f j.
    destruct (OK (Sent e v)) as (O1 & O2 & O3); [apply in_or_app; simpl; auto|]. cbn [ev] in *.
    cbn [sent flat_map sent1 app filter] in N1. unfold matches at 2 in N1. cbn [g_src g_dst g_tag] in N1. rewrite !Nat.eqb_refl in N1. cbn [andb] in N1.
    fold (sent post) in N1. injection N1 as Em Etl. change (flat_map sent1 post) with (sent post) in Etl.
    exists (pre ++ post). split; [|rewrite !weight_app; unfold weight; cbn [map wt]; autorewrite with lsum; lia].
    unfold Inv. cbn [progs st net]. rewrite !upd_length. split; [auto|]. split; [auto|]. split; [|split; [|split; [|split]]].
    + intros x Hx. apply OK. apply in_app_or in Hx. apply in_or_app; simpl; tauto.
    + intros k. rewrite flat_map_app. destruct (Nat.eq_dec k (e_dst e)) as [->|Nk].
      * rewrite upd_same by (rewrite Lp; exact O2). rewrite (@flat_nil (e_dst e) pre NP). reflexivity.
      * rewrite upd_other by auto. rewrite PR, flat_map_app. cbn [flat_map mproj1].
        destruct (Nat.eqb_spec (e_dst e) k); [congruence|]. reflexivity.
    + intros i k t. rewrite sent_app, filter_app.
      destruct (Nat.eqb (e_src e) i && Nat.eqb (e_dst e) k && Nat.eqb (e_tag e) t) eqn:Q.
      * apply andb_true_iff in Q. destruct Q as [Q Q3]. apply andb_true_iff in Q. destruct Q as [Q1 Q2].
        apply Nat.eqb_eq in Q1, Q2, Q3. subst i k t. rewrite Npre. cbn [app]. exact Etl.
      * rewrite Tg.
        -- rewrite NT, sent_app, filter_app. f_equal. cbn [sent flat_map sent1 app filter]. unfold matches at 1. cbn [g_src g_dst g_tag]. now rewrite Q.
        -- intros y Hy. unfold matches in *. destruct (Nat.eqb_spec (g_src y) (e_src e)); [|discriminate].
           destruct (Nat.eqb_spec (g_dst y) (e_dst e)); [|discriminate]. destruct (Nat.eqb_spec (g_tag y) (e_tag e)); [|discriminate].
           congruence.
    + apply FOP_app. split; auto. split; auto. intros x y Hx Hy. apply FO3; simpl; auto.
    + unfold mexec in *. rewrite fold_left_app in *. cbn [fold_left] in *.
      destruct (@mexec_indep pre (st c) (e_dst e) (e_recv e s (g_val m))) as [E1 E2]; [auto| |].
      { intros x Hx. apply OK, in_or_app; auto. }
      unfold mexec in E1, E2. rewrite E1. rewrite <- EX. f_equal. cbn [mexec1]. rewrite E2, Hs, Em. reflexivity.
Qed.

Lemma sync_decomp (c c' : config) : step_sync c c' -> exists c1, step_send c c1 /\ step_recv c1 c'.
Proof.
  intros St. destruct St as [c i j tag f g resti restj si sj Nij Hi Hj Si Sj Tn].
  exists (Config (upd (progs c) i resti) (upd (st c) i (snd (f si))) (net c ++ [Msg i j tag (fst (f si))])).
  split; [econstructor; eauto|].
  change (fst (f si)) with (g_val (Msg i j tag (fst (f si)))) at 2.
  apply (@Step_recv S M (Config (upd (progs c) i resti) (upd (st c) i (snd (f si))) (net c ++ [Msg i j tag (fst (f si))])) j i tag g restj sj (Msg i j tag (fst (f si))) (net c)).
  - cbn [progs]. rewrite upd_other by auto. auto.
  - cbn [st]. rewrite nth_error_upd. destruct (Nat.eqb_spec j i); [congruence|auto].
  - cbn [net]. apply take_first_app_last.
    + apply take_first_none; auto.
    + unfold matches; cbn. now rewrite !Nat.eqb_refl.
Qed.

Lemma inv_step F c c' L : Inv F c L -> step c c' -> exists L', Inv F c' L' /\ weight L' < weight L.
Proof.
  intros I [H|[H|H]].
  - destruct (inv_send I H) as (L' & I' & W). exists L'; split; auto; lia.
  - destruct (inv_recv I H) as (L' & I' & W). exists L'; split; auto; lia.
  - destruct (sync_decomp H) as (c1 & H1 & H2). destruct (inv_send I H1) as (L1 & I1 & W1).
    destruct (inv_recv I1 H2) as (L2 & I2 & W2). exists L2; split; auto; lia.
Qed.

Lemma proj_oob i G : plan_ok P G -> P <= i -> proj i G = ([] : list act).
Proof.
  intros H Hi. unfold proj. induction G as [|e G IH]; auto. simpl.
  destruct (H e (or_introl eq_refl)) as (H1 & H2 & _). unfold proj1 at 1.
  destruct (Nat.eqb_spec (e_src e) i); [lia|]. destruct (Nat.eqb_spec (e_dst e) i); [lia|]. simpl. apply IH.
  intros e' He'; apply H; simpl; auto.
Qed.

Lemma inv_init G s0 : plan_ok P G -> length s0 = P -> Inv (exec s0 G) (initial P G s0) (map Fresh G).
Proof.
  intros OK Ls. unfold Inv, initial. cbn [progs st net]. rewrite map_length, seq_length.
  split; auto. split; auto. split; [|split; [|split; [|split]]].
  - intros x Hx. apply in_map_iff in Hx. destruct Hx as (e & <- & He). cbn [ev]. apply OK; auto.
  - intros i. assert (E : flat_map (mproj1 i) (map Fresh G) = proj i G).
    { unfold proj. clear. induction G; simpl; auto. now rewrite IHG. }
    rewrite E. destruct (Nat.lt_ge_cases i P).
    + now rewrite nth_map_seq.
    + rewrite nth_overflow by (rewrite map_length, seq_length; auto). symmetry. now apply proj_oob.
  - intros. assert (sent (map Fresh G) = []) as -> by (clear; induction G; simpl; auto). reflexivity.
  - clear. induction G; simpl; constructor; auto. apply Forall_forall. intros y Hy. apply in_map_iff in Hy. destruct Hy as (e & <- & _). exact I.
  - unfold mexec, exec. clear. revert s0. induction G; intros; simpl; auto.
Qed.

Lemma inv_progress F c L : Inv F c L -> final c \/ exists c', step_recv c c' \/ step_sync c c'.
Proof.
  intros (Lp & Ls & OK & PR & NT & FO & EX). destruct L as [|x L].
  - left. intros i. rewrite PR. reflexivity.
  - right. destruct (OK x (or_introl eq_refl)) as (O1 & O2 & O3).
    assert (HS : forall k, k < P -> exists s, nth_error (st c) k = Some s).
    { intros k Hk. destruct (nth_error (st c) k) eqn:E; eauto. apply nth_error_None in E. lia. }
    destruct (HS _ O1) as [sa Ha]. destruct (HS _ O2) as [sb Hb].
    assert (HD : nth (e_dst (ev x)) (progs c) [] = ARecv (e_src (ev x)) (e_tag (ev x)) (e_recv (ev x)) :: flat_map (mproj1 (e_dst (ev x))) L).
    { rewrite PR. cbn [flat_map]. destruct x as [e|e m]; cbn [ev mproj1]; cbn [ev] in O3; unfold proj1; rewrite Nat.eqb_refl; [|reflexivity].
      destruct (Nat.eqb_spec (e_src e) (e_dst e)); [congruence|]. reflexivity. }
    destruct (take_first (matches (e_src (ev x)) (e_dst (ev x)) (e_tag (ev x))) (net c)) as [[m n']|] eqn:T.
    + eexists. left. econstructor; eauto.
    + destruct x as [e|e m]; cbn [ev] in *.
      * eexists. right. eapply Step_sync with (i := e_src e) (j := e_dst e); eauto.
        rewrite PR. cbn [flat_map mproj1]. unfold proj1. rewrite Nat.eqb_refl. reflexivity.
      * exfalso. revert T. apply take_first_some_iff. rewrite NT. cbn [sent flat_map sent1 app filter]. unfold matches at 1. cbn.
        rewrite !Nat.eqb_refl. discriminate.
Qed.

Lemma inv_final F c L : Inv F c L -> final c -> st c = F /\ net c = [].
Proof.
  intros (Lp & Ls & OK & PR & NT & FO & EX) Fi.
  assert (L = []).
  { destruct L as [|x L]; auto. exfalso. specialize (Fi (e_dst (ev x))). rewrite PR in Fi. cbn [flat_map] in Fi.
    apply app_eq_nil in Fi. destruct Fi as [Fi _]. apply mproj1_pend in Fi. destruct x; cbn in Fi; rewrite Nat.eqb_refl in Fi; [rewrite orb_true_r in Fi|]; discriminate. }
  subst L. split; auto. destruct (net c) as [|m n] eqn:E; auto. specialize (NT (g_src m) (g_dst m) (g_tag m)). cbn in NT.
  unfold matches in NT at 1. rewrite !Nat.eqb_refl in NT. discriminate.
Qed.

Lemma inv_steps F n c c' L : Inv F c L -> steps n c c' -> exists L', Inv F c' L' /\ n + weight L' <= weight L.
Proof.
  intros I H. induction H as [c|n c c' c'' H IH St].
  - exists L; split; auto.
  - destruct (IH I) as (L1 & I1 & W1). destruct (inv_step I1 St) as (L2 & I2 & W2). exists L2; split; auto; lia.
Qed.

Lemma weight_fresh G : weight (map Fresh G) = 2 * length G.
Proof. induction G as [|e G IH]; [reflexivity|]. unfold weight in *. cbn [map wt length]. rewrite list_sum_cons, IH. lia. Qed.

Lemma sched_no_deadlock : forall (G : list event) (s0 : list S) n (c : config), plan_ok P G -> length s0 = P ->
  steps n (initial P G s0) c -> final c \/ exists c', step_recv c c' \/ step_sync c c'.
Proof.
  intros G s0 n c OK Ls H. destruct (inv_steps (@inv_init G s0 OK Ls) H) as (L & I & _). eapply inv_progress; eauto.
Qed.
Lemma sched_deterministic : forall (G : list event) (s0 : list S) n (c : config), plan_ok P G -> length s0 = P ->
  steps n (initial P G s0) c -> final c -> st c = exec s0 G /\ net c = [].
Proof.
  intros G s0 n c OK Ls H Fi. destruct (inv_steps (@inv_init G s0 OK Ls) H) as (L & I & _). eapply inv_final; eauto.
Qed.
Lemma sched_terminates : forall (G : list event) (s0 : list S) n (c : config), plan_ok P G -> length s0 = P ->
  steps n (initial P G s0) c -> n <= 2 * length G.
Proof.
  intros G s0 n c OK Ls H. destruct (inv_steps (@inv_init G s0 OK Ls) H) as (L & I & W). rewrite weight_fresh in W. lia.
Qed.
End Sched.
