From Coq Require Import List QArith ZArith Bool Lia Arith Lqa.
From Verif Require Import Base BaseLemmas DpSpec DpModel.
Import ListNotations.
Open Scope nat_scope.

(** * slices *)
Definition contiguous (lay : list nat) : Prop := forall i j k, i <= j <= k -> k < length lay -> nth i lay 0 = nth k lay 0 -> nth j lay 0 = nth i lay 0.
Lemma slices_from_ok lay : contiguous lay -> forall rest pre start prev, lay = pre ++ rest -> start < length pre ->
  (forall i, start <= i < length pre -> nth i lay 0 = prev) -> (forall i, i < start -> nth i lay 0 <> prev) ->
  (forall e, In e (slices_from (length pre) start prev rest) -> forall i, fst (snd e) <= i < snd (snd e) <-> i < length lay /\ nth i lay 0 = fst e) /\
  (forall i, start <= i < length lay -> exists e, In e (slices_from (length pre) start prev rest) /\ fst e = nth i lay 0).
Proof.
  intros C. induction rest as [|l t IH]; intros pre start prev E Hs Hp Hb; cbn [slices_from].
  - rewrite app_nil_r in E. subst pre. split.
    + intros e [<-|[]] i. cbn. split; [intros H; split; [lia|apply Hp; lia]|]. intros [H1 H2]. split; [|lia]. destruct (Nat.ltb_spec i start); auto. exfalso. apply (Hb i); auto.
    + intros i Hi. eexists. split; [left; reflexivity|]. cbn. symmetry. apply Hp. lia.
  - assert (EL : nth (length pre) lay 0 = l) by (rewrite E; rewrite app_nth2, Nat.sub_diag; auto).
    assert (LL : length pre < length lay) by (rewrite E, app_length; cbn; lia).
    assert (E' : lay = (pre ++ [l]) ++ t) by (rewrite <- app_assoc; exact E).
    assert (LP : length (pre ++ [l]) = length pre + 1) by (rewrite app_length; auto).
    destruct (Nat.eqb_spec l prev) as [->|N].
    + specialize (IH (pre ++ [prev]) start prev E'). rewrite LP in IH. apply IH; try lia; auto. intros i Hi. destruct (Nat.eq_dec i (length pre)) as [->|]; auto. apply Hp. lia.
    + specialize (IH (pre ++ [l]) (length pre) l E'). rewrite LP in IH. destruct IH as [I1 I2]; try lia.
      * intros i Hi. replace i with (length pre) by lia. auto.
      * intros i Hi E1. rewrite <- E1 in EL. assert (K : nth (length pre - 1) lay 0 = nth i lay 0) by (apply (C i (length pre - 1) (length pre)); try lia; congruence).
        rewrite (Hp (length pre - 1)) in K by lia. congruence.
      * split.
        -- intros e [<-|He] i; [|apply I1; auto]. cbn. split; [intros H; split; [lia|apply Hp; lia]|]. intros [H1 H2].
           destruct (Nat.ltb_spec i start) as [H3|H3]; [exfalso; apply (Hb i); auto|]. split; auto. destruct (Nat.ltb_spec i (length pre)) as [H4|H4]; auto. exfalso.
           assert (K : nth (length pre) lay 0 = nth start lay 0) by (apply (C start (length pre) i); try lia; rewrite (Hp start) by lia; congruence).
           rewrite (Hp start) in K by lia. congruence.
        -- intros i Hi. destruct (Nat.ltb_spec i (length pre)).
           ++ eexists. split; [left; reflexivity|]. cbn. symmetry. apply Hp. lia.
           ++ destruct (I2 i ltac:(lia)) as (e & H1 & H2). exists e. split; [right|]; auto.
Qed.
Lemma slice_of_ok lay l : contiguous lay -> In l lay -> forall i, fst (slice_of lay l) <= i < snd (slice_of lay l) <-> i < length lay /\ nth i lay 0 = l.
Proof.
  intros C Hl. unfold slice_of. destruct lay as [|l0 t]; [destruct Hl|].
  assert (K := slices_from_ok (l0 :: t) C t [l0] 0 l0 eq_refl). cbn [length] in K. cbn [param_slices].
  destruct K as [K1 K2]; [lia|intros i Hi; replace i with 0 by lia; auto|intros; lia|].
  apply In_nth with (d := 0) in Hl. destruct Hl as (j & Hj & Ej). destruct (K2 j (conj (Nat.le_0_l j) Hj)) as (e & H1 & H2).
  destruct (find (fun e => fst e =? l) (rev (slices_from 1 0 l0 t))) as [e'|] eqn:F.
  - apply find_some in F. destruct F as [F1 F2]. apply in_rev in F1. apply Nat.eqb_eq in F2. intros i. rewrite (K1 e' F1 i), F2. reflexivity.
  - exfalso. apply find_none with (x := e) in F; [|apply -> in_rev; auto]. rewrite H2, Ej, Nat.eqb_refl in F. discriminate.
Qed.

Section P.
Variable PS : Type.
Variable opt : PS -> Q -> PS.
Hypothesis opt_ext : forall s a b, (a == b)%Q -> opt s a = opt s b.
Variable n : net.
Hypothesis Cont : contiguous (lay n).
Hypothesis Mods : forall l, In l (lay n) -> mods n l = true.
Let N := length (lay n).
Let ly (i : nat) := nth i (lay n) 0.

Lemma ly_in i : i < N -> In (ly i) (lay n).
Proof. intros H. apply nth_In. exact H. Qed.

(** reductions launched for the layers; those in [D] are already applied *)
Definition part (p : nat -> PS) (x : nat -> Q) (D : nat -> bool) (s : proc PS) : Prop :=
  (forall i, i < N -> ps s i = if D (ly i) then opt (p i) (x i) else p i) /\
  (forall i, i < N -> exists g, gr s i = Some g /\ (g == if D (ly i) then x i else 0)%Q) /\
  (forall l, has l (handles s) = true <-> In l (lay n)) /\ NoDup (map fst (handles s)) /\
  (forall l, NoDup (map fst (handles_of l (handles s))) /\ forall e, In e (handles_of l (handles s)) <-> fst e < N /\ ly (fst e) = l /\ snd e = x (fst e)) /\
  (forall l, In l (active s) <-> In l (lay n) /\ D l = false) /\ update_next s = true.

Lemma existsb_in l a : existsb (Nat.eqb l) a = true <-> In l a.
Proof. rewrite existsb_exists. split; [intros (y & H1 & H2); apply Nat.eqb_eq in H2; subst; auto|intros H; exists l; split; auto; apply Nat.eqb_refl]. Qed.
Lemma fold_add (hs : list (nat * Q)) g i : NoDup (map fst hs) ->
  fold_left (fun g e => add_grad g (fst e) (snd e)) hs g i = match find (fun e => fst e =? i) hs with Some e => match g i with Some y => Some (y + snd e)%Q | None => None end | None => g i end.
Proof.
  revert g. induction hs as [|[j y] hs IH]; intros g ND; cbn; auto. inversion ND as [|? ? N1 N2]; subst. rewrite IH by auto.
  rewrite (Nat.eqb_sym j i). destruct (Nat.eqb_spec i j) as [->|NE].
  - destruct (find (fun e => fst e =? j) hs) as [e|] eqn:F.
    + exfalso. apply find_some in F. destruct F as [F1 F2]. apply Nat.eqb_eq in F2. apply N1. rewrite <- F2. apply in_map. auto.
    + unfold add_grad. rewrite Nat.eqb_refl. auto.
  - unfold add_grad. destruct (Nat.eqb_spec i j); [congruence|]. auto.
Qed.
Lemma find_hs (hs : list (nat * Q)) l x i : (forall e, In e hs <-> fst e < N /\ ly (fst e) = l /\ snd e = x (fst e)) ->
  find (fun e => fst e =? i) hs = if (i <? N) && (ly i =? l) then Some (i, x i) else None.
Proof.
  intros H. destruct (find (fun e => fst e =? i) hs) as [[j y]|] eqn:F.
  - apply find_some in F. destruct F as [F1 F2]. cbn in F2. apply Nat.eqb_eq in F2. subst j. apply H in F1. cbn in F1. destruct F1 as (A & B & C). subst y.
    destruct (Nat.ltb_spec i N); [|lia]. rewrite B, Nat.eqb_refl. auto.
  - destruct (Nat.ltb_spec i N); auto. destruct (Nat.eqb_spec (ly i) l); auto. exfalso. apply find_none with (x := (i, x i)) in F; [cbn in F; rewrite Nat.eqb_refl in F; discriminate|]. apply H. cbn. auto.
Qed.
Lemma hs_nonempty (hs : list (nat * Q)) l x : In l (lay n) -> (forall e, In e hs <-> fst e < N /\ ly (fst e) = l /\ snd e = x (fst e)) -> hs <> [].
Proof. intros Hl H ->. apply In_nth with (d := 0) in Hl. destruct Hl as (i & Hi & E). apply (proj2 (H (i, x i))). cbn. auto. Qed.

(** waiting for one layer *)
Lemma wait_one l t (s : proc PS) : In l (active s) -> handles_of l (handles s) <> [] ->
  wait_layers (l :: t) s = wait_layers t (mk_proc (ps s) (fold_left (fun g e => add_grad g (fst e) (snd e)) (handles_of l (handles s)) (gr s)) (handles s) (discard l (active s)) (update_next s)).
Proof. intros H1 H2. cbn [wait_layers]. apply existsb_in in H1. rewrite H1. destruct (handles_of l (handles s)); [congruence|]. reflexivity. Qed.
Lemma wait_none l t (s : proc PS) : ~ In l (active s) -> wait_layers (l :: t) s = (s, false).
Proof. intros H. cbn [wait_layers]. destruct (existsb (Nat.eqb l) (active s)) eqn:E; auto. apply existsb_in in E. contradiction. Qed.

Lemma hook_idle l s : ~ In l (active s) -> forward_hook opt n l s = s.
Proof. intros H. unfold forward_hook. destruct (slice_of (lay n) l). unfold iparam_update. cbn [rev app]. rewrite wait_none by auto. auto. Qed.
Lemma in_discard l k a : In k (discard l a) <-> In k a /\ k <> l.
Proof. unfold discard. rewrite filter_In, negb_true_iff, Nat.eqb_neq. tauto. Qed.

Lemma hook_part p x D l s : part p x D s -> In l (lay n) -> D l = false -> part p x (fun k => (k =? l) || D k) (forward_hook opt n l s).
Proof.
  intros (A1 & A2 & A3 & A4 & A5 & A6 & A7) Hl HD. unfold forward_hook. destruct (slice_of (lay n) l) as [lo hi] eqn:SL.
  unfold iparam_update. cbn [rev app]. destruct (A5 l) as [B1 B2]. rewrite wait_one by (try apply A6; auto; eapply hs_nonempty; eauto). cbn [wait_layers andb update_next].
  rewrite A7. pose proof (slice_of_ok (lay n) l Cont Hl) as K. rewrite SL in K. cbn [fst snd] in K.
  assert (G : forall i, fold_left (fun g e => add_grad g (fst e) (snd e)) (handles_of l (handles s)) (gr s) i =
     if (i <? N) && (ly i =? l) then match gr s i with Some y => Some (y + x i)%Q | None => None end else gr s i).
  { intros i. rewrite fold_add by auto. rewrite (find_hs _ l x) by auto. destruct ((i <? N) && (ly i =? l)); auto. }
  unfold part, torch_step. cbn [ps gr handles active update_next]. split; [|split; [|split; [|split; [|split; [|split]]]]]; auto.
  - intros i Hi. rewrite G. destruct (Nat.ltb_spec i N); [|lia]. cbn [andb].
    assert (KK : (lo <=? i) && (i <? hi) = (ly i =? l)).
    { apply eq_true_iff_eq. rewrite andb_true_iff, Nat.leb_le, Nat.ltb_lt, Nat.eqb_eq. rewrite K. unfold ly, N in *. tauto. }
    rewrite KK. destruct (Nat.eqb_spec (ly i) l) as [E|E]; cbn [orb]; [|apply A1; auto].
    destruct (A2 i Hi) as (g & -> & Hg). rewrite E, HD in Hg. rewrite A1 by auto. rewrite E, HD. apply opt_ext. lra.
  - intros i Hi. rewrite G. destruct (Nat.ltb_spec i N); [|lia]. cbn [andb]. destruct (A2 i Hi) as (g & E & Hg). rewrite E.
    destruct (Nat.eqb_spec (ly i) l) as [El|El]; cbn [orb]; [|eauto]. rewrite El, HD in Hg. eexists. split; [reflexivity|]. lra.
  - intros k. rewrite in_discard, A6, orb_false_iff, Nat.eqb_neq. tauto.
Qed.
Lemma hook_part' p x D l s : part p x D s -> In l (lay n) -> exists D', part p x D' (forward_hook opt n l s) /\ (forall k, D' k = (k =? l) || D k).
Proof.
  intros H Hl. destruct (D l) eqn:E.
  - exists D. rewrite hook_idle; [|destruct H as (_ & _ & _ & _ & _ & H & _); intros Hi; apply H in Hi; destruct Hi; congruence]. split; auto. intros k. destruct (Nat.eqb_spec k l); subst; auto.
  - eexists. split; [apply hook_part; eauto|]. auto.
Qed.
Lemma part_ext p x D D' s : (forall k, D k = D' k) -> part p x D s -> part p x D' s.
Proof. intros H (A1 & A2 & A3 & A4 & A5 & A6 & A7). unfold part. repeat match goal with |- _ /\ _ => split end; auto; intros; try rewrite <- H; auto. Qed.

(** the forward pass with pending reductions *)
Lemma run_part p x ls : forall D s seen, part p x D s -> exists D', part p x D' (fst (run_module opt n (fun l => mods n l && has l (handles s)) ls s seen)) /\
  (forall k, In k (lay n) -> D' k = true <-> D k = true \/ In k ls) /\
  handles (fst (run_module opt n (fun l => mods n l && has l (handles s)) ls s seen)) = handles s /\
  (forall i, i < N -> snd (run_module opt n (fun l => mods n l && has l (handles s)) ls s seen) i = if existsb (Nat.eqb (ly i)) ls then opt (p i) (x i) else seen i).
Proof.
  induction ls as [|l ls IH]; intros D s seen H; cbn [run_module].
  - exists D. split; [exact H|]. split; [intros; cbn; tauto|]. split; auto.
  - set (s' := if mods n l && has l (handles s) then forward_hook opt n l s else s).
    set (seen' := fun i => if nth i (lay n) 0 =? l then (if i <? length (lay n) then ps s' i else seen i) else seen i).
    assert (HH : handles s' = handles s).
    { unfold s'. destruct (mods n l && has l (handles s)) eqn:E; auto. unfold forward_hook. destruct (slice_of (lay n) l). unfold iparam_update. cbn [rev app wait_layers].
      destruct (existsb (Nat.eqb l) (active s)); [|auto]. cbn. destruct (update_next s); auto. }
    assert (K : exists D1, part p x D1 s' /\ forall k, In k (lay n) -> D1 k = true <-> D k = true \/ k = l).
    { unfold s'. destruct (mods n l && has l (handles s)) eqn:E.
      - apply andb_true_iff in E. destruct E as [_ E]. assert (Hl : In l (lay n)) by (pose proof H as (_ & _ & H3 & _); apply H3; exact E). destruct (hook_part' p x D l s H Hl) as (D1 & P1 & P2). exists D1. split; auto.
        intros k _. rewrite P2, orb_true_iff, Nat.eqb_eq. tauto.
      - exists D. split; auto. intros k Hk. split; auto. intros [?| ->]; auto. exfalso. rewrite (Mods l Hk) in E. cbn in E. destruct H as (_ & _ & H & _). apply H in Hk. congruence. }
    destruct K as (D1 & P1 & P2). rewrite <- HH.
    destruct (IH D1 s' seen' P1) as (D' & Q1 & Q2 & Q3 & Q4). exists D'. split; [exact Q1|]. split; [|split; [rewrite Q3; auto|]].
    + intros k Hk. rewrite Q2, P2 by auto. cbn. intuition congruence.
    + intros i Hi. rewrite Q4 by auto. cbn [existsb]. destruct (existsb (Nat.eqb (ly i)) ls); [rewrite orb_true_r; auto|]. rewrite orb_false_r.
      unfold seen'. fold (ly i). destruct (Nat.eqb_spec (ly i) l); auto. destruct (Nat.ltb_spec i (length (lay n))); [|unfold N in Hi; lia].
      destruct P1 as (P1 & _). rewrite P1 by auto. assert (D1 (ly i) = true) by (apply P2; [apply ly_in; auto|auto]). rewrite H1. auto.
Qed.
Lemma run_idle ls : forall s seen hooked, active s = [] -> run_module opt n hooked ls s seen = (s, snd (run_module opt n hooked ls s seen)) /\
  (forall i, i < N -> snd (run_module opt n hooked ls s seen) i = if existsb (Nat.eqb (ly i)) ls then ps s i else seen i).
Proof.
  induction ls as [|l ls IH]; intros s seen hooked H; cbn [run_module]; [split; auto|].
  assert (E : (if hooked l then forward_hook opt n l s else s) = s) by (destruct (hooked l); auto; apply hook_idle; rewrite H; auto). rewrite E.
  destruct (IH s (fun i => if nth i (lay n) 0 =? l then (if i <? length (lay n) then ps s i else seen i) else seen i) hooked H) as [A B]. split; [exact A|].
  intros i Hi. rewrite B by auto. cbn [existsb]. destruct (existsb (Nat.eqb (ly i)) ls); [rewrite orb_true_r; auto|]. rewrite orb_false_r. fold (ly i).
  destruct (Nat.eqb_spec (ly i) l); auto. destruct (Nat.ltb_spec i (length (lay n))); [auto|unfold N in Hi; lia].
Qed.

(** the state before a forward pass that will use the parameters [q] *)
Definition idle (q : nat -> PS) (s : proc PS) : Prop := active s = [] /\ (0 < N -> handles s = [] -> update_next s = false) /\ forall i, i < N -> ps s i = q i.
Definition ready (q : nat -> PS) (s : proc PS) : Prop := idle q s \/ exists p x, part p x (fun _ => false) s /\ forall i, i < N -> q i = opt (p i) (x i).
Lemma forward_ok q ls s : (forall i, i < N -> In (ly i) ls) -> ready q s ->
  let r := forward opt n ls s in idle q (fst r) /\ handles (fst r) = [] /\ (forall i, i < N -> snd r i = q i).
Proof.
  intros Hls R. cbv zeta. unfold forward. assert (EX : forall i, i < N -> existsb (Nat.eqb (ly i)) ls = true) by (intros; apply existsb_in; auto).
  destruct R as [(R1 & RU & R2)|(p & x & Pt & Hq)].
  - destruct (run_idle ls s (ps s) (fun l => mods n l && has l (handles s)) R1) as [A B]. rewrite A. rewrite R1. cbn. repeat split; auto.
    intros i Hi. rewrite B by auto. rewrite EX by auto. auto.
  - destruct (run_part p x ls (fun _ => false) s (ps s) Pt) as (D' & Q1 & Q2 & Q3 & Q4).
    destruct (run_module opt n (fun l => mods n l && has l (handles s)) ls s (ps s)) as [s1 seen]. cbn [fst snd] in *.
    assert (DT : forall k, In k (lay n) -> D' k = true). { intros k Hk. apply Q2; auto. right. apply In_nth with (d := 0) in Hk. destruct Hk as (i & Hi & <-). apply Hls. auto. }
    destruct Q1 as (A1 & A2 & A3 & A4 & A5 & A6 & A7).
    assert (AE : active s1 = []). { destruct (active s1) as [|k a] eqn:E; auto. exfalso. destruct (proj1 (A6 k) (or_introl eq_refl)) as [H1 H2]. rewrite DT in H2 by auto. discriminate. }
    rewrite AE. cbn. split; [split; [auto|split; [auto|]]|split; auto].
    + cbn. intros i Hi. rewrite A1 by auto. rewrite DT by (apply ly_in; auto). rewrite Hq; auto.
    + intros i Hi. rewrite Q4 by auto. rewrite EX by auto. rewrite Hq; auto.
Qed.

(** backward *)
Definition bw (x : nat -> Q) (us : list nat) (s : proc PS) : proc PS := fold_left (fun s i => nb_hook n i (x i) s) us s.
Lemma has_app l h e : has l (h ++ [e]) = has l h || (fst e =? l).
Proof. unfold has. rewrite existsb_app. cbn. rewrite orb_false_r. auto. Qed.
Lemma has_map l k y h : has l (map (fun e : nat * list (nat * Q) => if fst e =? k then (k, snd e ++ [y]) else e) h) = has l h.
Proof. unfold has. induction h as [|e h IH]; cbn; auto. rewrite IH. destruct (Nat.eqb_spec (fst e) k); cbn; auto. subst. auto. Qed.
Lemma keys_map k (y : nat * Q) h : map fst (map (fun e : nat * list (nat * Q) => if fst e =? k then (k, snd e ++ [y]) else e) h) = map fst h.
Proof. induction h as [|e h IH]; cbn; auto. rewrite IH. destruct (Nat.eqb_spec (fst e) k); cbn; congruence. Qed.
Lemma of_map l k y h : handles_of l (map (fun e : nat * list (nat * Q) => if fst e =? k then (k, snd e ++ [y]) else e) h) =
  if (l =? k) && has k h then handles_of l h ++ [y] else handles_of l h.
Proof.
  unfold handles_of, has. induction h as [|e h IH]; cbn; [rewrite andb_false_r; auto|].
  destruct (Nat.eqb_spec (fst e) k) as [E|E]; cbn [fst snd].
  - subst k. destruct (Nat.eqb_spec (fst e) l) as [E2|E2]; [subst l; rewrite Nat.eqb_refl; auto|]. rewrite IH. destruct (Nat.eqb_spec l (fst e)); [congruence|]. auto.
  - destruct (Nat.eqb_spec (fst e) l) as [E2|E2]; [destruct (Nat.eqb_spec l k); [congruence|auto]|]. exact IH.
Qed.
Lemma of_app l h e : has (fst e) h = false -> handles_of l (h ++ [e]) = if fst e =? l then snd e else handles_of l h.
Proof.
  unfold handles_of, has. induction h as [|d h IH]; cbn; intros H; [destruct (fst e =? l); auto|]. apply orb_false_iff in H. destruct H as [H1 H2].
  destruct (Nat.eqb_spec (fst d) l) as [E1|E1]; [|apply IH; auto]. destruct (Nat.eqb_spec (fst e) l) as [E2|E2]; auto. rewrite E1, E2, Nat.eqb_refl in H1. discriminate.
Qed.
Lemma of_none l h : has l h = false -> handles_of l h = [].
Proof. unfold handles_of, has. induction h as [|e h IH]; cbn; auto. destruct (fst e =? l); [discriminate|auto]. Qed.
Lemma bw_ok x us s0 : handles s0 = [] -> active s0 = [] -> let s := bw x us s0 in
  ps s = ps s0 /\ update_next s = update_next s0 /\
  (forall i, ~ In i us -> gr s i = gr s0 i) /\
  (forall i, In i us -> exists g, gr s i = Some g /\ (g == match gr s0 i with Some y => y | None => 0 end)%Q) /\
  (forall l, has l (handles s) = true <-> exists i, In i us /\ ly i = l) /\ NoDup (map fst (handles s)) /\
  (forall l, handles_of l (handles s) = map (fun i => (i, x i)) (filter (fun i => ly i =? l) us)) /\
  (forall l, In l (active s) <-> exists i, In i us /\ ly i = l).
Proof.
  intros H1 H2. cbv zeta. induction us as [|i us IH] using rev_ind.
  - cbn. rewrite H1, H2. cbn. repeat split; auto; try constructor; try tauto; try discriminate; try (intros (i & [] & _)).
  - unfold bw. rewrite fold_left_app. cbn [fold_left]. fold (bw x us s0). set (s := bw x us s0) in *. clearbody s.
    destruct IH as (I1 & I2 & I3 & I3' & I4 & I5 & I6 & I7). unfold nb_hook. cbn [ps gr handles active update_next].
    fold (ly i). set (l := ly i).
    assert (HX : forall k, (exists j, In j (us ++ [i]) /\ ly j = k) <-> (exists j, In j us /\ ly j = k) \/ l = k).
    { intros k. split; [intros (j & Hj & E); apply in_app_or in Hj; destruct Hj as [Hj|[<-|[]]]; eauto|intros [(j & Hj & E)| <-]; [exists j|exists i]; split; auto; apply in_or_app; cbn; auto]. }
    split; [auto|]. split; [auto|]. split; [|split; [|split; [|split; [|split]]]].
    + intros j Hj. unfold accumulate. destruct (Nat.eqb_spec j i) as [->|]; [exfalso; apply Hj; apply in_or_app; cbn; auto|]. apply I3. intros H. apply Hj. apply in_or_app. auto.
    + intros j Hj. unfold accumulate. destruct (Nat.eqb_spec j i) as [->|Hn].
      * destruct (in_dec Nat.eq_dec i us) as [Hi|Hi].
        -- destruct (I3' i Hi) as (g & E & Hg). rewrite E. eexists. split; [reflexivity|]. rewrite Hg. lra.
        -- rewrite (I3 i Hi). destruct (gr s0 i); eexists; (split; [reflexivity|]); lra.
      * apply I3'. apply in_app_or in Hj. destruct Hj as [Hj|[Hj|[]]]; auto; congruence.
    + intros k. rewrite HX, <- I4. destruct (has l (handles s)) eqn:E.
      * rewrite has_map. split; auto. intros [?| <-]; auto.
      * rewrite has_app. cbn. rewrite orb_true_iff, Nat.eqb_eq. tauto.
    + destruct (has l (handles s)) eqn:E; [rewrite keys_map; auto|]. rewrite map_app. cbn. apply NoDup_app_comm || idtac.
      assert (NI : ~ In l (map fst (handles s))). { intros Hin. apply in_map_iff in Hin. destruct Hin as (e & He & Hin). assert (has l (handles s) = true); [|congruence]. apply existsb_exists. exists e. split; auto. apply Nat.eqb_eq. auto. }
      clear - I5 NI. induction (map fst (handles s)) as [|a b IH]; cbn; [constructor; auto; constructor|]. inversion I5; subst. constructor; [|apply IH; auto; intros H; apply NI; right; auto].
      intros H. apply in_app_or in H. destruct H as [H|[H|[]]]; [auto|]. apply NI. left. auto.
    + intros k. rewrite filter_app, map_app. cbn [filter]. fold l. destruct (has l (handles s)) eqn:E.
      * rewrite of_map, E, andb_true_r, I6, (Nat.eqb_sym k l). destruct (l =? k); auto. cbn. rewrite app_nil_r. auto.
      * rewrite of_app by auto. cbn [fst snd]. destruct (Nat.eqb_spec l k) as [<-|Hk]; [|rewrite I6; cbn; rewrite app_nil_r; auto].
        rewrite <- I6. rewrite (of_none _ _ E). auto.
    + intros k. rewrite HX, <- I7. destruct (existsb (Nat.eqb l) (active s)) eqn:E.
      * apply existsb_in in E. split; auto. intros [?| <-]; auto.
      * rewrite in_app_iff. cbn. tauto.
Qed.

(** a full batch: every parameter gets exactly one gradient *)
Definition all_used (us : list nat) : Prop := NoDup us /\ forall i, In i us <-> i < N.
Lemma bw_part q x us s0 z : handles s0 = [] -> idle q s0 -> all_used us -> (z = true \/ forall i, i < N -> gr s0 i = None \/ exists g, gr s0 i = Some g /\ (g == 0)%Q) ->
  part q x (fun _ => false) ((if z : bool then @zero_grad PS else fun s => s) (nb_step (bw x us s0))).
Proof.
  intros H1 (H2 & _ & H3) [U1 U2] Hz. destruct (bw_ok x us s0 H1 H2) as (I1 & I2 & I3 & I3' & I4 & I5 & I6 & I7).
  assert (LX : forall l, (exists i, In i us /\ ly i = l) <-> In l (lay n)).
  { intros l. split; [intros (i & Hi & <-); apply ly_in; apply U2; auto|]. intros Hl. apply In_nth with (d := 0) in Hl. destruct Hl as (i & Hi & E). exists i. split; auto. apply U2. auto. }
  set (s := bw x us s0) in *. clearbody s.
  assert (G : forall i, i < N -> exists g, gr ((if z then @zero_grad PS else fun s => s) (nb_step s)) i = Some g /\ (g == 0)%Q).
  { intros i Hi. apply U2 in Hi. destruct (I3' i Hi) as (g & E & Hg). destruct z; cbn; rewrite E; [eexists; split; [reflexivity|lra]|].
    exists g. split; auto. destruct Hz as [?|Hz]; [discriminate|]. rewrite Hg. apply U2 in Hi. destruct (Hz i Hi) as [-> | (g0 & -> & ?)]; lra. }
  assert (F : ps ((if z then @zero_grad PS else fun s => s) (nb_step s)) = ps s /\ handles ((if z then @zero_grad PS else fun s => s) (nb_step s)) = handles s /\
              active ((if z then @zero_grad PS else fun s => s) (nb_step s)) = active s /\ update_next ((if z then @zero_grad PS else fun s => s) (nb_step s)) = true) by (destruct z; cbn; auto).
  destruct F as (F1 & F2 & F3 & F4). unfold part. rewrite F1, F2, F3, F4.
  split; [|split; [|split; [|split; [|split; [|split]]]]]; auto.
  - intros i Hi. rewrite I1. auto.
  - intros l. rewrite I4. apply LX.
  - intros l. rewrite I6. split.
    + rewrite map_map. cbn. rewrite map_id. apply NoDup_filter. auto.
    + intros e. rewrite in_map_iff. split.
      * intros (i & <- & Hi). apply filter_In in Hi. destruct Hi as [Hi E]. apply Nat.eqb_eq in E. cbn. split; [apply U2; auto|auto].
      * intros (A & B & C). exists (fst e). split; [rewrite <- C; destruct e; auto|]. apply filter_In. split; [apply U2; auto|apply Nat.eqb_eq; auto].
  - intros l. rewrite I7, LX. tauto.
Qed.

(** model.eval() *)
Lemma wait_all p x ls : forall D s, part p x D s -> NoDup ls -> (forall l, In l ls -> In l (lay n) /\ D l = false) -> (forall i, i < N -> D (ly i) = false \/ True) ->
  exists s', wait_layers ls s = (s', true) /\ ps s' = ps s /\ update_next s' = true /\ handles s' = handles s /\
    (forall i, i < N -> if existsb (Nat.eqb (ly i)) ls then exists g, gr s' i = Some g /\ (g == x i)%Q else gr s' i = gr s i) /\ (forall l, In l (active s') <-> In l (active s) /\ ~ In l ls).
Proof.
  intros D s (A1 & A2 & A3 & A4 & A5 & A6 & A7) ND HL _.
  assert (A2' : forall i, i < N -> existsb (Nat.eqb (ly i)) ls = true -> exists g, gr s i = Some g /\ (g == 0)%Q).
  { intros i Hi E. apply existsb_in in E. apply HL in E. destruct E as [_ E]. destruct (A2 i Hi) as (g & G1 & G2). rewrite E in G2. eauto. }
  assert (A6' : forall l, In l ls -> In l (active s)) by (intros l Hl; apply A6; apply HL; auto).
  assert (HL' : forall l, In l ls -> In l (lay n)) by (intros l Hl; apply HL; auto). clear A1 A2 A3 A4 A6 HL D.
  revert s A5 A7 A2' A6'. induction ls as [|l ls IH]; intros s A5 A7 A2' A6'.
  - exists s. cbn. repeat split; auto; tauto.
  - inversion ND as [|? ? N1 N2]; subst. destruct (A5 l) as [B1 B2]. rewrite wait_one by (try (apply A6'; left; auto); eapply hs_nonempty; eauto; apply HL'; left; auto).
    match goal with |- exists s', wait_layers ls ?t = _ /\ _ => set (s1 := t) end.
    assert (G : forall i, gr s1 i = if (i <? N) && (ly i =? l) then match gr s i with Some y => Some (y + x i)%Q | None => None end else gr s i).
    { intros i. unfold s1. cbn [gr]. rewrite fold_add by auto. rewrite (find_hs _ l x) by auto. destruct ((i <? N) && (ly i =? l)); auto. }
    destruct (IH N2 ltac:(intros; apply HL'; right; auto) s1) as (s' & W1 & W2 & W3 & W4 & W5 & W6).
    + exact A5.
    + exact A7.
    + intros i Hi E. rewrite G. destruct (Nat.eqb_spec (ly i) l) as [El|El]; [exfalso; apply existsb_in in E; rewrite El in E; auto|]. rewrite andb_false_r. apply A2'; auto. cbn. rewrite E. apply orb_true_r.
    + intros k Hk. unfold s1. cbn [active]. apply in_discard. split; [apply A6'; right; auto|]. intros ->. auto.
    + exists s'. split; auto. split; [rewrite W2; auto|]. split; auto. split; [rewrite W4; auto|]. split.
      * intros i Hi. specialize (W5 i Hi). cbn [existsb]. destruct (existsb (Nat.eqb (ly i)) ls) eqn:E; [rewrite orb_true_r; auto|]. rewrite orb_false_r.
        rewrite G in W5. destruct (Nat.ltb_spec i N); [|lia]. cbn [andb] in W5. destruct (Nat.eqb_spec (ly i) l) as [El|El]; auto.
        destruct (A2' i Hi) as (g & E1 & E2); [cbn; rewrite El, Nat.eqb_refl; auto|]. rewrite E1 in W5. rewrite W5. eexists. split; [reflexivity|]. lra.
      * intros k. rewrite W6. unfold s1. cbn [active]. rewrite in_discard. cbn. intuition auto.
Qed.
Lemma eval_ok q s : ready q s -> idle q (eval_mode opt n s).
Proof.
  intros [(R1 & RU & R2)|(p & x & Pt & Hq)]; unfold eval_mode, iparam_update.
  - destruct (rev (map fst (handles s))) as [|k t] eqn:E.
    + assert (HE : handles s = []). { apply (f_equal (@rev nat)) in E. rewrite rev_involutive in E. destruct (handles s); auto; discriminate. }
      cbn. destruct (update_next s) eqn:U; [|split; [auto|split; auto]]. assert (N0 : ~ 0 < N). { intros HN. pose proof (RU HN HE) as X. congruence. }
      split; [exact R1|]. split; intros; lia.
    + rewrite wait_none by (rewrite R1; auto). cbn. split; auto.
  - pose proof Pt as (A1 & A2 & A3 & A4 & A5 & A6 & A7).
    assert (KL : forall l, In l (rev (map fst (handles s))) <-> In l (lay n)).
    { intros l. rewrite <- A3, <- in_rev, in_map_iff. unfold has. rewrite existsb_exists. split; intros (e & H1 & H2); exists e; [split; auto; apply Nat.eqb_eq; auto|apply Nat.eqb_eq in H2; auto]. }
    destruct (wait_all p x (rev (map fst (handles s))) (fun _ => false) s Pt) as (s' & W1 & W2 & W3 & W4 & W5 & W6); [apply NoDup_rev; auto|intros l Hl; split; auto; apply KL; auto|auto|].
    rewrite W1, W3. cbn [andb]. unfold idle, torch_step. cbn [active handles update_next ps]. split; [|split].
    + destruct (active s') as [|k a] eqn:E; auto. exfalso. destruct (proj1 (W6 k) (or_introl eq_refl)) as [H1 H2]. apply H2. apply KL. apply A6. auto.
    + intros HN HE. exfalso. assert (H : has (ly 0) (handles s) = true) by (apply A3; apply ly_in; auto). rewrite <- W4, HE in H. discriminate.
    + intros i Hi. destruct (Nat.ltb_spec i (length (lay n))); [|unfold N in Hi; lia]. cbn [Nat.leb andb]. specialize (W5 i Hi).
      assert (E : existsb (Nat.eqb (ly i)) (rev (map fst (handles s))) = true) by (apply existsb_in; apply KL; apply ly_in; auto). rewrite E in W5.
      destruct W5 as (g & -> & Hg). rewrite W2, A1, Hq by auto. apply opt_ext. auto.
Qed.
End P.
