(** Block Gram-Schmidt (C94). *)
From Coq Require Import Ring.
From Verif Require Import Base QrSpec QrModel QrProofs QrProofs2 QrProps QrColModel OpsModel.
Open Scope nat_scope.

Lemma offs_S {V} (As : list (mat V)) i d : i < length As -> offs As (S i) = offs As i + mc (nth i As d).
Proof.
  unfold offs. revert i. induction As as [|a As IH]; intros [|i] H; cbn [length] in H; try lia.
  - cbn [firstn map nth]. change (list_sum [mc a]) with (mc a + 0). change (list_sum []) with 0. lia.
  - cbn [firstn map nth]. change (list_sum (mc a :: ?l)) with (mc a + list_sum l). specialize (IH i ltac:(lia)). cbn [firstn map] in IH.
    change (list_sum (mc a :: map mc (firstn (S i) As))) with (mc a + list_sum (map mc (firstn (S i) As))). change (list_sum (mc a :: map mc (firstn i As))) with (mc a + list_sum (map mc (firstn i As))). cbn [firstn map]. lia.
Qed.
Lemma offs_mono {V} (As : list (mat V)) i j : i <= j -> offs As i <= offs As j.
Proof.
  unfold offs. revert i j. induction As as [|a As IH]; intros [|i] [|j] H; try lia; cbn [firstn map]; try (change (list_sum []) with 0; lia).
  change (list_sum (mc a :: map mc (firstn i As))) with (mc a + list_sum (map mc (firstn i As))). change (list_sum (mc a :: map mc (firstn j As))) with (mc a + list_sum (map mc (firstn j As))). specialize (IH i j ltac:(lia)). lia.
Qed.
Lemma offs_all {V} (As : list (mat V)) : offs As (length As) = list_sum (map mc As).
Proof. unfold offs. now rewrite firstn_all. Qed.
Lemma offs_le {V} (As : list (mat V)) t : t < length As -> offs As (S t) <= list_sum (map mc As).
Proof. intros H. rewrite <- offs_all. apply offs_mono. lia. Qed.
(** the position of a column *)
Lemma find_col {V} (As : list (mat V)) d x : x < list_sum (map mc As) -> exists t s, t < length As /\ s < mc (nth t As d) /\ x = offs As t + s.
Proof.
  intros H. destruct (find_block _ _ H) as (t & s & H1 & H2 & H3). exists t, s. rewrite map_length in H1. split; [auto|]. split.
  - rewrite (nth_indep _ 0 (mc d)) in H2 by (rewrite map_length; auto). now rewrite map_nth in H2.
  - unfold offs. now rewrite <- firstn_map.
Qed.
Lemma col_unique {V} (As : list (mat V)) d t s u v : t < length As -> u < length As -> s < mc (nth t As d) -> v < mc (nth u As d) -> offs As t + s = offs As u + v -> t = u /\ s = v.
Proof.
  intros Ht Hu Hs Hv E. destruct (lt_eq_lt_dec t u) as [[L|L]|L].
  - pose proof (offs_mono As (S t) u L) as X. rewrite (offs_S As t d Ht) in X. lia.
  - subst. lia.
  - pose proof (offs_mono As (S u) t L) as X. rewrite (offs_S As u d Hu) in X. lia.
Qed.
Lemma hstack_mc {V} (zero : V) m (l : list (mat V)) : mc (hstack zero m l) = list_sum (map mc l).
Proof. induction l as [|a l IH]; [reflexivity|]. cbn [hstack mc map]. rewrite IH. reflexivity. Qed.
Lemma hstack_mr {V} (zero : V) m (l : list (mat V)) : mr (hstack zero m l) = m.
Proof. destruct l; reflexivity. Qed.
Lemma hstack_me {V} (zero : V) m (l : list (mat V)) t s i d : t < length l -> s < mc (nth t l d) -> me (hstack zero m l) i (offs l t + s) = me (nth t l d) i s.
Proof.
  unfold offs. revert t. induction l as [|a l IH]; intros [|t] Ht Hs; cbn [length] in Ht; try lia; cbn [hstack me firstn map nth] in *.
  - change (list_sum []) with 0. cbn [plus]. destruct (Nat.ltb_spec s (mc a)); [reflexivity|lia].
  - change (list_sum (mc a :: map mc (firstn t l))) with (mc a + list_sum (map mc (firstn t l))). destruct (Nat.ltb_spec (mc a + list_sum (map mc (firstn t l)) + s) (mc a)); [lia|]. rewrite <- (IH t) by (auto; lia). f_equal. lia.
Qed.

Section Gs.
Context {V : Type} (zero one : V) (add mul sub : V -> V -> V) (opp : V -> V) (conj : V -> V) (RT : ring_theory zero one add mul sub opp eq).
Context (conj_add : forall a b, conj (add a b) = add (conj a) (conj b)) (conj_mul : forall a b, conj (mul a b) = mul (conj a) (conj b)).
Add Ring VR2 : RT.
Notation M := (mat V).
Notation vsum := (gsum zero add).
Let AC := ac zero one add mul sub opp RT. Let AA := aa zero one add mul sub opp RT. Let AZ := az zero one add mul sub opp RT.
Let vml := vsum_mul_l zero one add mul sub opp RT. Let vmr := vsum_mul_r zero one add mul sub opp RT. 
Lemma vsum_sub k f g : vsum k (fun i => sub (f i) (g i)) = sub (vsum k f) (vsum k g).
Proof. induction k; [cbn; ring|]. rewrite !(gsum_S _ _ AC AA AZ), IHk. ring. Qed.
Context (qr : M -> option (M * M)) (sound : forall a q r, qr a = Some (q, r) -> is_qr zero one add mul conj a q r).
Context (As : list M) (m : nat).
Notation P := (length As).
Notation n := (list_sum (map mc As)).
Notation A_ r := (nth r As (m0 zero)).
Notation o_ t := (offs As t).
Notation c_ t := (mc (A_ t)).
Context (HA : forall r, r < P -> mr (A_ r) = m) (HN : n <= m).
Notation st l r := (nth r l (qst0 zero)).
(** Q_t^H X, one entry *)
Notation dot Q X a b := (vsum m (fun x => mul (conj (me Q x a)) (me X x b))).

Record ginv (i : nat) (l : list (@qst V)) : Prop := {
  g_len : length l = P;
  g_A : forall r, i <= r < P -> mr (q_A (st l r)) = m /\ mc (q_A (st l r)) = c_ r;
  g_Q : forall t, t < i -> t < P -> mr (q_Q (st l t)) = m /\ mc (q_Q (st l t)) = c_ t /\ orthonormal zero one add mul conj (q_Q (st l t));
  g_R : forall r, r < P -> mr (q_R (st l r)) = n /\ mc (q_R (st l r)) = c_ r;
  g_zero : forall r, r < P -> forall p j, o_ (Nat.min i (S r)) <= p -> p < n -> j < c_ r -> me (q_R (st l r)) p j = zero;
  g_upper : forall r, r < i -> r < P -> forall s j, s < c_ r -> j < c_ r -> j < s -> me (q_R (st l r)) (o_ r + s) j = zero;
  g_eq : forall r, r < P -> forall x j, x < m -> j < c_ r ->
     me (A_ r) x j = add (if i <=? r then me (q_A (st l r)) x j else zero)
       (vsum (Nat.min i (S r)) (fun t => vsum (c_ t) (fun s => mul (me (q_Q (st l t)) x s) (me (q_R (st l r)) (o_ t + s) j))));
  g_orth : (forall a b, mul a b = zero -> a = zero \/ b = zero) -> (forall r s, r < i -> r < P -> s < c_ r -> me (q_R (st l r)) (o_ r + s) s <> zero) ->
     (forall t u, t < u -> u < i -> u < P -> forall a b, a < c_ t -> b < c_ u -> dot (q_Q (st l t)) (q_Q (st l u)) a b = zero) /\
     (forall t r, t < i -> i <= r < P -> forall a b, a < c_ t -> b < c_ r -> dot (q_Q (st l t)) (q_A (st l r)) a b = zero) }.

Lemma set_rows_ok (R : M) i src : i < P -> mr R = n -> mr src = c_ i -> mc src = mc R ->
  set_rows R (o_ i) (o_ (S i)) src = Ok (Mat (mr R) (mc R) (fun p j => if (o_ i <=? p) && (p <? o_ (S i)) then me src (p - o_ i) j else me R p j)).
Proof.
  intros Hi HR Hm Hc. unfold set_rows. pose proof (offs_le As i Hi). pose proof (offs_S As i (m0 zero) Hi). rewrite HR. replace (Nat.min (o_ (S i)) n - o_ i) with (c_ i) by lia. rewrite Hm, Hc, Nat.eqb_refl, Nat.ltb_irrefl. cbn [orb negb]. replace (o_ i + c_ i) with (o_ (S i)) by lia. reflexivity.
Qed.
(** a row vector times an upper triangular matrix without zeros on the diagonal *)
Lemma cancel c (y : nat -> V) (R : nat -> nat -> V) : (forall a b, mul a b = zero -> a = zero \/ b = zero) ->
  (forall s j, s < c -> j < c -> j < s -> R s j = zero) -> (forall s, s < c -> R s s <> zero) -> (forall j, j < c -> vsum c (fun s => mul (y s) (R s j)) = zero) -> forall j, j < c -> y j = zero.
Proof.
  intros ID HU HD HS j. induction j as [j IH] using lt_wf_ind. intros Hj. specialize (HS j Hj). assert (E : mul (y j) (R j j) = zero).
  - rewrite <- HS. rewrite <- (gsum_one _ _ AC AA AZ c j (fun s => mul (y s) (R s j)) Hj). apply gsum_ext. intros s Hs. destruct (Nat.eqb_spec s j) as [->|N]; [reflexivity|]. destruct (le_lt_dec s j) as [L|L]; [rewrite IH by lia; ring|rewrite HU by auto; ring].
  - destruct (ID _ _ E) as [X|X]; [auto|now apply HD in X].
Qed.
Lemma dot_sub k Q X S W a b : (forall x, x < m -> me W x b = sub (me X x b) (vsum k (fun s => mul (me S x s) (me Q s b)))) -> forall T,
  dot T W a b = sub (dot T X a b) (vsum k (fun s => mul (dot T S a s) (me Q s b))).
Proof.
  intros HW T. transitivity (vsum m (fun x => sub (mul (conj (me T x a)) (me X x b)) (mul (conj (me T x a)) (vsum k (fun s => mul (me S x s) (me Q s b)))))).
  - apply gsum_ext. intros x Hx. rewrite HW by auto. ring.
  - rewrite vsum_sub. f_equal. transitivity (vsum m (fun x => vsum k (fun s => mul (mul (conj (me T x a)) (me S x s)) (me Q s b)))).
    + apply gsum_ext. intros x _. rewrite vml. apply gsum_ext. intros s _. ring.
    + rewrite (gsum_swap _ _ AC AA AZ). apply gsum_ext. intros s _. now rewrite <- vmr.
Qed.

Lemma gs_step_ok i l : i < P -> ginv i l -> (exists X, qr X = None) \/ exists l', gs_step zero add mul sub conj qr As i l = Ok l' /\ ginv (S i) l'.
Proof.
  intros Hi I. unfold gs_step. destruct (Nat.ltb_spec i P) as [_|]; [|lia]. unfold local_qr. destruct (qr (q_A (st l i))) as [[Qi Ri]|] eqn:EQ; [right|left; eauto].
  cbn [bind fst snd]. destruct (sound _ _ _ EQ) as (Q1 & Q2 & Q3 & Q4 & Q5 & Q6 & (M1 & M2 & M3)). destruct (g_A _ _ I i ltac:(lia)) as [A1 A2]. pose proof (offs_S As i (m0 zero) Hi) as OS. pose proof (offs_le As i Hi) as LN. rewrite A1, A2 in *. assert (LC : c_ i <= m) by lia. rewrite Nat.min_r in Q2, Q3 by auto.
  cbn [mmul mr mc me] in M1, M2, M3. change (msum zero add) with (gsum zero add) in M3. rewrite Q1, Q2, Q4 in M3. unfold orthonormal in Q5. change (msum zero add) with (gsum zero add) in Q5. rewrite Q1, Q2 in Q5. unfold upper in Q6. rewrite Q3, Q4 in Q6.
  set (Rl := fun r => mmul zero add mul (ctrans conj Qi) (q_A (st l r))).
  set (src := fun r => if r =? i then Ri else Rl r).
  set (nR := fun r => Mat n (c_ r) (fun p j => if (o_ i <=? p) && (p <? o_ (S i)) then me (src r) (p - o_ i) j else me (q_R (st l r)) p j)).
  set (ns := fun r => if r =? i then Qst (q_A (st l r)) Qi (nR r) else if i <? r then Qst (msub sub (q_A (st l r)) (mmul zero add mul Qi (Rl r))) (q_Q (st l r)) (nR r) else st l r).
  exists (map ns (seq 0 P)). split.
  { apply all_ok_map_Ok. intros r Hr. apply in_seq in Hr. destruct (g_R _ _ I r ltac:(lia)) as [R1 R2]. unfold gs_rank, ns. destruct (Nat.eqb_spec r i) as [->|N].
    - rewrite set_rows_ok by (auto; lia). cbn [bind]. unfold nR, src. rewrite Nat.eqb_refl, R1, R2. reflexivity.
    - destruct (Nat.ltb_spec i r) as [L|L]; [|reflexivity]. fold (Rl r). destruct (g_A _ _ I r ltac:(lia)) as [A3 A4]. rewrite set_rows_ok; [|auto|auto|unfold Rl; cbn; auto|unfold Rl; cbn; lia]. cbn [bind]. unfold nR, src. destruct (Nat.eqb_spec r i); [lia|]. rewrite R1, R2. reflexivity. }
  assert (NS : forall r, r < P -> st (map ns (seq 0 P)) r = ns r) by (intros r Hr; apply nth_map_seq'; auto).
  assert (NQ : forall t, t < i -> ns t = st l t) by (intros t Ht; unfold ns; destruct (Nat.eqb_spec t i); [lia|]; destruct (Nat.ltb_spec i t); [lia|reflexivity]).
  assert (NI : q_Q (ns i) = Qi /\ q_R (ns i) = nR i) by (unfold ns; rewrite Nat.eqb_refl; split; reflexivity). destruct NI as [NIQ NIR].
  assert (NG : forall r, i < r -> q_A (ns r) = msub sub (q_A (st l r)) (mmul zero add mul Qi (Rl r)) /\ q_R (ns r) = nR r) by (intros r Hr; unfold ns; destruct (Nat.eqb_spec r i); [lia|]; destruct (Nat.ltb_spec i r); [split; reflexivity|lia]).
  assert (AE : forall r, i < r < P -> forall x b, me (q_A (ns r)) x b = sub (me (q_A (st l r)) x b) (vsum (c_ i) (fun s => mul (me Qi x s) (dot Qi (q_A (st l r)) s b)))).
  { intros r Hr x b. destruct (NG r ltac:(lia)) as [-> _]. cbn [msub me mmul mc]. rewrite Q2. f_equal. apply gsum_ext. intros s _. unfold Rl. cbn [mmul me ctrans mc]. rewrite Q1. reflexivity. }
  (* rows of the new R *)
  assert (RB : forall r, i <= r < P -> forall s j, s < c_ i -> me (nR r) (o_ i + s) j = me (src r) s j).
  { intros r Hr s j Hs. cbn [nR me]. destruct (Nat.leb_spec (o_ i) (o_ i + s)); [|lia]. destruct (Nat.ltb_spec (o_ i + s) (o_ (S i))); [|lia]. cbn [andb]. f_equal. lia. }
  assert (RO : forall r p j, p < o_ i -> me (nR r) p j = me (q_R (st l r)) p j) by (intros r p j Hp; cbn [nR me]; destruct (Nat.leb_spec (o_ i) p); [lia|reflexivity]).
  assert (OT : forall t s, t < i -> s < c_ t -> o_ t + s < o_ i) by (intros t s Ht Hs; pose proof (offs_S As t (m0 zero) ltac:(lia)); pose proof (offs_mono As (S t) i Ht); lia).
  constructor.
  - now rewrite map_length, seq_length.
  - intros r Hr. rewrite NS by lia. destruct (NG r ltac:(lia)) as [-> _]. cbn [msub mr mc]. apply (g_A _ _ I). lia.
  - intros t Ht HtP. rewrite NS by auto. destruct (Nat.eq_dec t i) as [->|N]; [|rewrite NQ by lia; apply (g_Q _ _ I); lia]. rewrite NIQ. split; [auto|]. split; [auto|]. unfold orthonormal. change (msum zero add) with (gsum zero add). rewrite Q1, Q2. exact Q5.
  - intros r Hr. rewrite NS by auto. destruct (lt_eq_lt_dec r i) as [[L|E]|L]; [rewrite NQ by auto; apply (g_R _ _ I); auto| |destruct (NG r L) as [_ ->]; cbn; auto]. subst r. rewrite NIR. cbn. auto.
  - intros r Hr p j Hp HpN Hj. rewrite NS by auto. destruct (lt_eq_lt_dec r i) as [[L|E]|L].
    + rewrite NQ by auto. apply (g_zero _ _ I r Hr); auto. rewrite Nat.min_r in * by lia. auto.
    + subst r. rewrite NIR. rewrite Nat.min_id in Hp. cbn [nR me]. destruct (Nat.ltb_spec p (o_ (S i))); [lia|]. rewrite andb_false_r. apply (g_zero _ _ I i Hr); auto. rewrite Nat.min_l by lia. pose proof (offs_mono As i (S i) ltac:(lia)). lia.
    + destruct (NG r L) as [_ ->]. rewrite Nat.min_l in Hp by lia. cbn [nR me]. destruct (Nat.ltb_spec p (o_ (S i))); [lia|]. rewrite andb_false_r. apply (g_zero _ _ I r Hr); auto. rewrite Nat.min_l by lia. pose proof (offs_mono As i (S i) ltac:(lia)). lia.
  - intros r Hr HrP s j Hs Hj L. rewrite NS by auto. destruct (Nat.eq_dec r i) as [->|N]; [|rewrite NQ by lia; apply (g_upper _ _ I); auto; lia]. rewrite NIR, RB by (auto; lia). unfold src. rewrite Nat.eqb_refl. apply Q6; auto.
  - intros r Hr x j Hx Hj. rewrite NS by auto. rewrite (g_eq _ _ I r Hr x j Hx Hj). destruct (lt_eq_lt_dec r i) as [[L|E]|L].
    + destruct (Nat.leb_spec i r); [lia|]. destruct (Nat.leb_spec (S i) r); [lia|]. rewrite !Nat.min_r by lia. f_equal. apply gsum_ext. intros t Ht. rewrite NS by lia. rewrite !NQ by lia. reflexivity.
    + subst r. destruct (Nat.leb_spec i i); [|lia]. destruct (Nat.leb_spec (S i) i); [lia|]. rewrite Nat.min_l, Nat.min_id by lia. rewrite (gsum_S _ _ AC AA AZ). rewrite AZ, AC. f_equal.
      * apply gsum_ext. intros t Ht. rewrite NS by lia. rewrite NQ by lia. rewrite NIR. apply gsum_ext. intros s Hs. rewrite RO by auto. reflexivity.
      * rewrite NS by auto. rewrite NIQ, NIR. rewrite <- M3 by auto. apply gsum_ext. intros s Hs. rewrite RB by (auto; lia). unfold src. now rewrite Nat.eqb_refl.
    + destruct (Nat.leb_spec i r); [|lia]. destruct (Nat.leb_spec (S i) r); [|lia]. rewrite !Nat.min_l by lia. rewrite (gsum_S _ _ AC AA AZ). rewrite AE by lia.
      destruct (NG r L) as [_ ->]. rewrite NS by auto. rewrite NIQ.
      replace (vsum (c_ i) (fun s => mul (me Qi x s) (me (nR r) (o_ i + s) j))) with (vsum (c_ i) (fun s => mul (me Qi x s) (dot Qi (q_A (st l r)) s j))).
      2:{ apply gsum_ext. intros s Hs. rewrite RB by (auto; lia). unfold src. destruct (Nat.eqb_spec r i); [lia|]. unfold Rl. cbn [mmul me ctrans mc]. rewrite Q1. reflexivity. }
      replace (vsum i (fun t => vsum (c_ t) (fun s => mul (me (q_Q (st (map ns (seq 0 P)) t)) x s) (me (nR r) (o_ t + s) j)))) with (vsum i (fun t => vsum (c_ t) (fun s => mul (me (q_Q (st l t)) x s) (me (q_R (st l r)) (o_ t + s) j)))).
      2:{ apply gsum_ext. intros t Ht. rewrite NS by lia. rewrite NQ by lia. apply gsum_ext. intros s Hs. rewrite RO by auto. reflexivity. }
      ring.
  - intros ID HD. assert (HD' : forall r s, r < i -> r < P -> s < c_ r -> me (q_R (st l r)) (o_ r + s) s <> zero) by (intros r s Hr HrP Hs; specialize (HD r s ltac:(lia) HrP Hs); rewrite NS, NQ in HD by auto; exact HD).
    destruct (g_orth _ _ I ID HD') as [O1 O2].
    (* Q_t and the new block *)
    assert (O3 : forall t, t < i -> forall a b, a < c_ t -> b < c_ i -> dot (q_Q (st l t)) Qi a b = zero).
    { intros t Ht a b Ha Hb. revert b Hb. apply (cancel (c_ i) (fun b => dot (q_Q (st l t)) Qi a b) (me Ri) ID).
      - intros s j Hs Hj L. apply Q6; auto.
      - intros s Hs. specialize (HD i s ltac:(lia) Hi Hs). rewrite NS, NIR, RB in HD by (auto; lia). unfold src in HD. rewrite Nat.eqb_refl in HD. exact HD.
      - intros j Hj. transitivity (dot (q_Q (st l t)) (q_A (st l i)) a j); [|apply O2; auto; lia]. transitivity (vsum m (fun x => vsum (c_ i) (fun s => mul (mul (conj (me (q_Q (st l t)) x a)) (me Qi x s)) (me Ri s j)))).
        + rewrite (gsum_swap _ _ AC AA AZ). apply gsum_ext. intros s _. apply vmr.
        + apply gsum_ext. intros x Hx. rewrite <- M3 by auto. rewrite vml. apply gsum_ext. intros s _. ring. }
    split.
    + intros t u Ht Hu HuP a b Ha Hb. rewrite !NS by lia. destruct (Nat.eq_dec u i) as [->|N]; [rewrite NIQ, NQ by lia; apply O3; auto|rewrite !NQ by lia; apply O1; auto; lia].
    + intros t r Ht Hr a b Ha Hb. rewrite !NS by lia. rewrite (dot_sub (c_ i) (Mat (c_ i) (c_ r) (fun s b => dot Qi (q_A (st l r)) s b)) (q_A (st l r)) Qi (q_A (ns r)) a b); [|intros x _; apply AE; lia]. cbn [me].
      destruct (Nat.eq_dec t i) as [->|N].
      * rewrite NIQ. replace (vsum (c_ i) (fun s => mul (dot Qi Qi a s) (dot Qi (q_A (st l r)) s b))) with (dot Qi (q_A (st l r)) a b); [ring|].
        rewrite <- (gsum_one _ _ AC AA AZ (c_ i) a (fun s => dot Qi (q_A (st l r)) s b) Ha). apply gsum_ext. intros s Hs. rewrite Q5 by auto. rewrite Nat.eqb_sym. destruct (a =? s); ring.
      * rewrite NQ by lia. rewrite (O2 t r ltac:(lia) ltac:(lia) a b Ha Hb). rewrite (gsum_zero _ _ AC AA AZ); [ring|]. intros s Hs. rewrite O3 by (auto; lia). ring.
Qed.
Lemma gs_loop_ok cnt : forall i l, i + cnt <= P -> ginv i l -> (exists X, qr X = None) \/ exists l', gs_loop zero add mul sub conj qr As i cnt l = Ok l' /\ ginv (i + cnt) l'.
Proof.
  induction cnt as [|cnt IH]; intros i l H I; [right; exists l; split; [reflexivity|]; now rewrite Nat.add_0_r|]. cbn [gs_loop]. destruct (gs_step_ok i l ltac:(lia) I) as [X|(l' & E & I')]; [left; auto|]. rewrite E. cbn [bind]. replace (i + S cnt) with (S i + cnt) by lia. apply IH; [lia|auto].
Qed.
End Gs.
