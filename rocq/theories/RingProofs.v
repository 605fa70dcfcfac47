(** Rings under every schedule. *)
From Verif Require Import Base BaseLemmas SchedModel SchedProofs RingModel.
Set Implicit Arguments.

Lemma take_first_some {M} (f : msg M -> bool) : forall l m l', take_first f l = Some (m, l') ->
  filter f l = m :: filter f l' /\ f m = true /\ (forall g, (forall x, f x = true -> g x = false) -> filter g l = filter g l') /\
  (forall x, In x l' -> In x l).
Proof.
  induction l as [|x l IH]; intros m l' E; cbn in E; [discriminate|]. destruct (f x) eqn:F.
  - injection E as <- <-. cbn. rewrite F. repeat split; auto. intros g Hg. now rewrite (Hg _ F).
  - destruct (take_first f l) as [[y t]|] eqn:E2; [|discriminate]. injection E as <- <-.
    destruct (IH _ _ eq_refl) as (H1 & H2 & H3 & H4). cbn. rewrite F. repeat split; auto.
    + intros g Hg. destruct (g x); [f_equal|]; auto.
    + intros z [->|Hz]; auto.
Qed.
Lemma take_first_none {M} (f : msg M -> bool) : forall l, take_first f l = None -> filter f l = [].
Proof.
  induction l as [|x l IH]; intros E; cbn in *; auto. destruct (f x); [discriminate|].
  destruct (take_first f l) as [[y t]|]; [discriminate|auto].
Qed.
Lemma filter_take_first {M} (f : msg M -> bool) : forall l, filter f l <> [] -> exists m l', take_first f l = Some (m, l').
Proof.
  intros l H. destruct (take_first f l) as [[m l']|] eqn:E; eauto. apply take_first_none in E. contradiction.
Qed.

(** every step consumes an action *)
Definition todo {S M} (c : config S M) : nat := list_sum (map (@length _) (progs c)).
Lemma todo_upd {S M} (l : list (list (act S M))) i a rest : nth i l [] = a :: rest ->
  list_sum (map (@length _) (upd l i rest)) + 1 = list_sum (map (@length _) l).
Proof.
  revert i. induction l as [|x l IH]; intros [|i] E; cbn in E; try discriminate.
  - subst x. cbn [upd map length]. rewrite !list_sum_cons. lia.
  - cbn [upd map]. rewrite !list_sum_cons. specialize (IH i E). lia.
Qed.
Lemma step_todo {S M} (c c' : config S M) : step c c' -> todo c' + 1 <= todo c.
Proof.
  unfold todo. intros [H|[H|H]].
  - inversion H; subst; cbn [progs]. erewrite todo_upd; eauto.
  - inversion H; subst; cbn [progs]. erewrite todo_upd; eauto.
  - inversion H as [c0 i j tag f g resti restj si sj Hij E1 E2 E3 E4 E5]; subst; cbn [progs].
    pose proof (todo_upd _ _ E1) as T1.
    assert (E2' : nth j (upd (progs c) i resti) [] = ARecv i tag g :: restj) by (rewrite upd_other by auto; exact E2).
    pose proof (todo_upd _ _ E2') as T2. lia.
Qed.

Section Ring.
Variables (S M : Type) (P n : nat) (d : S).
Variables (out : nat -> nat -> S -> M) (inc : nat -> nat -> S -> M -> S) (s0 : list S).
Hypothesis HP : 2 <= P.
Hypothesis L0 : length s0 = P.
Let R := right P. Let L := left P.
Notation prog := (ring_prog P out inc n).

Lemma R_lt r : r < P -> R r < P.
Proof. unfold R, right. destruct (Nat.eqb_spec r (P - 1)); lia. Qed.
Lemma L_lt r : r < P -> L r < P.
Proof. unfold L, left. destruct (Nat.eqb_spec r 0); lia. Qed.
Lemma LR r : r < P -> L (R r) = r.
Proof. unfold L, R, left, right. intros H. destruct (Nat.eqb_spec r (P - 1)); [cbn; lia|]. destruct (Nat.eqb_spec (r + 1) 0); lia. Qed.
Lemma RL r : r < P -> R (L r) = r.
Proof. unfold L, R, left, right. intros H. destruct (Nat.eqb_spec r 0); [rewrite Nat.eqb_refl; lia|]. destruct (Nat.eqb_spec (r - 1) (P - 1)); lia. Qed.
Lemma R_ne r : r < P -> R r <> r.
Proof. unfold R, right. destruct (Nat.eqb_spec r (P - 1)); lia. Qed.

(** state of process r after p rounds *)
Definition Sx (r p : nat) : S := nth r (ring_rounds P out inc d p s0) d.
Lemma rounds_length p : length (ring_rounds P out inc d p s0) = P.
Proof. destruct p; cbn; auto. unfold ring_round. now rewrite map_length, seq_length. Qed.
Lemma Sx_S r p : r < P -> Sx r (Datatypes.S p) = inc r p (Sx r p) (out (L r) p (Sx (L r) p)).
Proof. intros H. unfold Sx at 1. cbn. unfold ring_round. rewrite nth_map_seq by auto. reflexivity. Qed.

Lemma prog_at r k : skipn k (prog r) =
  if k <? 2 * n then (if Nat.even k then ASend (R r) 0 (fun s => (out r (k / 2) s, s)) else ARecv (L r) 0 (inc r (k / 2))) :: skipn (Datatypes.S k) (prog r)
  else [].
Proof.
  unfold ring_prog. 
  assert (G : forall m a k, skipn k (flat_map (fun p => [ASend (R r) 0 (fun s => (out r p s, s)); ARecv (L r) 0 (inc r p)]) (seq a m)) =
     if k <? 2 * m then (if Nat.even k then ASend (R r) 0 (fun s => (out r (a + k / 2) s, s)) else ARecv (L r) 0 (inc r (a + k / 2)))
        :: skipn (Datatypes.S k) (flat_map (fun p => [ASend (R r) 0 (fun s => (out r p s, s)); ARecv (L r) 0 (inc r p)]) (seq a m)) else []).
  { induction m as [|m IH]; intros a k'; [destruct k'; reflexivity|]. cbn [seq flat_map app].
    destruct k' as [|[|k']].
    - replace (0 <? 2 * Datatypes.S m) with true by (symmetry; apply Nat.ltb_lt; lia). cbn [Nat.even skipn].
      change (0 / 2) with 0. rewrite Nat.add_0_r. reflexivity.
    - replace (1 <? 2 * Datatypes.S m) with true by (symmetry; apply Nat.ltb_lt; lia). cbn [Nat.even skipn].
      change (1 / 2) with 0. rewrite Nat.add_0_r. reflexivity.
    - cbn [skipn]. rewrite IH. replace (Datatypes.S (Datatypes.S k')) with (k' + 1 * 2) by lia. rewrite Nat.div_add by lia.
      replace (Datatypes.S a + k' / 2) with (a + (k' / 2 + 1)) by lia.
      replace (k' + 1 * 2 <? 2 * Datatypes.S m) with (k' <? 2 * m).
      2:{ destruct (Nat.ltb_spec k' (2 * m)), (Nat.ltb_spec (k' + 1 * 2) (2 * Datatypes.S m)); auto; lia. }
      replace (k' + 1 * 2) with (Datatypes.S (Datatypes.S k')) by lia. reflexivity. }
  rewrite G. reflexivity.
Qed.

Definition chan (pos : nat -> nat) (r : nat) : list (msg M) :=
  map (fun p => Msg r (R r) 0 (out r p (Sx r p))) (seq (pos (R r) / 2) ((pos r + 1) / 2 - pos (R r) / 2)).
Definition Inv (c : config S M) : Prop := exists pos : nat -> nat,
  length (progs c) = P /\ length (st c) = P /\
  (forall r, r < P -> pos r <= 2 * n /\ nth r (progs c) [] = skipn (pos r) (prog r) /\ nth r (st c) d = Sx r (pos r / 2) /\
     pos (R r) / 2 <= (pos r + 1) / 2 /\ filter (matches r (R r) 0) (net c) = chan pos r) /\
  (forall m, In m (net c) -> exists r, r < P /\ g_src m = r /\ g_dst m = R r /\ g_tag m = 0).

Lemma inv_start : Inv (ring_start P out inc n s0).
Proof.
  exists (fun _ => 0). cbn. rewrite map_length, seq_length. split; [auto|]. split; [auto|]. split; [|tauto].
  intros r Hr. split; [lia|]. split; [now rewrite nth_map_seq|]. split; [reflexivity|]. split; [auto|]. reflexivity.
Qed.

Lemma prog_nil i c : Inv c -> nth i (progs c) [] <> [] -> i < P.
Proof. intros (pos & H & _) N. destruct (Nat.lt_ge_cases i P); auto. rewrite nth_overflow in N by lia. congruence. Qed.

Lemma even_half k : Nat.even k = true -> k = 2 * (k / 2) /\ (k + 1) / 2 = k / 2 /\ (k + 2) / 2 = k / 2 + 1.
Proof.
  intros H. apply Nat.even_spec in H as (q & ->). replace (2 * q + 1) with (1 + q * 2) by lia. replace (2 * q + 2) with ((q + 1) * 2) by lia. replace (2 * q) with (q * 2) by lia.
  rewrite Nat.div_add by lia. rewrite !Nat.div_mul by lia. change (1 / 2) with 0. lia.
Qed.
Lemma odd_half k : Nat.even k = false -> k = 2 * (k / 2) + 1 /\ (k + 1) / 2 = k / 2 + 1 /\ (k + 2) / 2 = k / 2 + 1.
Proof.
  intros H. assert (O : Nat.odd k = true) by (now rewrite <- Nat.negb_even, H). apply Nat.odd_spec in O as (q & ->).
  replace (2 * q + 1 + 1) with ((q + 1) * 2) by lia. replace (2 * q + 1 + 2) with (1 + (q + 1) * 2) by lia. replace (2 * q + 1) with (1 + q * 2) by lia.
  rewrite !Nat.div_add by lia. rewrite Nat.div_mul by lia. change (1 / 2) with 0. lia.
Qed.
Lemma matches_iff r q t (m : msg M) : matches r q t m = true <-> g_src m = r /\ g_dst m = q /\ g_tag m = t.
Proof. unfold matches. rewrite !andb_true_iff, !Nat.eqb_eq. tauto. Qed.

Lemma inv_send c c' : Inv c -> step_send c c' -> Inv c'.
Proof.
  intros I H. inversion H as [c0 i dst tag f rest s E1 E2]; subst c0 c'. 
  assert (Hi : i < P) by (apply (prog_nil i I); rewrite E1; discriminate).
  destruct I as (pos & LP & LS & HI & HN). destruct (HI i Hi) as (B1 & B2 & B3 & B4 & B5).
  rewrite B2, prog_at in E1. destruct (Nat.ltb_spec (pos i) (2 * n)) as [Hlt|]; [|discriminate].
  destruct (Nat.even (pos i)) eqn:Ev; [|discriminate]. injection E1 as <- <- <- <-.
  destruct (even_half _ Ev) as (V1 & V2 & _).
  exists (fun k => if k =? i then Datatypes.S (pos i) else pos k). cbn [progs st net fst snd].
  rewrite !upd_length. split; [auto|]. split; [auto|].
  assert (SI : Datatypes.S (pos i) / 2 = pos i / 2) by (rewrite <- V2; f_equal; lia).
  assert (SI2 : (Datatypes.S (pos i) + 1) / 2 = pos i / 2 + 1).
  { replace (Datatypes.S (pos i) + 1) with (pos i + 1 * 2) by lia. now rewrite Nat.div_add by lia. }
  split.
  - intros r Hr. specialize (HI r Hr). destruct HI as (C1 & C2 & C3 & C4 & C5).
    assert (PR : (if R r =? i then Datatypes.S (pos i) else pos (R r)) / 2 = pos (R r) / 2).
    { destruct (Nat.eqb_spec (R r) i) as [->|]; auto. }
    destruct (Nat.eqb_spec r i) as [->|Hn].
    + split; [lia|]. split; [now rewrite upd_same by lia|]. split.
      { rewrite upd_same by lia. assert (s = Sx i (pos i / 2)) as ->.
        { rewrite <- C3. symmetry. apply (nth_error_nth (st c) i d E2). }
        now rewrite SI. }
      split; [rewrite PR, SI2; lia|]. rewrite filter_app, C5. cbn [filter]. 
      replace (matches i (R i) 0 _) with true by (symmetry; apply matches_iff; cbn; auto).
      unfold chan. rewrite PR. rewrite Nat.eqb_refl, SI2, V2.
      rewrite V2 in C4.
      replace (pos i / 2 + 1 - pos (R i) / 2) with (Datatypes.S (pos i / 2 - pos (R i) / 2)) by lia.
      rewrite seq_S, map_app. cbn [map]. f_equal. f_equal. f_equal.
      replace (pos (R i) / 2 + (pos i / 2 - pos (R i) / 2)) with (pos i / 2) by lia.
      f_equal. rewrite <- C3. symmetry. apply (nth_error_nth (st c) i d E2).
    + split; [lia|]. split; [now rewrite upd_other by auto|]. split; [now rewrite upd_other by auto|].
      split; [rewrite PR; auto|]. rewrite filter_app. cbn [filter].
      replace (matches r (R r) 0 _) with false.
      2:{ symmetry. apply not_true_iff_false. rewrite matches_iff. cbn. intros (X & _). congruence. }
      rewrite app_nil_r, C5. unfold chan. rewrite PR. destruct (Nat.eqb_spec r i); [contradiction|reflexivity].
  - intros m Hm. apply in_app_iff in Hm as [Hm|[<-|[]]]; [now apply HN|]. exists i. cbn. auto.
Qed.

Lemma inv_recv c c' : Inv c -> step_recv c c' -> Inv c'.
Proof.
  intros I H. inversion H as [c0 j src tag f rest s m net' E1 E2 E3]; subst c0 c'.
  assert (Hj : j < P) by (apply (prog_nil j I); rewrite E1; discriminate).
  destruct I as (pos & LP & LS & HI & HN). destruct (HI j Hj) as (B1 & B2 & B3 & B4 & B5).
  rewrite B2, prog_at in E1. destruct (Nat.ltb_spec (pos j) (2 * n)) as [Hlt|]; [|discriminate].
  destruct (Nat.even (pos j)) eqn:Ev; [discriminate|]. injection E1 as <- <- <- <-.
  destruct (odd_half _ Ev) as (V1 & V2 & V3).
  assert (Hl : L j < P) by (now apply L_lt).
  destruct (HI (L j) Hl) as (D1 & D2 & D3 & D4 & D5). unfold chan in D5. rewrite (RL Hj) in D4, D5.
  destruct (take_first_some _ _ E3) as (T1 & T2 & T3 & T4). rewrite D5 in T1.
  destruct ((pos (L j) + 1) / 2 - pos j / 2) as [|w] eqn:W; [discriminate|]. cbn [seq map] in T1. injection T1 as Em Er.
  exists (fun k => if k =? j then Datatypes.S (pos j) else pos k). cbn [progs st net].
  rewrite !upd_length. split; [auto|]. split; [auto|].
  assert (SJ : Datatypes.S (pos j) / 2 = pos j / 2 + 1) by (rewrite <- V2; f_equal; lia).
  assert (SJ2 : (Datatypes.S (pos j) + 1) / 2 = pos j / 2 + 1) by (rewrite <- V3; f_equal; lia).
  split.
  - intros r Hr. specialize (HI r Hr). destruct HI as (C1 & C2 & C3 & C4 & C5).
    assert (MM : r <> L j -> filter (matches r (R r) 0) net' = filter (matches r (R r) 0) (net c)).
    { intros Hne. symmetry. apply T3. intros x Hx. apply not_true_iff_false. rewrite matches_iff in *. intros (X & _). apply Hne. destruct Hx as (Y & _). congruence. }
    destruct (Nat.eqb_spec r j) as [->|Hn].
    + assert (Hne : j <> L j) by (intros X; apply (R_ne Hl); rewrite (RL Hj); auto).
      assert (Hrj : R j <> j) by (now apply R_ne).
      split; [lia|]. split; [now rewrite upd_same by lia|]. split.
      { rewrite upd_same by lia. rewrite SJ. replace (pos j / 2 + 1) with (Datatypes.S (pos j / 2)) by lia. rewrite Sx_S by auto.
        rewrite <- Em. cbn [g_val]. f_equal. rewrite <- C3. symmetry. apply (nth_error_nth (st c) j d E2). }
      replace (R j =? j) with false by (symmetry; now apply Nat.eqb_neq).
      split; [rewrite SJ2; lia|]. rewrite MM, C5 by auto. unfold chan.
      replace (R j =? j) with false by (symmetry; now apply Nat.eqb_neq). rewrite Nat.eqb_refl, SJ2, V2. reflexivity.
    + split; [lia|]. split; [now rewrite upd_other by auto|]. split; [now rewrite upd_other by auto|].
      destruct (Nat.eqb_spec (R r) j) as [Erj|Hrj].
      * assert (r = L j) by (rewrite <- Erj; symmetry; now apply LR). subst r.
        split; [rewrite SJ; lia|]. rewrite (RL Hj). rewrite <- Er. unfold chan. rewrite (RL Hj), Nat.eqb_refl, SJ.
        replace (L j =? j) with false by (symmetry; now apply Nat.eqb_neq).
        replace ((pos (L j) + 1) / 2 - (pos j / 2 + 1)) with w by lia. rewrite Nat.add_1_r. reflexivity.
      * split; [auto|]. rewrite MM. 2:{ intros ->. apply Hrj. now apply RL. } rewrite C5. unfold chan.
        destruct (Nat.eqb_spec (R r) j); [contradiction|]. destruct (Nat.eqb_spec r j); [contradiction|reflexivity].
  - intros x Hx. apply HN. auto.
Qed.

Lemma inv_sync c c' : Inv c -> step_sync c c' -> Inv c'.
Proof.
  intros I H. inversion H as [c0 i j tag f g resti restj si sj Hij E1 E2 E3 E4 E5]; subst c0 c'.
  assert (Hi : i < P) by (apply (prog_nil i I); rewrite E1; discriminate).
  assert (Hj : j < P) by (apply (prog_nil j I); rewrite E2; discriminate).
  destruct I as (pos & LP & LS & HI & HN). destruct (HI i Hi) as (A1 & A2 & A3 & A4 & A5).
  destruct (HI j Hj) as (B1 & B2 & B3 & B4 & B5).
  rewrite A2, prog_at in E1. destruct (Nat.ltb_spec (pos i) (2 * n)) as [Hlt|]; [|discriminate].
  destruct (Nat.even (pos i)) eqn:Ev; [|discriminate]. injection E1 as Ej <- <- <-.
  rewrite B2, prog_at in E2. destruct (Nat.ltb_spec (pos j) (2 * n)) as [Hlt'|]; [|discriminate].
  destruct (Nat.even (pos j)) eqn:Ev'; [discriminate|]. injection E2 as Ei <- <-. clear Ei.
  destruct (even_half _ Ev) as (V1 & V2 & _). destruct (odd_half _ Ev') as (W1 & W2 & W3). subst j. rename Hj into HRi.
  apply take_first_none in E5. rewrite A5 in E5. unfold chan in E5.
  assert (EQ : pos (R i) / 2 = pos i / 2).
  { destruct ((pos i + 1) / 2 - pos (R i) / 2) eqn:W; [|discriminate]. lia. }
  assert (Hn2 : R (R i) <> R i) by (now apply R_ne).
  exists (fun k => if k =? i then Datatypes.S (pos i) else if k =? R i then Datatypes.S (pos (R i)) else pos k). cbn [progs st net]. change (snd (out i (pos i / 2) si, si)) with si. change (fst (out i (pos i / 2) si, si)) with (out i (pos i / 2) si).
  rewrite !upd_length. split; [auto|]. split; [auto|].
  assert (SI : Datatypes.S (pos i) / 2 = pos i / 2) by (rewrite <- V2; f_equal; lia).
  assert (SI2 : (Datatypes.S (pos i) + 1) / 2 = pos i / 2 + 1).
  { replace (Datatypes.S (pos i) + 1) with (pos i + 1 * 2) by lia. now rewrite Nat.div_add by lia. }
  assert (SJ : Datatypes.S (pos (R i)) / 2 = pos (R i) / 2 + 1) by (rewrite <- W2; f_equal; lia).
  assert (SJ2 : (Datatypes.S (pos (R i)) + 1) / 2 = pos (R i) / 2 + 1) by (rewrite <- W3; f_equal; lia).
  assert (Si : si = Sx i (pos i / 2)) by (rewrite <- A3; symmetry; apply (nth_error_nth (st c) i d E3)).
  assert (Sj : sj = Sx (R i) (pos (R i) / 2)) by (rewrite <- B3; symmetry; apply (nth_error_nth (st c) (R i) d E4)).
  set (pos' := fun k => if k =? i then Datatypes.S (pos i) else if k =? R i then Datatypes.S (pos (R i)) else pos k).
  assert (Pi : pos' i = Datatypes.S (pos i)) by (unfold pos'; now rewrite Nat.eqb_refl).
  assert (Pj : pos' (R i) = Datatypes.S (pos (R i))).
  { unfold pos'. destruct (Nat.eqb_spec (R i) i); [congruence|]. now rewrite Nat.eqb_refl. }
  assert (Pk : forall k, k <> i -> k <> R i -> pos' k = pos k).
  { intros k K1 K2. unfold pos'. destruct (Nat.eqb_spec k i); [congruence|]. destruct (Nat.eqb_spec k (R i)); [congruence|auto]. }
  change (forall m, In m (net c) -> exists r, r < P /\ g_src m = r /\ g_dst m = R r /\ g_tag m = 0) in HN.
  split; [|exact HN].
  intros r Hr. pose proof (HI r Hr) as HIr. destruct HIr as (C1 & C2 & C3 & C4 & C5).
  change (if r =? i then Datatypes.S (pos i) else if r =? R i then Datatypes.S (pos (R i)) else pos r) with (pos' r).
  change (if R r =? i then Datatypes.S (pos i) else if R r =? R i then Datatypes.S (pos (R i)) else pos (R r)) with (pos' (R r)).
  (* receive counters of the right neighbour, send counters *)
  assert (RC : pos' (R r) / 2 = if r =? i then pos (R r) / 2 + 1 else pos (R r) / 2).
  { destruct (Nat.eqb_spec r i) as [->|Hn]; [now rewrite Pj|].
    assert (R r <> R i) by (intros X; apply Hn; rewrite <- (LR Hr), <- (LR Hi); congruence).
    destruct (Nat.eq_dec (R r) i) as [Eri|]; [rewrite Eri, Pi; auto|now rewrite Pk]. }
  assert (SC : (pos' r + 1) / 2 = if r =? i then (pos r + 1) / 2 + 1 else (pos r + 1) / 2).
  { destruct (Nat.eqb_spec r i) as [->|Hn]; [rewrite Pi, SI2; lia|].
    destruct (Nat.eq_dec r (R i)) as [->|]; [rewrite Pj, SJ2; lia|now rewrite Pk]. }
  split.
  { destruct (Nat.eq_dec r i) as [->|]; [rewrite Pi; lia|]. destruct (Nat.eq_dec r (R i)) as [->|]; [rewrite Pj; lia|rewrite Pk; auto]. }
  split.
  { destruct (Nat.eq_dec r (R i)) as [->|N1]; [rewrite upd_same by (rewrite upd_length; lia); now rewrite Pj|].
    rewrite upd_other by auto. destruct (Nat.eq_dec r i) as [->|N2]; [rewrite upd_same by lia; now rewrite Pi|].
    rewrite upd_other by auto. now rewrite Pk. }
  split.
  { destruct (Nat.eq_dec r (R i)) as [->|N1].
    - rewrite upd_same by (rewrite upd_length; lia). rewrite Pj, SJ. replace (pos (R i) / 2 + 1) with (Datatypes.S (pos (R i) / 2)) by lia.
      rewrite Sx_S by auto. transitivity (inc (R i) (pos (R i) / 2) sj (out i (pos i / 2) si)); [reflexivity|].
      rewrite (LR Hi), Si, Sj, EQ. reflexivity.
    - rewrite upd_other by auto. destruct (Nat.eq_dec r i) as [->|N2].
      + rewrite upd_same by lia. now rewrite Pi, SI.
      + rewrite upd_other by auto. now rewrite Pk. }
  split; [rewrite RC, SC; destruct (r =? i); lia|].
  rewrite C5. unfold chan. change (pos' (R r)) with (pos' (R r)). rewrite RC, SC.
  destruct (Nat.eqb_spec r i) as [->|]; [|reflexivity].
  replace ((pos i + 1) / 2 - pos (R i) / 2) with 0 by lia.
  replace ((pos i + 1) / 2 + 1 - (pos (R i) / 2 + 1)) with 0 by lia. reflexivity.
Qed.

Lemma inv_steps k c : steps k (ring_start P out inc n s0) c -> Inv c.
Proof.
  remember (ring_start P out inc n s0) as c0 eqn:E. induction 1 as [c|k c c1 c2 H IH HS]; subst.
  - apply inv_start.
  - specialize (IH eq_refl). destruct HS as [HS|[HS|HS]]; eauto using inv_send, inv_recv, inv_sync.
Qed.

(** the least advanced process can move *)
Lemma min_pos (pos : nat -> nat) : exists r, r < P /\ forall q, q < P -> pos r <= pos q.
Proof.
  assert (G : forall m, 1 <= m -> exists r, r < m /\ forall q, q < m -> pos r <= pos q).
  { intros m. induction m as [|m IH]; [lia|]. intros _. destruct (Nat.eq_dec m 0) as [->|].
    - exists 0. split; [lia|]. intros q Hq. replace q with 0 by lia. lia.
    - destruct (IH ltac:(lia)) as (r & Hr & Hm). destruct (Nat.le_gt_cases (pos r) (pos m)).
      + exists r. split; [lia|]. intros q Hq. destruct (Nat.eq_dec q m) as [->|]; [auto|apply Hm; lia].
      + exists m. split; [lia|]. intros q Hq. destruct (Nat.eq_dec q m) as [->|]; [auto|]. specialize (Hm q ltac:(lia)). lia. }
  apply G. lia.
Qed.
Lemma ring_progress k c : steps k (ring_start P out inc n s0) c -> final c \/ exists c', step_send c c' \/ step_recv c c'.
Proof.
  intros H. apply inv_steps in H as (pos & LP & LS & HI & HN). destruct (min_pos pos) as (r & Hr & Hm).
  destruct (HI r Hr) as (B1 & B2 & B3 & B4 & B5). rewrite prog_at in B2.
  destruct (Nat.ltb_spec (pos r) (2 * n)) as [Hlt|Hge].
  - right. assert (ES : exists s, nth_error (st c) r = Some s).
    { destruct (nth_error (st c) r) eqn:E; eauto. apply nth_error_None in E. lia. }
    destruct ES as (s & ES). destruct (Nat.even (pos r)) eqn:Ev.
    + eexists. left. econstructor; eauto.
    + pose proof (HI (L r) (L_lt Hr)) as (_ & _ & _ & D4 & D5). rewrite (RL Hr) in D4, D5.
      destruct (odd_half _ Ev) as (V1 & V2 & V3). pose proof (Hm (L r) (L_lt Hr)) as Hl.
      assert (HD : pos r / 2 + 1 <= (pos (L r) + 1) / 2).
      { rewrite <- V2. apply Nat.div_le_mono; lia. }
      destruct (filter_take_first (matches (L r) r 0) (net c)) as (m & l' & ET).
      { rewrite D5. unfold chan. rewrite (RL Hr). destruct ((pos (L r) + 1) / 2 - pos r / 2) eqn:W; [lia|discriminate]. }
      eexists. right. econstructor; eauto.
  - left. intros i. destruct (Nat.lt_ge_cases i P) as [Hi|Hi]; [|apply nth_overflow; lia].
    destruct (HI i Hi) as (C1 & C2 & _). rewrite C2, prog_at. pose proof (Hm i Hi).
    destruct (Nat.ltb_spec (pos i) (2 * n)); [lia|reflexivity].
Qed.
Lemma ring_final k c : steps k (ring_start P out inc n s0) c -> final c ->
  st c = ring_rounds P out inc d n s0 /\ net c = [].
Proof.
  intros H F. apply inv_steps in H as (pos & LP & LS & HI & HN).
  assert (PE : forall r, r < P -> pos r = 2 * n).
  { intros r Hr. destruct (HI r Hr) as (B1 & B2 & _). rewrite F, prog_at in B2.
    destruct (Nat.ltb_spec (pos r) (2 * n)); [discriminate|lia]. }
  split.
  - apply (@nth_ext2 _ _ _ d); [now rewrite rounds_length|]. rewrite LS. intros r Hr.
    destruct (HI r Hr) as (_ & _ & B3 & _). rewrite B3, PE by auto. replace (2 * n / 2) with n by (rewrite Nat.mul_comm, Nat.div_mul by lia; auto). reflexivity.
  - destruct (net c) as [|m t] eqn:E; auto. exfalso. destruct (HN m (or_introl eq_refl)) as (r & Hr & H1 & H2 & H3).
    destruct (HI r Hr) as (_ & _ & _ & _ & B5). unfold chan in B5. rewrite !PE in B5 by auto using R_lt.
    replace ((2 * n + 1) / 2 - 2 * n / 2) with 0 in B5.
    2:{ replace (2 * n + 1) with (1 + n * 2) by lia. replace (2 * n) with (n * 2) by lia. rewrite Nat.div_add, Nat.div_mul by lia. change (1 / 2) with 0. lia. }
    cbn [filter seq map] in B5. replace (matches r (R r) 0 m) with true in B5 by (symmetry; apply matches_iff; auto). discriminate.
Qed.

Lemma ring_terminates k c : steps k (ring_start P out inc n s0) c -> k <= 2 * n * P.
Proof.
  intros H. assert (G : k + todo c <= todo (ring_start P out inc n s0)).
  { remember (ring_start P out inc n s0) as c0. clear Heqc0. induction H as [c|k c c1 c2 H IH HS]; [lia|].
    apply step_todo in HS. specialize (IH). lia. }
  enough (todo (ring_start P out inc n s0) = 2 * n * P) by lia. unfold todo, ring_start. cbn [progs]. rewrite map_map.
  rewrite (map_ext _ (fun _ => 2 * n)).
  - rewrite map_const_seq, list_sum_repeat. lia.
  - intros r. unfold ring_prog.
    assert (G2 : forall m a, length (flat_map (fun p => [ASend (right P r) 0 (fun s => (out r p s, s)); ARecv (left P r) 0 (inc r p)]) (seq a m)) = 2 * m).
    { induction m as [|m IH]; intros a; [reflexivity|]. cbn [seq flat_map app length]. rewrite IH. lia. }
    apply G2.
Qed.

(** without buffering nobody gets past its first Send *)
Lemma ring_stuck : 0 < n -> ~ final (ring_start P out inc n s0) /\ forall c', ~ (step_recv (ring_start P out inc n s0) c' \/ step_sync (ring_start P out inc n s0) c').
Proof.
  intros Hn. assert (HA : forall r, r < P -> exists rest, nth r (progs (ring_start P out inc n s0)) [] = ASend (R r) 0 (fun s => (out r 0 s, s)) :: rest).
  { intros r Hr. cbn. rewrite nth_map_seq by auto. pose proof (prog_at r 0) as E. cbn [skipn] in E.
    destruct (Nat.ltb_spec 0 (2 * n)); [|lia]. cbn [Nat.even] in E. eexists. exact E. }
  assert (HB : forall r, P <= r -> nth r (progs (ring_start P out inc n s0)) [] = []).
  { intros r Hr. apply nth_overflow. cbn. now rewrite map_length, seq_length. }
  split.
  - intros F. destruct (HA 0 ltac:(lia)) as (rest & E). rewrite F in E. discriminate.
  - intros c' [H|H].
    + inversion H as [c0 j src tag f rest s m net' E1 E2 E3]; subst c0 c'. destruct (Nat.lt_ge_cases j P) as [Hj|Hj].
      * destruct (HA j Hj) as (rest' & E). congruence.
      * rewrite (HB j Hj) in E1. discriminate.
    + inversion H as [c0 i j tag f g resti restj si sj Hij E1 E2 E3 E4 E5]; subst c0 c'. destruct (Nat.lt_ge_cases j P) as [Hj|Hj].
      * destruct (HA j Hj) as (rest' & E). congruence.
      * rewrite (HB j Hj) in E2. discriminate.
Qed.
End Ring.
