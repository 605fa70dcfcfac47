From Verif Require Import Base BaseLemmas HaloModel.
From Coq Require Import Sorted.
Set Implicit Arguments.

Lemma filter_seq_sorted (f : nat -> bool) n k : StronglySorted lt (filter f (seq k n)).
Proof.
  revert k; induction n as [|n IH]; intros k; cbn [seq filter]; [constructor|].
  destruct (f k); auto. constructor; auto. apply Forall_forall. intros x Hx. apply filter_In in Hx. destruct Hx as [Hx _].
  apply in_seq in Hx. lia.
Qed.
Lemma sorted_nth (l : list nat) : StronglySorted lt l -> forall i j, i < j < length l -> nth i l 0 < nth j l 0.
Proof.
  induction 1 as [|a l S IH F]; intros i j H; cbn [length] in H; [lia|]. rewrite Forall_forall in F.
  destruct j as [|j]; [lia|]. destruct i as [|i]; cbn [nth].
  - apply F, nth_In. lia.
  - apply IH. lia.
Qed.
Lemma index_of_nth (l : list nat) : StronglySorted lt l -> forall i, i < length l -> index_of (nth i l 0) l = i.
Proof.
  induction 1 as [|a l S IH F]; intros i H; cbn [length] in H; [lia|]. rewrite Forall_forall in F.
  destruct i as [|i]; cbn [nth index_of]; [now rewrite Nat.eqb_refl|].
  assert (a < nth i l 0) by (apply F, nth_In; lia).
  destruct (Nat.eqb_spec a (nth i l 0)); [lia|]. f_equal. apply IH. lia.
Qed.
Lemma last_nth {A} (l : list A) d : last l d = nth (length l - 1) l d.
Proof. induction l as [|a [|b l] IH]; auto. change (last (a :: b :: l) d) with (last (b :: l) d). rewrite IH. cbn [length]. now replace (S (S (length l)) - 1) with (S (S (length l) - 1)) by lia. Qed.

Section Halo.
Variable A : Type.
Variable d : dist A.
Notation p := (populated d).

Lemma pop_sorted : StronglySorted lt p. Proof. apply filter_seq_sorted. Qed.
Lemma pop_in r : In r p <-> r < length d /\ nth r d [] <> [].
Proof.
  unfold populated. rewrite filter_In, in_seq. split.
  - intros [H1 H2]. split; [lia|]. intros E. rewrite E in H2. discriminate.
  - intros [H1 H2]. split; [lia|]. destruct (nth r d []); [congruence|reflexivity].
Qed.
Lemma pop_idx r : In r p -> exists i, i < length p /\ nth i p 0 = r.
Proof. intros H. apply (In_nth _ _ 0) in H. destruct H as (i & H1 & H2); eauto. Qed.

Lemma next_rank_nth i : i < length p -> next_rank d (nth i p 0) = if Nat.eqb (S i) (length p) then None else Some (nth (S i) p 0).
Proof.
  intros H. unfold next_rank. rewrite last_nth, index_of_nth by (auto using pop_sorted).
  destruct (Nat.eqb_spec (S i) (length p)) as [E|E].
  - replace (length p - 1) with i by lia. now rewrite Nat.eqb_refl.
  - pose proof (@sorted_nth p pop_sorted i (length p - 1) ltac:(lia)). destruct (Nat.eqb_spec (nth i p 0) (nth (length p - 1) p 0)); [lia|].
    now rewrite Nat.add_1_r.
Qed.
Lemma prev_rank_nth i : i < length p -> prev_rank d (nth i p 0) = if Nat.eqb i 0 then None else Some (nth (i - 1) p 0).
Proof.
  intros H. unfold prev_rank. rewrite index_of_nth by (auto using pop_sorted).
  assert (hd 0 p = nth 0 p 0) as -> by (destruct p; auto).
  destruct (Nat.eqb_spec i 0) as [->|E]; [now rewrite Nat.eqb_refl|].
  pose proof (@sorted_nth p pop_sorted 0 i ltac:(lia)). destruct (Nat.eqb_spec (nth i p 0) (nth 0 p 0)); [lia|]. reflexivity.
Qed.

Lemma between_empty i k : S i < length p -> nth i p 0 < k < nth (S i) p 0 -> nth k d [] = [].
Proof.
  intros H1 H2. destruct (nth k d []) as [|a l] eqn:E; auto. exfalso.
  assert (In (nth (S i) p 0) p) as HI by (apply nth_In; auto). apply pop_in in HI.
  assert (In k p) as HK by (apply pop_in; split; [lia|congruence]). destruct (pop_idx _ HK) as (j & Hj & <-).
  destruct (Nat.lt_trichotomy j i) as [L|[->|L]]; [|lia|].
  - pose proof (@sorted_nth p pop_sorted j i ltac:(lia)). lia.
  - destruct (Nat.eq_dec j (S i)) as [->|]; [lia|]. pose proof (@sorted_nth p pop_sorted (S i) j ltac:(lia)). lia.
Qed.

Lemma psum_gap (l : list nat) a b : a <= b -> b <= length l -> (forall k, a <= k < b -> nth k l 0 = 0) -> psum l b = psum l a.
Proof.
  intros H1 H2 H. induction b as [|b IH]; [now replace a with 0 by lia|].
  destruct (Nat.eq_dec a (S b)) as [->|]; auto. rewrite psum_S by lia. rewrite H by lia. rewrite IH; auto; try lia.
  intros k Hk. apply H. lia.
Qed.

Lemma adjacent i : S i < length p -> psum (lens d) (nth (S i) p 0) = psum (lens d) (S (nth i p 0)).
Proof.
  intros H. assert (In (nth (S i) p 0) p) as HI by (apply nth_In; auto). apply pop_in in HI.
  pose proof (@sorted_nth p pop_sorted i (S i) ltac:(lia)).
  apply psum_gap; [lia|rewrite lens_length; lia|]. intros k Hk. rewrite lens_nth, (@between_empty i) by (auto; lia). reflexivity.
Qed.

Lemma block r : r < length d -> nth r d [] = sub (glob d) (psum (lens d) r) (length (nth r d [])).
Proof.
  intros H. unfold sub. pose proof (glob_cut d H) as G. set (l := nth r d []) in *. clearbody l. rewrite G. clear G. rewrite <- (glob_firstn_length d r).
  rewrite skipn_app, skipn_all, Nat.sub_diag. cbn [skipn app].
  rewrite firstn_app, Nat.sub_diag, firstn_all. cbn [firstn]. now rewrite app_nil_r.
Qed.

Lemma a_prev_glob r h : r < length d -> h <= length (nth r d []) -> a_prev h (nth r d []) = sub (glob d) (psum (lens d) r) h.
Proof.
  intros H1 H2. unfold a_prev. rewrite (block H1) at 1. unfold sub. rewrite firstn_firstn. now rewrite Nat.min_l.
Qed.
Lemma a_next_glob r h : r < length d -> h <= length (nth r d []) ->
  a_next h (nth r d []) = sub (glob d) (psum (lens d) (S r) - h) h.
Proof.
  intros H1 H2. unfold a_next. rewrite psum_S, lens_nth by (rewrite lens_length; auto).
  set (n := length (nth r d [])) in *. rewrite (block H1). unfold sub.
  fold n. rewrite skipn_firstn_comm, skipn_skipn'. replace (n - (n - h)) with h by lia.
  replace (psum (lens d) r + (n - h)) with (psum (lens d) r + n - h) by lia. reflexivity.
Qed.

Lemma recv_prev h pv nx i : S i < length p -> pv = true ->
  recv_from d h pv nx (nth i p 0) (nth (S i) p 0) = Some (a_next h (nth (nth i p 0) d [])).
Proof.
  intros H ->. unfold recv_from, halo_sends. rewrite next_rank_nth by lia.
  destruct (Nat.eqb_spec (S i) (length p)); [lia|]. cbn [app filter fst]. now rewrite Nat.eqb_refl.
Qed.
Lemma recv_next h pv nx i : S i < length p -> nx = true ->
  recv_from d h pv nx (nth (S i) p 0) (nth i p 0) = Some (a_prev h (nth (nth (S i) p 0) d [])).
Proof.
  intros H ->. unfold recv_from, halo_sends. rewrite next_rank_nth, prev_rank_nth by lia.
  destruct (Nat.eqb_spec (S i) 0); [lia|]. replace (S i - 1) with i by lia.
  assert (Hd : forall (l : list (nat * list A)), (forall m, In m l -> fst m <> nth i p 0) ->
     filter (fun m => Nat.eqb (fst m) (nth i p 0)) (l ++ [(nth i p 0, a_prev h (nth (nth (S i) p 0) d []))]) = [(nth i p 0, a_prev h (nth (nth (S i) p 0) d []))]).
  { intros l Hl. rewrite filter_app. cbn [filter fst]. rewrite Nat.eqb_refl.
    induction l as [|m l IH]; auto. cbn [filter]. destruct (Nat.eqb_spec (fst m) (nth i p 0)) as [E|]; [exfalso; revert E; apply Hl; simpl; auto|].
    apply IH. intros; apply Hl; simpl; auto. }
  rewrite Hd; auto. intros m Hm. destruct pv; [|destruct Hm]. destruct (Nat.eqb_spec (S (S i)) (length p)); [destruct Hm|].
  destruct Hm as [<-|[]]. cbn [fst]. pose proof (@sorted_nth p pop_sorted i (S (S i)) ltac:(lia)). lia.
Qed.

Definition first_pop r := forall q, q < r -> nth q d [] = [].
Definition last_pop r := forall q, r < q -> nth q d [] = [].

Lemma first_pop_iff i : i < length p -> (first_pop (nth i p 0) <-> i = 0).
Proof.
  intros H. split.
  - intros F. destruct i as [|i]; auto. exfalso. pose proof (@sorted_nth p pop_sorted i (S i) ltac:(lia)) as L.
    assert (In (nth i p 0) p) as HI by (apply nth_In; lia). apply pop_in in HI. apply HI. now apply F.
  - intros -> q Hq. destruct (nth q d []) eqn:E; auto. exfalso.
    assert (In (nth 0 p 0) p) as HI by (apply nth_In; lia). apply pop_in in HI.
    assert (In q p) as HQ by (apply pop_in; split; [lia|congruence]). destruct (pop_idx _ HQ) as (j & Hj & <-).
    destruct j; [lia|]. pose proof (@sorted_nth p pop_sorted 0 (S j) ltac:(lia)). lia.
Qed.
Lemma last_pop_iff i : i < length p -> (last_pop (nth i p 0) <-> S i = length p).
Proof.
  intros H. split.
  - intros F. destruct (Nat.eq_dec (S i) (length p)); auto. exfalso. pose proof (@sorted_nth p pop_sorted i (S i) ltac:(lia)) as L.
    assert (In (nth (S i) p 0) p) as HI by (apply nth_In; lia). apply pop_in in HI. apply HI. now apply F.
  - intros E q Hq. destruct (nth q d []) eqn:E1; auto. exfalso.
    assert (q < length d). { destruct (Nat.lt_ge_cases q (length d)); auto. rewrite nth_overflow in E1 by auto. discriminate. }
    assert (In q p) as HQ by (apply pop_in; split; [lia|congruence]). destruct (pop_idx _ HQ) as (j & Hj & <-).
    destruct (Nat.eq_dec i j) as [->|]; [lia|]. pose proof (@sorted_nth p pop_sorted j i ltac:(lia)). lia.
Qed.

Lemma halo_lemma : forall (h : Z) (pv nx : bool) r s,
  (0 < h)%Z -> r < length d -> nth r d [] <> [] ->
  (exists q, q < length d /\ q <> r /\ nth q d [] <> []) ->
  (forall q, q < length d -> nth q d [] <> [] -> (h <= Z.of_nat (length (nth q d [])))%Z) ->
  exists hp hn, get_halo d h pv nx r s = HDone (Halo hp hn true) /\
    ((pv = false \/ first_pop r) -> hp = None) /\
    (pv = true -> ~ first_pop r -> (h <= Z.of_nat (psum (lens d) r))%Z /\
       hp = Some (sub (glob d) (psum (lens d) r - Z.to_nat h) (Z.to_nat h))) /\
    ((nx = false \/ last_pop r) -> hn = None) /\
    (nx = true -> ~ last_pop r -> psum (lens d) (S r) + Z.to_nat h <= length (glob d) /\
       hn = Some (sub (glob d) (psum (lens d) (S r)) (Z.to_nat h))).
Proof.
  intros h pv nx r s Hh Hr Hne (q & Hq & Nq & Eq) Hc.
  assert (Ir : In r p) by (apply pop_in; auto). assert (Iq : In q p) by (apply pop_in; auto).
  destruct (pop_idx _ Ir) as (i & Hi & Er). destruct (pop_idx _ Iq) as (j & Hj & Ej).
  assert (2 <= length p). { destruct (Nat.eq_dec i j); [congruence|]. lia. }
  unfold get_halo. destruct (Z.ltb_spec h 0); [lia|]. destruct (Nat.leb_spec (length d) 1); [lia|]. destruct (Z.eqb_spec h 0); [lia|].
  cbn [orb]. destruct (Nat.eqb_spec (length p) 1); [lia|].
  assert (existsb (Nat.eqb r) p = true) as -> by (apply existsb_exists; exists r; split; auto; apply Nat.eqb_refl). cbn [negb].
  set (hn := Z.to_nat h) in *.
  assert (Hch : forall q, In q p -> hn <= length (nth q d [])). { intros k Hk. apply pop_in in Hk. destruct Hk as [K1 K2]. specialize (Hc _ K1 K2). lia. }
  assert (existsb (fun q0 => length (nth q0 d []) <? hn) p = false) as ->.
  { destruct (existsb _ p) eqn:E; auto. apply existsb_exists in E. destruct E as (k & K1 & K2). specialize (Hch _ K1). apply Nat.ltb_lt in K2. lia. }
  assert (Ip : forall k, k < length p -> nth k p 0 < length d). { intros k Hk. apply (nth_In p 0) in Hk. apply pop_in in Hk. tauto. }
  rewrite <- Er. rewrite prev_rank_nth, next_rank_nth by auto.
  pose proof (first_pop_iff Hi) as FP. pose proof (last_pop_iff Hi) as LP.
  set (hp' := if pv then (if Nat.eqb i 0 then None else Some (a_next hn (nth (nth (i - 1) p 0) d []))) else None).
  set (hn' := if nx then (if Nat.eqb (S i) (length p) then None else Some (a_prev hn (nth (nth (S i) p 0) d []))) else None).
  exists hp', hn'. split; [|split; [|split; [|split]]].
  - assert ((if pv then match (if Nat.eqb i 0 then None else Some (nth (i - 1) p 0)) with None => Some None | Some q0 => option_map Some (recv_from d hn pv nx q0 (nth i p 0)) end else Some None) = Some hp') as ->.
    { unfold hp'. destruct pv; auto. destruct (Nat.eqb_spec i 0); auto. 
      pose proof (@recv_prev hn true nx (i - 1) ltac:(lia) eq_refl) as RP. replace (S (i - 1)) with i in RP by lia. rewrite RP. reflexivity. }
    assert ((if nx then match (if Nat.eqb (S i) (length p) then None else Some (nth (S i) p 0)) with None => Some None | Some q0 => option_map Some (recv_from d hn pv nx q0 (nth i p 0)) end else Some None) = Some hn') as ->.
    { unfold hn'. destruct nx; auto. destruct (Nat.eqb_spec (S i) (length p)); auto.
      rewrite recv_next by (auto; lia). reflexivity. }
    reflexivity.
  - unfold hp'. intros [->|F]; auto. apply FP in F. subst i. cbn. now destruct pv.
  - unfold hp'. intros -> NF. destruct (Nat.eqb_spec i 0) as [E|E]; [tauto|].
    pose proof (@adjacent (i - 1) ltac:(lia)) as AD. replace (S (i - 1)) with i in AD by lia.
    assert (Hl : hn <= length (nth (nth (i - 1) p 0) d [])) by (apply Hch, nth_In; lia).
    rewrite AD. split.
    + rewrite psum_S, lens_nth by (rewrite lens_length; apply Ip; lia). lia.
    + rewrite a_next_glob; auto. apply Ip; lia.
  - unfold hn'. intros [->|F]; auto. apply LP in F. rewrite F, Nat.eqb_refl. now destruct nx.
  - unfold hn'. intros -> NF. destruct (Nat.eqb_spec (S i) (length p)) as [E|E]; [tauto|].
    pose proof (@adjacent i ltac:(lia)) as AD. rewrite <- AD.
    assert (Hl : hn <= length (nth (nth (S i) p 0) d [])) by (apply Hch, nth_In; lia).
    split.
    + rewrite glob_length. pose proof (psum_le_sum (lens d) (S (nth (S i) p 0))) as PL. rewrite psum_S, lens_nth in PL by (rewrite lens_length; apply Ip; lia). lia.
    + rewrite a_prev_glob; auto. apply Ip; lia.
Qed.

Lemma halo_empty_rank : forall h pv nx r s, (0 <= h)%Z -> nth r d [] = [] -> length p <> 1 -> get_halo d h pv nx r s = HDone s.
Proof.
  intros h pv nx r s Hh E Hp. unfold get_halo. destruct (Z.ltb_spec h 0); [lia|]. destruct ((length d <=? 1) || (h =? 0)%Z); auto.
  destruct (Nat.eqb_spec (length p) 1); [lia|]. destruct (existsb (Nat.eqb r) p) eqn:X; auto.
  apply existsb_exists in X. destruct X as (k & K1 & K2). apply Nat.eqb_eq in K2. subst k. apply pop_in in K1. tauto.
Qed.

Lemma halo_too_large : forall h pv nx r s, 1 < length d -> length p <> 1 -> r < length d -> nth r d [] <> [] ->
  (exists q, q < length d /\ nth q d [] <> [] /\ (Z.of_nat (length (nth q d [])) < h)%Z) ->
  get_halo d h pv nx r s = HRaise ValueError.
Proof.
  intros h pv nx r s Hd Hp Hr Hne (q & Hq & Eq & L). unfold get_halo.
  destruct (Z.ltb_spec h 0); auto. destruct (Nat.leb_spec (length d) 1); [lia|]. destruct (Z.eqb_spec h 0); [lia|]. cbn [orb].
  destruct (Nat.eqb_spec (length p) 1); [lia|].
  assert (existsb (Nat.eqb r) p = true) as -> by (apply existsb_exists; exists r; split; [apply pop_in; auto|]; apply Nat.eqb_refl). cbn [negb].
  assert (existsb (fun q0 => length (nth q0 d []) <? Z.to_nat h) p = true) as ->; auto.
  apply existsb_exists. exists q. split; [apply pop_in; auto|]. apply Nat.ltb_lt. lia.
Qed.
End Halo.

Lemma with_halos_lemma : forall A (d : dist A) (h : Z) r s,
  (0 < h)%Z -> r < length d -> nth r d [] <> [] ->
  (exists q, q < length d /\ q <> r /\ nth q d [] <> []) ->
  (forall q, q < length d -> nth q d [] <> [] -> (h <= Z.of_nat (length (nth q d [])))%Z) ->
  exists s' a b, get_halo d h true true r s = HDone s' /\
    a = (psum (lens d) r - Z.to_nat h) /\ b = Nat.min (length (glob d)) (psum (lens d) (S r) + Z.to_nat h) /\
    array_with_halos d r s' = sub (glob d) a (b - a).
Proof.
  intros A d h r s Hh Hr Hne Hq Hc. destruct (@halo_lemma A d h true true r s Hh Hr Hne Hq Hc) as (hp & hn & E & P1 & P2 & N1 & N2).
  exists (Halo hp hn true), (psum (lens d) r - Z.to_nat h), (Nat.min (length (glob d)) (psum (lens d) (S r) + Z.to_nat h)).
  split; [exact E|]. split; auto. split; auto.
  assert (Hl : Z.to_nat h <= length (nth r d [])) by (specialize (Hc r Hr Hne); lia).
  unfold array_with_halos. destruct Hq as (q & Hq & Nq & _). destruct (Nat.leb_spec (length d) 1) as [HH|HH]; [lia|]. cbn [h_prev h_next].
  set (H := Z.to_nat h) in *.
  pose proof (psum_S (lens d) (k:=r) ltac:(rewrite lens_length; auto)) as PS. rewrite lens_nth in PS.
  pose proof (psum_le_sum (lens d) (S r)) as PL. rewrite <- glob_length in PL.
  assert (DF : first_pop d r \/ ~ first_pop d r).
  { unfold first_pop. clear. induction r as [|r IH]; [left; intros; lia|].
    destruct IH as [IH|IH].
    - destruct (nth r d []) eqn:E; [left|right].
      + intros q Hq. destruct (Nat.eq_dec q r) as [->|]; auto. apply IH; lia.
      + intros F. rewrite F in E by lia. discriminate.
    - right. intros F. apply IH. intros; apply F; lia. }
  assert (DL : last_pop d r \/ ~ last_pop d r).
  { unfold last_pop. assert (W : forall k, (forall q, r < q < k -> nth q d [] = []) \/ ~ (forall q, r < q < k -> nth q d [] = [])).
    { induction k as [|k IH]; [left; intros; lia|]. destruct IH as [IH|IH].
      - destruct (nth k d []) eqn:E1.
        + left. intros q0 Hq0. destruct (Nat.eq_dec q0 k) as [->|]; auto. apply IH; lia.
        + destruct (Nat.lt_ge_cases r k); [right|left; intros; lia]. intros F. rewrite F in E1 by lia. discriminate.
      - right. intros F. apply IH. intros; apply F; lia. }
    destruct (W (length d)) as [W1|W1]; [left|right].
    - intros q0 Hq0. destruct (Nat.lt_ge_cases q0 (length d)); [apply W1; lia|now apply nth_overflow].
    - intros F. apply W1. intros; apply F; lia. }
  assert (Pre : match hp with Some l => l | None => [] end ++ nth r d [] = sub (glob d) (psum (lens d) r - H) (psum (lens d) (S r) - (psum (lens d) r - H))).
  { destruct DF as [F|F].
    - rewrite P1 by auto. cbn [app].
      assert (psum (lens d) r = 0) as ->. { apply (@psum_gap (lens d) 0 r); [lia|rewrite lens_length; lia|]. intros k Hk. rewrite lens_nth, F by lia. auto. }
      cbn [Nat.sub]. rewrite (@block A d r Hr) at 1. assert (psum (lens d) r = 0) as ->. { apply (@psum_gap (lens d) 0 r); [lia|rewrite lens_length; lia|]. intros k Hk. rewrite lens_nth, F by lia. auto. }
      f_equal. assert (psum (lens d) r = 0). { apply (@psum_gap (lens d) 0 r); [lia|rewrite lens_length; lia|]. intros k Hk. rewrite lens_nth, F by lia. auto. } lia.
    - destruct (P2 eq_refl F) as [B ->]. rewrite (@block A d r Hr) at 1.
      replace (psum (lens d) r) with (psum (lens d) r - H + H) at 2 by lia. rewrite sub_app_sub. f_equal. lia. }
  rewrite app_assoc, Pre. destruct DL as [F|F].
  - rewrite N1 by auto. rewrite app_nil_r. f_equal.
    assert (psum (lens d) (length d) = psum (lens d) (S r)). { apply psum_gap; [lia|rewrite lens_length; lia|]. intros k Hk. rewrite lens_nth, F by lia. auto. }
    rewrite psum_all in H0 by (rewrite lens_length; auto). rewrite <- glob_length in H0. lia.
  - destruct (N2 eq_refl F) as [B ->].
    replace (psum (lens d) (S r)) with (psum (lens d) r - H + (psum (lens d) (S r) - (psum (lens d) r - H))) at 2 by lia. rewrite sub_app_sub. f_equal. lia.
Qed.
