(** The symmetric ring, process by process, and the schedule-independent results. *)
From Verif Require Import Base BaseLemmas LayoutModel LayoutProofs SchedModel SchedProofs CdistModel CdistProofs CdistProofs2 CdistProofs3.

Section Sym.
Context {R V : Type}.
Variable zero : V.
Variable dst : R -> R -> V.
Variable metric : list R -> list R -> list (list V).
Hypothesis Hmetric : forall A B, metric A B = tile dst A B.
Hypothesis Hsym : forall a b, dst a b = dst b a.
Variables n size : nat.
Variable Xs : dist R.
Hypothesis HX : lens Xs = counts_of n size.
Notation X q := (nth q Xs []).
Notation st := (cst R V).
Notation cm := (cmsg R V).
Notation s0 q := (start_state zero metric n size q (X q) (X q)).

Definition msym (src dest tag : nat) : cm :=
  if (if 2 * tag <? size then Nat.eqb dest (rcvr size src tag) else hf size <=? src)
  then Rows V (X src) else Tile R (tile dst (X src) (X dest)).

Lemma fwd_msg q i : q < size -> 1 <= i -> 2 * i < size -> msym q (rcvr size q i) i = Rows V (X q).
Proof. intros. unfold msym. destruct (Nat.ltb_spec (2 * i) size); [|lia]. now rewrite Nat.eqb_refl. Qed.
Lemma sndr_ne_rcvr q i : q < size -> 1 <= i -> 2 * i < size -> sndr size q i <> rcvr size q i.
Proof.
  intros. unfold sndr, rcvr. rewrite modsub, modadd by lia.
  destruct (Nat.leb_spec i q); destruct (Nat.ltb_spec (q + i) size); lia.
Qed.
Lemma bwd_msg q i : q < size -> 1 <= i -> 2 * i < size -> msym q (sndr size q i) i = Tile R (tile dst (X q) (X (sndr size q i))).
Proof.
  intros. unfold msym. destruct (Nat.ltb_spec (2 * i) size); [|lia].
  destruct (Nat.eqb_spec (sndr size q i) (rcvr size q i)) as [E|]; [|reflexivity].
  exfalso. revert E. now apply sndr_ne_rcvr.
Qed.

Lemma rounds_local q k : q < size -> 2 * k < size ->
  let l := flat_map (fun i => ring_step metric n size q i ++ back_step R zero n size q i) (seq 1 k) in
  sends_ok msym q (s0 q) l /\ exists done, good zero dst size Xs Xs q done (lrun msym q (s0 q) l) /\ done q = true /\
  forall i, 1 <= i <= k -> done (sndr size q i) = true /\ done (rcvr size q i) = true.
Proof.
  intros Hq. induction k as [|k IH]; intros Hk.
  - split; [exact I|]. exists (mark (fun _ => false) q). split; [now apply start_good|]. split; [unfold mark; now rewrite Nat.eqb_refl|]. intros; lia.
  - destruct (IH ltac:(lia)) as (S1 & done & G & Dq & Di). cbn zeta. rewrite seq_S, flat_map_app. cbn [flat_map plus]. rewrite app_nil_r.
    set (l := flat_map (fun i => ring_step metric n size q i ++ back_step R zero n size q i) (seq 1 k)) in *. change (1 + k) with (S k).
    set (i := S k) in *. set (s := lrun msym q (s0 q) l) in *.
    rewrite sends_app, lrun_app. fold s. rewrite sends_app, lrun_app.
    assert (Hi : 1 <= i) by (unfold i; lia).
    assert (F1 : msym (sndr size q i) q i = Rows V (X (sndr size q i))).
    { rewrite <- (rcvr_sndr size q i) at 2 by lia. apply fwd_msg; auto. now apply sndr_lt. }
    assert (F2 : msym q (rcvr size q i) i = Rows V (X q)) by (now apply fwd_msg).
    assert (B1 : msym (rcvr size q i) q i = Tile R (tile dst (X (rcvr size q i)) (X q))).
    { rewrite <- (sndr_rcvr size q i) at 2 by lia. rewrite bwd_msg; auto; [now rewrite sndr_rcvr by lia|now apply rcvr_lt]. }
    assert (B2 : msym q (sndr size q i) i = Tile R (tile dst (X q) (X (sndr size q i)))) by (now apply bwd_msg).
    rewrite (ring_run metric n size Xs msym q i F1).
    destruct (calc_good zero dst metric Hmetric n size Xs Xs HX q done s (sndr size q i) (sndr_lt _ _ _ Hq) G) as (G1 & Dij).
    set (s1 := calc metric n size (sndr size q i) (store_moving s (Rows V (X (sndr size q i))))) in *.
    rewrite (back_run zero dst n size Xs Xs msym q i B1).
    pose proof (sym_good zero dst metric Hmetric n size Xs Xs HX Hsym eq_refl q (mark done (sndr size q i)) s1 (rcvr size q i) (rcvr_lt _ _ _ Hq) Hq G1) as G2.
    split; [split; [exact S1|split]|].
    + apply (ring_sends metric n size Xs msym q i F1 F2). apply G.
    + now apply (back_sends zero dst n size Xs Xs msym q i B1 B2).
    + exists (mark (mark done (sndr size q i)) (rcvr size q i)). split; [exact G2|]. unfold mark. split.
      * destruct (Nat.eqb_spec q (rcvr size q i)); auto. destruct (Nat.eqb_spec q (sndr size q i)); auto.
      * intros j Hj. destruct (Nat.eq_dec j i) as [->|Nj].
        { split; repeat match goal with |- context [Nat.eqb ?a ?b] => destruct (Nat.eqb_spec a b) end; auto; congruence. }
        destruct (Di j ltac:(unfold i in Nj; lia)) as (D1 & D2).
        split; repeat match goal with |- context [Nat.eqb ?a ?b] => destruct (Nat.eqb_spec a b) end; auto.
Qed.

Lemma half_local q done s : q < size -> size = 2 * hf size -> good zero dst size Xs Xs q done s ->
  sends_ok msym q s (half_step zero metric n size q) /\
  exists d', good zero dst size Xs Xs q d' (lrun msym q s (half_step zero metric n size q)) /\
  (forall p, done p = true -> d' p = true) /\ d' (rcvr size q (hf size)) = true.
Proof.
  intros Hq Hs G. unfold half_step. fold (hf size). fold (sndr size q (hf size)). fold (rcvr size q (hf size)).
  assert (S2 : size / 2 = hf size) by (rewrite Hs at 1; rewrite Nat.mul_comm; apply Nat.div_mul; lia).
  rewrite S2. set (h := hf size) in *.
  assert (Sv : sndr size q h = if h <=? q then q - h else q + h).
  { unfold sndr. rewrite modsub by lia. destruct (Nat.leb_spec h q); lia. }
  assert (Rv : rcvr size q h = if h <=? q then q - h else q + h).
  { unfold rcvr. rewrite modadd by lia. destruct (Nat.leb_spec h q); destruct (Nat.ltb_spec (q + h) size); lia. }
  assert (Mt : forall a b, msym a b h = if h <=? a then Rows V (X a) else Tile R (tile dst (X a) (X b))).
  { intros a b. unfold msym. destruct (Nat.ltb_spec (2 * h) size); [lia|]. reflexivity. }
  assert (Pl : rcvr size q h < size) by (now apply rcvr_lt).
  assert (Lt : forall p : nat, p < size -> h <=? p = true <-> h <= p) by (intros; apply Nat.leb_le).
  rewrite Sv, <- Rv. set (p := rcvr size q h) in *.
  destruct (Nat.ltb_spec q h) as [C|C]; destruct (Nat.leb_spec h q); try lia; cbn [sends_ok lrun fst snd].
  - assert (E : msym p q h = Rows V (X p)). { rewrite Mt. destruct (Nat.leb_spec h p); [reflexivity|lia]. }
    rewrite E.
    destruct (calc_good zero dst metric Hmetric n size Xs Xs HX q done s p Pl G) as (G1 & Dij).
    split; [split; [|exact I]|].
    + unfold send_dij. rewrite Dij, Mt. destruct (Nat.leb_spec h q); [lia|reflexivity].
    + exists (mark done p). split; [exact G1|]. unfold mark. rewrite Nat.eqb_refl. split; auto.
      intros p' D. destruct (Nat.eqb_spec p' p); auto.
  - assert (E : msym p q h = Tile R (tile dst (X p) (X q))). { rewrite Mt. destruct (Nat.leb_spec h p); [lia|reflexivity]. }
    rewrite E.
    pose proof (sym_good zero dst metric Hmetric n size Xs Xs HX Hsym eq_refl q done s p Pl Hq G) as G1.
    split; [split; [|exact I]|].
    + unfold send_rows. rewrite Mt. destruct (Nat.leb_spec h q); [|lia]. f_equal. apply G.
    + exists (mark done p). split; [exact G1|]. unfold mark. rewrite Nat.eqb_refl. split; auto.
      intros p' D. destruct (Nat.eqb_spec p' p); auto.
Qed.

Lemma sym_local q : q < size -> sends_ok msym q (s0 q) (sym_prog zero metric n size q) /\
  c_d (lrun msym q (s0 q) (sym_prog zero metric n size q)) = map (fun a => map (dst a) (glob Xs)) (X q).
Proof.
  intros Hq. unfold sym_prog.
  pose proof (Nat.div_mod (size + 1) 2 ltac:(lia)) as DM. pose proof (Nat.mod_upper_bound (size + 1) 2 ltac:(lia)).
  set (k := (size + 1) / 2 - 1).
  assert (Hk : 2 * k < size) by (unfold k; lia).
  destruct (rounds_local q k Hq Hk) as (S1 & done & G & Dq & Di). cbn zeta in *.
  set (l := flat_map (fun i => ring_step metric n size q i ++ back_step R zero n size q i) (seq 1 k)) in *.
  (* every block of another process at ring distance at most k is known *)
  assert (Near : forall p, p < size -> (size + 1) mod 2 = 0 \/ p <> rcvr size q (hf size) -> done p = true).
  { intros p Hp Hc. destruct (Nat.eq_dec p q) as [->|N]; [exact Dq|].
    set (d := if q <=? p then p - q else p + size - q) in *.
    assert (Hd : 1 <= d < size) by (unfold d; destruct (Nat.leb_spec q p); lia).
    assert (E : p = rcvr size q d).
    { unfold rcvr. rewrite modadd by lia. unfold d. destruct (Nat.leb_spec q p);
      match goal with |- context [?a <? ?b] => destruct (Nat.ltb_spec a b) end; lia. }
    destruct (Nat.le_gt_cases d k) as [A|Far].
    - rewrite E. apply Di. lia.
    - 
      assert (Nh : size < 2 * d).
      { destruct (Nat.lt_total (2 * d) size) as [|[|]]; [unfold k in Far; lia| |lia].
        destruct Hc as [Hc|Hc]; [unfold k in Far; lia|]. exfalso. apply Hc. rewrite E. f_equal. unfold hf. lia. }
      assert (E2 : p = sndr size q (size - d)).
      { unfold sndr. rewrite modsub by lia. unfold d in *. destruct (Nat.leb_spec q p);
        match goal with |- context [?a <=? ?b] => destruct (Nat.leb_spec a b) end; lia. }
      rewrite E2. apply Di. unfold k. lia. }
  destruct (Nat.eqb_spec ((size + 1) mod 2) 0) as [E|E].
  - rewrite app_nil_r. split; [exact S1|]. apply (all_done zero dst n size Xs Xs HX q done _ G). intros p Hp. apply Near; auto.
  - rewrite sends_app, lrun_app. destruct (half_local q done (lrun msym q (s0 q) l) Hq (even_hf size E) G) as (S2 & d' & G2 & Mono & Dh).
    split; [split; [exact S1|exact S2]|]. apply (all_done zero dst n size Xs Xs HX q d' _ G2). intros p Hp.
    destruct (Nat.eq_dec p (rcvr size q (hf size))) as [->|N]; [exact Dh|]. apply Mono. apply Near; auto.
Qed.
End Sym.

Section Final.
Context {R V : Type}.
Variable zero : V.
Variable dst : R -> R -> V.
Variable metric : list R -> list R -> list (list V).
Hypothesis Hmetric : forall A B, metric A B = tile dst A B.

Lemma sym_initial n Xs : sym_start zero metric n Xs =
  initial (length Xs) (sym_plan zero metric n (length Xs))
    (map (fun r => start_state zero metric n (length Xs) r (nth r Xs []) (nth r Xs [])) (seq 0 (length Xs))).
Proof.
  unfold sym_start, initial. f_equal. apply map_ext_in. intros q Hq. apply in_seq in Hq. symmetry. apply proj_sym. lia.
Qed.
Lemma pair_initial n (Xs Ys : dist R) : pair_start zero metric n Xs Ys =
  initial (length Xs) (pair_plan metric n (length Xs))
    (map (fun r => start_state zero metric n (length Xs) r (nth r Xs []) (nth r Ys [])) (seq 0 (length Xs))).
Proof.
  unfold pair_start, initial. f_equal. apply map_ext_in. intros q Hq. apply in_seq in Hq. symmetry. apply proj_pair. lia.
Qed.
Lemma nth_error_map_seq {A} (f : nat -> A) k q s : nth_error (map f (seq 0 k)) q = Some s -> q < k /\ s = f q.
Proof.
  intros H. assert (q < k). { apply nth_error_Some_lt in H || (assert (nth_error (map f (seq 0 k)) q <> None) as H' by congruence; apply nth_error_Some in H'; rewrite map_length, seq_length in H'; exact H'). }
  split; auto. rewrite (map_nth_error f q (seq 0 k) (d := q)) in H; [congruence|].
  rewrite (nth_error_nth' _ 0) by (now rewrite seq_length). now rewrite seq_nth by lia.
Qed.
Lemma nth_error_map_seq' {A} (f : nat -> A) k q : q < k -> nth_error (map f (seq 0 k)) q = Some (f q).
Proof.
  intros H. apply map_nth_error. rewrite (nth_error_nth' _ 0) by (now rewrite seq_length). now rewrite seq_nth by lia.
Qed.
Lemma nth_error_ext {A} (l1 l2 : list A) : (forall i, nth_error l1 i = nth_error l2 i) -> l1 = l2.
Proof.
  revert l2; induction l1 as [|a l1 IH]; intros [|b l2] H; auto; try (specialize (H 0); discriminate).
  f_equal; [specialize (H 0); cbn in H; congruence|]. apply IH. intros i. exact (H (S i)).
Qed.
Lemma states_eq {A B} (f : A -> B) (l : list A) (g : nat -> B) P : length l = P ->
  (forall q, q < P -> exists s, nth_error l q = Some s /\ f s = g q) -> map f l = map g (seq 0 P).
Proof.
  intros L H. apply nth_error_ext. intros q. destruct (Nat.lt_ge_cases q P) as [Hq|Hq].
  - destruct (H q Hq) as (s & E & F). rewrite (map_nth_error f _ _ E). rewrite F. symmetry. apply map_nth_error.
    rewrite (nth_error_nth' _ 0) by (now rewrite seq_length). now rewrite seq_nth by lia.
  - rewrite !(proj2 (nth_error_None _ _)); auto; rewrite map_length; try rewrite seq_length; lia.
Qed.
Lemma exec_len {S M} (G : list (event S M)) : forall s, length (exec s G) = length s.
Proof.
  induction G as [|e G IH]; intros s; [reflexivity|]. unfold exec; cbn [fold_left]. fold (exec (exec1 s e) G). rewrite IH.
  unfold exec1. destruct (nth_error s (e_src e)), (nth_error s (e_dst e)); auto. now rewrite !upd_length.
Qed.

Lemma sym_final n Xs k c : (forall a b, dst a b = dst b a) -> lens Xs = counts_of n (length Xs) ->
  steps k (sym_start zero metric n Xs) c -> final c ->
  net c = [] /\ map (@c_d R V) (st c) = map (fun Xr => map (fun a => map (dst a) (glob Xs)) Xr) Xs.
Proof.
  intros Hsym HX Hst Hf. rewrite sym_initial in Hst.
  assert (L : length (map (fun r => start_state zero metric n (length Xs) r (nth r Xs []) (nth r Xs [])) (seq 0 (length Xs))) = length Xs)
    by now rewrite map_length, seq_length.
  destruct (sched_deterministic (sym_ok zero metric n (length Xs)) L Hst Hf) as (E & N). split; [exact N|]. rewrite E.
  rewrite <- (map_nth_seq Xs []) at 3. rewrite map_map. apply states_eq; [now rewrite exec_len|].
  intros q Hq.
  assert (Nq : nth_error (map (fun r => start_state zero metric n (length Xs) r (nth r Xs []) (nth r Xs [])) (seq 0 (length Xs))) q = Some (start_state zero metric n (length Xs) q (nth q Xs []) (nth q Xs []))).
  { exact (nth_error_map_seq' (fun r => start_state zero metric n (length Xs) r (nth r Xs []) (nth r Xs [])) (length Xs) q Hq). }
  assert (Ok : forall q' s', nth_error (map (fun r => start_state zero metric n (length Xs) r (nth r Xs []) (nth r Xs [])) (seq 0 (length Xs))) q' = Some s' ->
     sends_ok (msym dst (length Xs) Xs) q' s' (proj q' (sym_plan zero metric n (length Xs)))).
  { intros q' s' H. apply nth_error_map_seq in H. destruct H as (Hq' & ->). rewrite proj_sym by auto.
    now apply (sym_local zero dst metric Hmetric Hsym n (length Xs) Xs HX q' Hq'). }
  pose proof (exec_oracle (msym dst (length Xs) Xs) (sym_ok zero metric n (length Xs)) _ L Ok _ Nq) as X.
  eexists; split; [exact X|]. rewrite proj_sym by auto.
  now apply (sym_local zero dst metric Hmetric Hsym n (length Xs) Xs HX q Hq).
Qed.

Lemma pair_final n Xs Ys k c : length Ys = length Xs -> lens Ys = counts_of n (length Ys) ->
  steps k (pair_start zero metric n Xs Ys) c -> final c ->
  net c = [] /\ map (@c_d R V) (st c) = map (fun Xr => map (fun a => map (dst a) (glob Ys)) Xr) Xs.
Proof.
  intros HL HY Hst Hf. rewrite HL in HY. rewrite pair_initial in Hst.
  assert (L : length (map (fun r => start_state zero metric n (length Xs) r (nth r Xs []) (nth r Ys [])) (seq 0 (length Xs))) = length Xs)
    by now rewrite map_length, seq_length.
  destruct (sched_deterministic (pair_ok metric n (length Xs)) L Hst Hf) as (E & N). split; [exact N|]. rewrite E.
  rewrite <- (map_nth_seq Xs []) at 3. rewrite map_map. apply states_eq; [now rewrite exec_len|].
  assert (Loc : forall q, q < length Xs ->
     sends_ok (mpair Ys) q (start_state zero metric n (length Xs) q (nth q Xs []) (nth q Ys [])) (pair_prog metric n (length Xs) q) /\
     c_d (lrun (mpair Ys) q (start_state zero metric n (length Xs) q (nth q Xs []) (nth q Ys [])) (pair_prog metric n (length Xs) q)) = map (fun a => map (dst a) (glob Ys)) (nth q Xs [])).
  { intros q Hq. destruct (pair_local zero dst metric Hmetric n (length Xs) Xs Ys HY q (length Xs - 1) Hq ltac:(lia)) as (S1 & done & G & Dq & Di).
    split; [exact S1|]. apply (all_done zero dst n (length Xs) Xs Ys HY q done _ G). intros p Hp.
    destruct (Nat.eq_dec p q) as [->|Np]; [exact Dq|].
    assert (E2 : p = sndr (length Xs) q (if p <=? q then q - p else q + length Xs - p)).
    { unfold sndr. destruct (Nat.leb_spec p q); rewrite modsub by lia; match goal with |- context [?a <=? ?b] => destruct (Nat.leb_spec a b) end; lia. }
    rewrite E2. apply Di. destruct (Nat.leb_spec p q); lia. }
  intros q Hq.
  assert (Nq : nth_error (map (fun r => start_state zero metric n (length Xs) r (nth r Xs []) (nth r Ys [])) (seq 0 (length Xs))) q = Some (start_state zero metric n (length Xs) q (nth q Xs []) (nth q Ys []))).
  { exact (nth_error_map_seq' (fun r => start_state zero metric n (length Xs) r (nth r Xs []) (nth r Ys [])) (length Xs) q Hq). }
  assert (Ok : forall q' s', nth_error (map (fun r => start_state zero metric n (length Xs) r (nth r Xs []) (nth r Ys [])) (seq 0 (length Xs))) q' = Some s' ->
     sends_ok (mpair Ys) q' s' (proj q' (pair_plan metric n (length Xs)))).
  { intros q' s' H. apply nth_error_map_seq in H. destruct H as (Hq' & ->). rewrite proj_pair by auto. now apply Loc. }
  pose proof (exec_oracle (mpair Ys) (pair_ok metric n (length Xs)) _ L Ok _ Nq) as X.
  eexists; split; [exact X|]. rewrite proj_pair by auto. now apply Loc.
Qed.
End Final.
