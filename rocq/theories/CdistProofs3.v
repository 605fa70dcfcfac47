(** One process of the ring, checked against the message oracle. *)
From Verif Require Import Base BaseLemmas LayoutModel LayoutProofs SchedModel SchedProofs CdistModel CdistProofs CdistProofs2.

Section Local.
Context {R V : Type}.
Variable zero : V.
Variable dst : R -> R -> V.
Variable metric : list R -> list R -> list (list V).
Definition tile (A B : list R) : list (list V) := map (fun a => map (dst a) B) A.
Hypothesis Hmetric : forall A B, metric A B = tile A B.
Variables n size : nat.
Variables Xs Ys : dist R.
Hypothesis HY : lens Ys = counts_of n size.
Notation X q := (nth q Xs []).
Notation Y q := (nth q Ys []).
Notation st := (cst R V).
Notation cm := (cmsg R V).

Lemma Ylen p : p < size -> length (Y p) = nth p (counts_of n size) 0.
Proof.
  intros Hp. rewrite <- HY. unfold lens. change 0 with (length (@nil R)). now rewrite map_nth.
Qed.
Lemma Ysize : length Ys = size.
Proof. rewrite <- (counts_of_length n size), <- HY. unfold lens. now rewrite map_length. Qed.

Definition blk (done : nat -> bool) (a : R) (p : nat) : list V :=
  if done p then map (dst a) (Y p) else repeat zero (length (Y p)).
Definition rowof (done : nat -> bool) (a : R) : list V := concat (map (blk done a) (seq 0 size)).
Lemma blk_len done a p : length (blk done a p) = length (Y p).
Proof. unfold blk. destruct (done p); [apply map_length|apply repeat_length]. Qed.

Lemma blks_len done a k : k <= size -> length (concat (map (blk done a) (seq 0 k))) = psum (counts_of n size) k.
Proof.
  induction k as [|k IH]; intros Hk; [reflexivity|]. rewrite seq_S, map_app, concat_app, app_length, IH by lia.
  cbn [map concat plus]. rewrite app_nil_r, blk_len, Ylen by lia. rewrite psum_S by (rewrite counts_of_length; lia). reflexivity.
Qed.
Lemma row_split done a p : p < size -> rowof done a =
  concat (map (blk done a) (seq 0 p)) ++ blk done a p ++ concat (map (blk done a) (seq (p + 1) (size - p - 1))).
Proof.
  intros Hp. unfold rowof. replace size with (p + (1 + (size - p - 1))) at 1 by lia.
  rewrite !seq_app, !map_app, !concat_app. cbn [plus seq map concat]. rewrite app_nil_r. now rewrite Nat.add_1_r.
Qed.
Lemma cols_val p : p < size -> cols n size p = (psum (counts_of n size) p, psum (counts_of n size) (p + 1)).
Proof.
  intros Hp. unfold cols. rewrite displs_from_nth by (rewrite counts_of_length; lia). f_equal.
  destruct (Nat.eqb_spec p (size - 1)) as [E|E].
  - replace (p + 1) with size by lia. rewrite psum_all by (rewrite counts_of_length; lia). now rewrite counts_of_sum by lia.
  - rewrite displs_from_nth by (rewrite counts_of_length; lia). reflexivity.
Qed.

Definition mark (done : nat -> bool) (p i : nat) : bool := if Nat.eqb i p then true else done i.
Lemma set_row done a p : p < size ->
  firstn (fst (cols n size p)) (rowof done a) ++ map (dst a) (Y p) ++ skipn (snd (cols n size p)) (rowof done a) = rowof (mark done p) a.
Proof.
  intros Hp. rewrite cols_val by lia. cbn [fst snd]. rewrite (row_split done a p), (row_split (mark done p) a p) by lia.
  f_equal; [|f_equal].
  - rewrite <- (blks_len done a p) by lia. rewrite firstn_app, firstn_all, Nat.sub_diag. cbn [firstn]. rewrite app_nil_r.
    f_equal. apply map_ext_in. intros i Hi. apply in_seq in Hi. unfold blk, mark. destruct (Nat.eqb_spec i p); [lia|reflexivity].
  - unfold blk, mark. now rewrite Nat.eqb_refl.
  - rewrite app_assoc, skipn_app. 
    assert (L : length (concat (map (blk done a) (seq 0 p)) ++ blk done a p) = psum (counts_of n size) (p + 1)).
    { rewrite app_length, blks_len, blk_len, Ylen, Nat.add_1_r by lia. rewrite psum_S by (rewrite counts_of_length; lia). reflexivity. }
    rewrite L, Nat.sub_diag, <- L, skipn_all. cbn [skipn app]. f_equal. apply map_ext_in. intros i Hi. apply in_seq in Hi.
    unfold blk, mark. destruct (Nat.eqb_spec i p); [lia|reflexivity].
Qed.
Lemma combine_map2 {A B C} (f : A -> B) (g : A -> C) l : combine (map f l) (map g l) = map (fun a => (f a, g a)) l.
Proof. induction l; cbn; congruence. Qed.
Lemma set_tile done A p : p < size ->
  set_block n size p (map (rowof done) A) (tile A (Y p)) = map (rowof (mark done p)) A.
Proof.
  intros Hp. unfold set_block, setcols, tile. rewrite combine_map2, map_map. apply map_ext. intros a. cbn [fst snd].
  now apply set_row.
Qed.

(** the invariant of a process *)
Definition good (q : nat) (done : nat -> bool) (s : st) : Prop :=
  c_x s = X q /\ c_y s = Y q /\ c_d s = map (rowof done) (X q).

Lemma psum_n : 0 < size -> psum (counts_of n size) size = n.
Proof. intros. rewrite psum_all by (rewrite counts_of_length; lia). now apply counts_of_sum. Qed.
Lemma zeros_row a : 0 < size -> repeat zero n = rowof (fun _ => false) a.
Proof.
  intros Hs. unfold rowof. rewrite <- psum_n at 1 by lia. 
  assert (G : forall k, k <= size -> repeat zero (psum (counts_of n size) k) = concat (map (blk (fun _ => false) a) (seq 0 k))).
  { induction k as [|k IH]; intros Hk; [reflexivity|]. rewrite seq_S, map_app, concat_app, <- IH by lia.
    cbn [map concat plus]. rewrite app_nil_r. unfold blk. rewrite Ylen by lia. rewrite psum_S by (rewrite counts_of_length; lia).
    apply repeat_app. }
  now apply G.
Qed.
Lemma start_good q : q < size -> good q (mark (fun _ => false) q) (start_state zero metric n size q (X q) (Y q)).
Proof.
  intros Hq. unfold good, start_state; cbn [c_x c_y c_d]. repeat split. rewrite Hmetric.
  rewrite <- set_tile by lia. f_equal. apply map_ext. intros a. apply zeros_row; lia.
Qed.

Lemma calc_good q done s p : p < size -> good q done s ->
  let s' := calc metric n size p (store_moving s (Rows V (Y p))) in
  good q (mark done p) s' /\ c_dij s' = tile (X q) (Y p).
Proof.
  intros Hp (H1 & H2 & H3). unfold good, calc, store_moving; cbn. rewrite Hmetric, H1, H2, H3. repeat split.
  now apply set_tile.
Qed.

(** the forward step *)
Section Fwd.
Variable m : nat -> nat -> nat -> cm.
Variables q i : nat.
Hypothesis Hq : q < size.
Hypothesis Hi : 1 <= i < size.
Hypothesis M1 : m (sndr size q i) q i = Rows V (Y (sndr size q i)).
Hypothesis M2 : m q (rcvr size q i) i = Rows V (Y q).

Lemma ring_run s : lrun m q s (ring_step metric n size q i) = calc metric n size (sndr size q i) (store_moving s (Rows V (Y (sndr size q i)))).
Proof.
  unfold ring_step. fold (sndr size q i). fold (rcvr size q i).
  destruct (negb (q / i =? 0)); cbn [lrun snd]; now rewrite M1.
Qed.
Lemma ring_sends s : c_y s = Y q -> sends_ok m q s (ring_step metric n size q i).
Proof.
  intros Hs. unfold ring_step. fold (sndr size q i). fold (rcvr size q i). unfold send_rows.
  destruct (negb (q / i =? 0)); cbn [sends_ok fst snd].
  - rewrite M1. cbn. rewrite Hs, M2. auto.
  - rewrite Hs, M2. auto.
Qed.
End Fwd.

(** the backward step *)
Section Bwd.
Hypothesis Hsym : forall a b, dst a b = dst b a.
Hypothesis HXY : Ys = Xs.

Lemma transp_tile A B : transp zero (length B) (tile A B) = map (fun b => map (fun a => dst a b) A) B.
Proof.
  unfold transp, tile. 
  transitivity (map (fun j => map (fun a => nth j (map (dst a) B) zero) A) (seq 0 (length B))).
  { apply map_ext. intros j. now rewrite map_map. }
  transitivity (map (fun j => nth j (map (fun b => map (fun a => dst a b) A) B) []) (seq 0 (length B))).
  - apply map_ext_in. intros j Hj. apply in_seq in Hj.
    destruct (nth_error B j) as [b|] eqn:E; [|apply nth_error_None in E; lia].
    pose proof (map_nth_error (fun b0 => map (fun a => dst a b0) A) j B E) as E2.
    rewrite (nth_error_nth _ j [] E2).
    apply map_ext. intros a. apply nth_error_nth. now apply map_nth_error.
  - replace (length B) with (length (map (fun b => map (fun a => dst a b) A) B)) at 1 by apply map_length. apply map_nth_seq.
Qed.
Lemma sym_good q done s p : p < size -> q < size -> good q done s ->
  good q (mark done p) (set_sym zero n size p (store_sym s (Tile R (tile (X p) (Y q))))).
Proof.
  intros Hp Hq (H1 & H2 & H3). unfold good, set_sym, store_sym; cbn [c_x c_y c_d c_sym]. rewrite H1, H2, H3. repeat split.
  replace (length (X q)) with (length (Y q)) by now rewrite HXY. rewrite transp_tile.
  rewrite <- set_tile by lia. f_equal. unfold tile. rewrite HXY. apply map_ext. intros b. apply map_ext. intros a. apply Hsym.
Qed.

Section One.
Variable m : nat -> nat -> nat -> cm.
Variables q i : nat.
Hypothesis Hq : q < size.
Hypothesis M1 : m (rcvr size q i) q i = Tile R (tile (X (rcvr size q i)) (Y q)).
Hypothesis M2 : m q (sndr size q i) i = Tile R (tile (X q) (Y (sndr size q i))).
Lemma back_run s : lrun m q s (back_step R zero n size q i) = set_sym zero n size (rcvr size q i) (store_sym s (Tile R (tile (X (rcvr size q i)) (Y q)))).
Proof.
  unfold back_step. fold (sndr size q i). fold (rcvr size q i).
  destruct (negb (q / i =? 0)); cbn [lrun snd]; now rewrite M1.
Qed.
Lemma back_sends s : c_dij s = tile (X q) (Y (sndr size q i)) -> sends_ok m q s (back_step R zero n size q i).
Proof.
  intros Hs. unfold back_step. fold (sndr size q i). fold (rcvr size q i). unfold send_dij.
  destruct (negb (q / i =? 0)); cbn [sends_ok fst snd].
  - rewrite M1. cbn. rewrite Hs, M2. auto.
  - rewrite Hs, M2. auto.
Qed.
End One.
End Bwd.

(** all blocks known *)
Lemma all_done q done s : good q done s -> (forall p, p < size -> done p = true) ->
  c_d s = map (fun a => map (dst a) (glob Ys)) (X q).
Proof.
  intros (_ & _ & H) D. rewrite H. apply map_ext. intros a. unfold rowof, glob. rewrite concat_map.
  rewrite <- (map_nth_seq (map (map (dst a)) Ys) []), map_length, Ysize. f_equal. apply map_ext_in. intros p Hp. apply in_seq in Hp.
  unfold blk. rewrite D by lia. symmetry. exact (map_nth (map (dst a)) Ys [] p).
Qed.

(** the whole pair program *)
Definition mpair (src dest tag : nat) : cm := Rows V (Y src).
Lemma pair_local q k : q < size -> k < size ->
  let s0 := start_state zero metric n size q (X q) (Y q) in
  let l := flat_map (fun i => ring_step metric n size q i) (seq 1 k) in
  sends_ok mpair q s0 l /\ exists done, good q done (lrun mpair q s0 l) /\ done q = true /\
  forall i, 1 <= i <= k -> done (sndr size q i) = true.
Proof.
  intros Hq. induction k as [|k IH]; intros Hk.
  - split; [exact I|]. exists (mark (fun _ => false) q). split; [now apply start_good|]. split; [unfold mark; now rewrite Nat.eqb_refl|]. intros; lia.
  - destruct (IH ltac:(lia)) as (S1 & done & G & Dq & Di). cbn zeta. rewrite seq_S, flat_map_app. cbn [flat_map plus]. rewrite app_nil_r.
    set (s0 := start_state zero metric n size q (X q) (Y q)) in *.
    set (l := flat_map (fun i => ring_step metric n size q i) (seq 1 k)) in *. change (1 + k) with (S k).
    rewrite sends_app, lrun_app. rewrite ring_run by (try lia; reflexivity).
    destruct (calc_good q done (lrun mpair q s0 l) (sndr size q (S k)) (sndr_lt _ _ _ Hq) G) as (G' & _).
    split; [split; [exact S1|]|].
    + apply ring_sends; try lia; try reflexivity. apply G.
    + exists (mark done (sndr size q (S k))). split; [exact G'|]. unfold mark. split.
      * destruct (Nat.eqb_spec q (sndr size q (S k))); auto.
      * intros i Hi. destruct (Nat.eqb_spec (sndr size q i) (sndr size q (S k))); auto.
        apply Di. destruct (Nat.eq_dec i (S k)); [congruence|lia].
Qed.
End Local.
