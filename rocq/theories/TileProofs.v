(** The exchange of tile: every rank ends up with its part of the repeated slabs. *)
From Verif Require Import Base BaseLemmas LayoutModel LayoutProofs NdSpec TensorSpec OpsModel RedistModel ShapeModel BinModel ReshapeModel RepeatSpec RepeatModel TileModel.
Local Open Scope nat_scope.

Section Exchange.
  Context {A : Type} (d : A) (xs : dist A) (n R : nat) (junk : nat -> nat -> A).
  Let P := length xs.
  Hypothesis HP : 0 < P.
  Hypothesis Hn : list_sum (lens xs) = n.
  Hypothesis H0 : 0 < nth 0 (lens xs) 0 \/ n = 0.

  Notation xst := (x_start xs). Notation xen := (x_end xs). Notation tst := (t_start xs n R). Notation ten := (t_end xs n R).
  Notation tc := (t_count xs n R). Notation cnt := (count xs n R).

  Lemma x_end_S j : j < P -> xen j = xst (S j).
  Proof. intros H. unfold x_end, x_start. rewrite psum_S; [lia|]. now rewrite lens_length. Qed.
  Lemma x_start_le j : xst j <= n.
  Proof. unfold x_start. rewrite <- Hn. apply psum_le_sum. Qed.
  Lemma x_end_le j : xen j <= n.
  Proof.
    destruct (le_lt_dec P j) as [L|L].
    - unfold x_end. rewrite (nth_overflow (lens xs)) by (rewrite lens_length; fold P; lia). pose proof (x_start_le j). lia.
    - rewrite x_end_S by auto. apply x_start_le.
  Qed.
  Lemma x_start_P : xst P = n.
  Proof. unfold x_start. rewrite psum_all by (rewrite lens_length; fold P; lia). exact Hn. Qed.
  Lemma t_end_S r : r < P -> ten r = tst (S r).
  Proof. intros H. unfold t_end, t_count, t_start. rewrite psum_S; [lia|]. now rewrite counts_of_length. Qed.
  Lemma t_end_le r : r < P -> ten r <= n * R.
  Proof. intros H. rewrite t_end_S by auto. unfold t_start. rewrite <- (counts_of_sum (n * R) (P := P)) at 2 by auto. apply psum_le_sum. Qed.
  Lemma t_start_P : tst P = n * R.
  Proof. unfold t_start. fold P. rewrite psum_all by (rewrite counts_of_length; lia). now apply counts_of_sum. Qed.

  Lemma count_val k j r : cnt k j r = hi xs n R k j r - lo xs n R k j r.
  Proof. unfold count. destruct (Nat.ltb_spec 0 (hi xs n R k j r - lo xs n R k j r)); lia. Qed.
  Lemma pieces_sum (a b : nat) (f : nat -> nat) m : a <= b -> (forall r, r < m -> f r <= f (S r)) ->
    list_sum (map (fun r => Nat.min b (f (S r)) - Nat.max a (f r)) (seq 0 m)) + Nat.max a (Nat.min b (f 0)) = Nat.max a (Nat.min b (f m)).
  Proof.
    intros Hab. induction m as [|m IH]; intros Hm.
    - cbn [seq map]. rewrite list_sum_nil. lia.
    - rewrite seq_S, map_app, list_sum_app. cbn [map Nat.add]. rewrite list_sum_cons, list_sum_nil.
      specialize (IH (fun r H => Hm r (Nat.lt_lt_succ_r _ _ H))). specialize (Hm m (Nat.lt_succ_diag_r m)). lia.
  Qed.
  (** what rank j sends in a repetition: all it has *)
  Lemma send_all k j : k < R -> j < P -> send_buf xs n R k j = nth j xs [].
  Proof.
    intros Hk Hj. unfold send_buf. replace (send_displ xs n R k j 0) with 0.
    2:{ unfold send_displ, lo, t_start. rewrite psum_0. destruct (Nat.ltb_spec 0 (hi xs n R k j 0 - Nat.max (xst j + n * k) 0)); lia. }
    replace (list_sum (map (cnt k j) (seq 0 (length xs)))) with (length (nth j xs [])); [apply sub_all|].
    rewrite <- lens_nth. fold P.
    assert (E := pieces_sum (xst j + n * k) (xen j + n * k) tst P ltac:(unfold x_end; lia) ltac:(intros r Hr; unfold t_start; apply psum_mono; lia)).
    rewrite (map_ext_in _ (cnt k j)) in E.
    2:{ intros r Hr. apply in_seq in Hr. rewrite count_val. unfold hi, lo. rewrite t_end_S by lia. lia. }
    rewrite t_start_P in E. pose proof (x_end_le j). unfold t_start in E. rewrite psum_0 in E. assert (n * S k <= n * R) by (apply Nat.mul_le_mono_l; lia). unfold x_end in *. lia.
  Qed.
  Definition right (k r q : nat) : A := nth (tst r + q - n * k) (glob xs) d.
  Lemma recv_sum k r : r < P -> list_sum (map (fun j => cnt k j r) (seq 0 P)) + Nat.max (tst r) (Nat.min (ten r) (n * k)) = Nat.max (tst r) (Nat.min (ten r) (n * k + n)).
  Proof.
    intros Hr. assert (E := pieces_sum (tst r) (ten r) (fun j => xst j + n * k) P ltac:(unfold t_end; lia) ltac:(intros j Hj; unfold x_start; pose proof (psum_mono (lens xs) (le_S _ _ (le_n j))); lia)).
    rewrite (map_ext_in _ (fun j => cnt k j r)) in E.
    2:{ intros j Hj. apply in_seq in Hj. rewrite count_val. unfold hi, lo. rewrite x_end_S by lia. lia. }
    rewrite x_start_P in E. replace (xst 0) with 0 in E by reflexivity. cbn [Nat.add] in E. now rewrite (Nat.add_comm n) in E.
  Qed.

  Lemma write_length (l rows : list A) a : a + length rows <= length l -> length (write l a rows) = length l.
  Proof. intros H. unfold write. rewrite !app_length, firstn_length, skipn_length. lia. Qed.
  Lemma write_nth (l rows : list A) a q : a + length rows <= length l ->
    nth q (write l a rows) d = if (a <=? q) && (q <? a + length rows) then nth (q - a) rows d else nth q l d.
  Proof.
    intros H. unfold write. assert (LF : length (firstn a l) = a) by (rewrite firstn_length; lia).
    destruct (Nat.leb_spec a q); cbn [andb].
    - rewrite app_nth2 by lia. rewrite LF. destruct (Nat.ltb_spec q (a + length rows)).
      + now rewrite app_nth1 by lia.
      + rewrite app_nth2 by lia. rewrite <- (firstn_skipn (a + length rows) l) at 2. rewrite app_nth2; rewrite firstn_length, Nat.min_l by lia; [|lia]. f_equal. lia.
    - rewrite app_nth1 by lia. rewrite <- (firstn_skipn a l) at 2. now rewrite app_nth1 by lia.
  Qed.

  (** Alltoallv: rows of copy k are right afterwards *)
  Lemma alltoallv_ok k r buf : k < R -> r < P -> length buf = tc r ->
    length (alltoallv xs n R k r buf) = tc r /\
    forall q, q < tc r -> n * k <= tst r + q < n * k + n -> nth q (alltoallv xs n R k r buf) d = right k r q.
  Proof.
    intros Hk Hr HB. unfold alltoallv. fold P.
    assert (X : forall m, m <= P -> let b := fold_left (fun b j => write b (recv_displ xs n R k j r) (sub (send_buf xs n R k j) (send_displ xs n R k j r) (cnt k j r))) (seq 0 m) buf in
      length b = tc r /\ forall q, q < tc r -> n * k <= tst r + q < n * k + xst m -> nth q b d = right k r q).
    { induction m as [|m IH]; intros Hm; cbn zeta.
      - split; [auto|]. intros q _ H. replace (xst 0) with 0 in H by reflexivity. lia.
      - rewrite seq_S, fold_left_app. cbn [fold_left Nat.add]. destruct (IH ltac:(lia)) as [L E]. cbn zeta in L, E.
        set (b := fold_left _ _ buf) in *. rewrite send_all by lia. set (rows := sub (nth m xs []) (send_displ xs n R k m r) (cnt k m r)).
        assert (HE := x_end_S m ltac:(lia)). assert (HEL := x_end_le m).
        assert (LM : length (nth m xs []) = xen m - xst m) by (rewrite <- lens_nth; unfold x_end; lia).
        assert (B : length rows = cnt k m r /\ recv_displ xs n R k m r + cnt k m r <= tc r).
        { unfold rows. unfold send_displ, recv_displ, count. destruct (Nat.ltb_spec 0 (hi xs n R k m r - lo xs n R k m r)) as [G|G].
          - rewrite sub_length; unfold hi, lo in *; unfold t_end in *; lia.
          - rewrite sub_0. cbn. lia. }
        destruct B as [B1 B2]. split; [rewrite write_length; lia|]. intros q Hq HQ. rewrite write_nth by lia.
        destruct (Nat.leb_spec (recv_displ xs n R k m r) q) as [L1|L1]; [destruct (Nat.ltb_spec q (recv_displ xs n R k m r + length rows)) as [L2|L2]|]; cbn [andb].
        + rewrite B1 in L2. unfold rows. rewrite sub_nth by lia. unfold right. unfold send_displ, recv_displ, count in *.
          destruct (Nat.ltb_spec 0 (hi xs n R k m r - lo xs n R k m r)) as [G|G]; [|lia]. unfold hi, lo, t_end in *.
          rewrite <- (@glob_nth _ xs m) by (fold P; lia). f_equal. change (psum (lens xs) m) with (xst m). lia.
        + apply E; [auto|]. rewrite B1 in L2. unfold recv_displ, count in *. destruct (Nat.ltb_spec 0 (hi xs n R k m r - lo xs n R k m r)) as [G|G]; unfold hi, lo, t_end in *; lia.
        + apply E; [auto|]. unfold recv_displ, count in *. destruct (Nat.ltb_spec 0 (hi xs n R k m r - lo xs n R k m r)) as [G|G]; unfold hi, lo, t_end in *; lia. }
    destruct (X P (le_n _)) as [L E]. split; [auto|]. intros q Hq HQ. apply E; [auto|]. rewrite x_start_P. lia.
  Qed.

  Lemma tile_rank_ok r : r < P -> length (tile_rank xs n R junk r) = tc r /\
    forall q, q < tc r -> nth q (tile_rank xs n R junk r) d = nth ((tst r + q) mod n) (glob xs) d.
  Proof.
    intros Hr. unfold tile_rank. set (t0 := map (junk r) (seq 0 (tc r))).
    assert (L0 : length t0 = tc r) by (unfold t0; now rewrite map_length, seq_length).
    assert (X : forall m, m <= R -> let st := fold_left (repetition xs n R r) (seq 0 m) (t0, t0) in
      length (fst st) = tc r /\ length (snd st) = tc r /\ forall q, q < tc r -> tst r + q < n * m -> nth q (fst st) d = nth ((tst r + q) mod n) (glob xs) d).
    { induction m as [|m IH]; intros Hm; cbn zeta.
      - cbn [seq fold_left fst snd]. repeat split; auto. intros; lia.
      - rewrite seq_S, fold_left_app. cbn [fold_left Nat.add]. destruct (IH ltac:(lia)) as (L & LB & E). cbn zeta in L, LB, E.
        set (st := fold_left _ _ (t0, t0)) in *. unfold repetition. cbn [fst snd]. fold P.
        destruct (alltoallv_ok m r (snd st) ltac:(lia) Hr LB) as [AL AE]. set (b := alltoallv xs n R m r (snd st)) in *.
        assert (RS := recv_sum m r Hr). set (len := list_sum (map (fun j => cnt m j r) (seq 0 P))) in *.
        (* where the part of copy m starts *)
        assert (RD : len <> 0 -> recv_displ xs n R m 0 r = Nat.max (tst r) (n * m) - tst r).
        { intros NL. unfold recv_displ. unfold hi, lo. replace (xst 0) with 0 by reflexivity. cbn [Nat.add].
          assert (x0 : xen 0 = nth 0 (lens xs) 0) by reflexivity. rewrite x0. unfold t_end in *. destruct H0 as [H1|H1]; [|lia].
          destruct (Nat.ltb_spec 0 (Nat.min (nth 0 (lens xs) 0 + n * m) (tst r + tc r) - Nat.max (n * m) (tst r))); lia. }
        assert (BB : recv_displ xs n R m 0 r + len <= tc r).
        { destruct (Nat.eq_dec len 0) as [E0|N0]; [|rewrite RD by auto; unfold t_end in *; lia]. rewrite E0.
          unfold recv_displ. destruct (Nat.ltb_spec 0 (hi xs n R m 0 r - lo xs n R m 0 r)); unfold hi, lo, t_end in *; lia. }
        assert (SL : length (sub b (recv_displ xs n R m 0 r) len) = len) by (apply sub_length; lia).
        split; [rewrite write_length; lia|]. split; [auto|]. intros q Hq HQ. rewrite write_nth by lia. rewrite SL.
        destruct (Nat.leb_spec (recv_displ xs n R m 0 r) q) as [L1|L1]; [destruct (Nat.ltb_spec q (recv_displ xs n R m 0 r + len)) as [L2|L2]|]; cbn [andb].
        + assert (NL : len <> 0) by lia. rewrite RD in * by auto. rewrite sub_nth by lia. replace (Nat.max (tst r) (n * m) - tst r + (q - (Nat.max (tst r) (n * m) - tst r))) with q by lia.
          rewrite AE; [|auto|unfold t_end in *; lia]. unfold right. f_equal. assert (B3 : n * m <= tst r + q < n * m + n) by (unfold t_end in *; lia).
          apply (Nat.mod_unique _ _ m); lia.
        + apply E; [auto|]. destruct (Nat.eq_dec len 0) as [E0|N0]; [unfold t_end in *; lia|]. rewrite RD in * by auto. unfold t_end in *. lia.
        + apply E; [auto|]. destruct (Nat.eq_dec len 0) as [E0|N0]; [unfold t_end in *; lia|]. rewrite RD in * by auto. unfold t_end in *. lia. }
    destruct (X R (le_n _)) as (L & _ & E). split; [auto|]. intros q Hq. apply E; [auto|]. pose proof (t_end_le r Hr). unfold t_end in *. lia.
  Qed.
End Exchange.
