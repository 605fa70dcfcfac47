(** Random arrays do not depend on the layout (C27). *)
From Verif Require Import Base BaseLemmas TensorSpec TensorLemmas NdSpec NdLemmas LayoutModel LayoutProofs DtypeModel DtypeProofs3 OpsModel ShapeModel RandSpec RandModel RandProofs RandProofs2 RandProofs3 ShapeProofs6.
Open Scope Z_scope.

Section Main.
Variables (b : Z) (F : Z * Z -> Z * Z) (c : Z) (shape : list Z) (split : option nat) (P : nat).
Hypothesis Hsh : Forall (fun n => 0 < n) shape.
Hypothesis Hsp : match split with Some s => (s < length shape)%nat | None => True end.
Hypothesis HP : (0 < P)%nat.
Let St := stream b (fun x y => F (x, y)) c.

Definition rlocal r := mk_arr (lshape_of shape split P r)
             (fun idx => nth (Z.to_nat (ravel (lshape_of shape split P r) idx))
                             (map St (zrange (spos shape split P r) (slen shape split P r))) 0).
Lemma lshape_nonneg r : Forall (fun n => 0 <= n) (lshape_of shape split P r).
Proof.
  assert (G : Forall (fun n => 0 <= n) shape) by (revert Hsh; apply Forall_impl; lia).
  destruct split as [s|]; cbn; auto. apply Forall_forall. intros x Hx. apply (In_nth _ _ 0) in Hx as (k & Hk & <-).
  rewrite upd_length in Hk. destruct (Nat.eq_dec k s) as [->|].
  - rewrite upd_same by auto. rewrite (map_nth Z.of_nat _ 0%nat). lia.
  - rewrite upd_other by auto. rewrite Forall_nth in G. now apply G.
Qed.
Lemma rlocal_dat r idx : in_bounds (lshape_of shape split P r) idx ->
  adat (rlocal r) idx = St (spos shape split P r + dot idx (cstrides (lshape_of shape split P r))).
Proof.
  intros Hi. cbn [adat rlocal]. pose proof (dot_bounds _ _ Hi) as B. rewrite (lshape_prod shape split P Hsh Hsp HP r) in B.
  rewrite nth_indep with (d' := St 0) by (rewrite map_length, zrange_length; unfold ravel; lia).
  rewrite map_nth. unfold ravel. rewrite zrange_nth by auto. auto.
Qed.
Lemma flat_rlocal r : flat (rlocal r) = map St (zrange (spos shape split P r) (slen shape split P r)).
Proof.
  unfold flat. cbn [ash rlocal].
  rewrite (map_ext_in _ (fun idx => St (spos shape split P r + dot idx (cstrides (lshape_of shape split P r))))).
  2:{ intros idx Hi. apply in_row_major in Hi. now apply rlocal_dat. }
  rewrite <- (lshape_prod shape split P Hsh Hsp HP r). unfold zrange. rewrite <- (cstrides_offsets _ (lshape_nonneg r)).
  rewrite !map_map. auto.
Qed.
Lemma concat_flat : split <> None ->
  concat (map (fun r => flat (rlocal r)) (seq 0 P)) = map St (zr (zprod shape)).
Proof.
  intros HN. rewrite (map_ext _ _ flat_rlocal).
  assert (K : forall k, (k <= P)%nat ->
    concat (map (fun r => map St (zrange (spos shape split P r) (slen shape split P r))) (seq 0 k)) = map St (zr (spos shape split P k))).
  { induction k as [|k IH]; intros Hk.
    - destruct split; [|easy]. cbn. now rewrite Z.mul_0_r.
    - rewrite seq_S, map_app, concat_app, IH by lia. cbn [Nat.add map concat]. rewrite app_nil_r.
      rewrite (spos_S shape split P) by (auto; lia). rewrite zr_app, map_app by (apply spos_nonneg || apply slen_nonneg; auto).
      reflexivity. }
  rewrite K by lia. now rewrite (spos_total shape split P Hsh Hsp HP HN).
Qed.
Hypothesis Hb : 24 <= b.
Hypothesis Hc : 0 <= c.
Hypothesis HT : zprod shape <= 16777216.
Hypothesis Hcarry : forall r, (r < P)%nat ->
  c mod 2 ^ b + (spos shape split P r + slen shape split P r + 1) / 2 <> 2 ^ b.

Lemma random_words_ok r : (r < P)%nat ->
  random_words b F c shape split r P =
  Ok (mk_arr (lshape_of shape split P r)
             (fun idx => nth (Z.to_nat (ravel (lshape_of shape split P r) idx))
                             (map St (zrange (spos shape split P r) (slen shape split P r))) 0),
      (c + (zprod shape + 1) / 2) mod 2 ^ 128).
Proof.
  intros Hr. unfold random_words, counter_sequence.
  rewrite (local_range_ok shape split P Hsh Hsp HP r _ Hr HT). cbn [bind].
  set (lo := spos shape split P r). set (e := slen shape split P r).
  pose proof (spos_nonneg shape split P Hsh Hsp HP r) as NL. pose proof (slen_nonneg shape split P Hsh Hsp HP r) as NE.
  pose proof (spos_end shape split P Hsh Hsp HP r Hr) as NH. pose proof (Hcarry r Hr) as HC. fold lo e in NL, NE, NH, HC.
  assert (PB : 16777216 <= 2 ^ b) by (change 16777216 with (2 ^ 24); apply Z.pow_le_mono_r; lia).
  rewrite values_ok; try lia.
  2:{ unfold slice_lo, slice_hi; cbn [fst snd].
      destruct (Z.eqb_spec (lo mod 2) 0); destruct (Z.eqb_spec ((lo + e) mod 2) 0); cbn [negb]; lia. }
  replace (2 * (lo / 2) + slice_lo (negb (lo mod 2 =? 0), negb ((lo + e) mod 2 =? 0))) with lo
    by (unfold slice_lo; cbn [fst]; destruct (Z.eqb_spec (lo mod 2) 0); cbn [negb]; lia).
  replace (2 * ((lo + e + 1) / 2 - lo / 2) - slice_lo (negb (lo mod 2 =? 0), negb ((lo + e) mod 2 =? 0))
            - slice_hi (negb (lo mod 2 =? 0), negb ((lo + e) mod 2 =? 0))) with e
    by (unfold slice_lo, slice_hi; cbn [fst snd]; destruct (Z.eqb_spec (lo mod 2) 0); destruct (Z.eqb_spec ((lo + e) mod 2) 0); cbn [negb]; lia).
  rewrite map_length, zrange_length, (lshape_prod shape split P Hsh Hsp HP r), Z2Nat.id by auto.
  fold e. rewrite Z.eqb_refl. f_equal. f_equal.
  rewrite fl32_id by lia. change (2 ^ 128 - 1) with (Z.ones 128). rewrite Z.land_ones by lia. auto.
Qed.

End Main.

Lemma random_represents b F c shape split P : 
  Forall (fun n => 0 < n) shape -> (0 < P)%nat ->
  (split = None \/ (split = Some 0%nat /\ shape <> [])) ->
  let cnts := match split with None => repeat 0 P | Some s => map Z.of_nat (counts_of (Z.to_nat (nth s shape 0)) P) end in
  represents (fun idx => stream b (fun x y => F (x, y)) c (dot idx (cstrides shape))) shape split cnts
             (map (rlocal b F c shape split P) (seq 0 P)).
Proof.
  intros Hsh HP HS cnts. unfold represents.
  assert (G : Forall (fun n => 0 <= n) shape) by (revert Hsh; apply Forall_impl; lia).
  split. { unfold cnts. rewrite map_length, seq_length. destruct split; [now rewrite map_length, counts_of_length|now rewrite repeat_length]. }
  split; [auto|].
  destruct HS as [->|[-> HN]].
  - intros t Ht. apply in_map_iff in Ht as (r & <- & _). split; [reflexivity|]. intros idx Hi.
    rewrite rlocal_dat; auto.
  - destruct shape as [|n sh]; [easy|]. inversion_clear Hsh as [|x y Hn Hs]. cbn [nth] in *. clear HN.
    destruct (counts_Z (Z.to_nat n) P HP) as [K1 K2].
    split; [cbn; lia|]. split; [apply Forall_forall; intros x Hx; apply in_map_iff in Hx as (y & <- & _); lia|]. split; [unfold cnts; cbn [nth]; rewrite K1; lia|].
    intros r t E.
    assert (Hr : (r < P)%nat).
    { assert (H : (r < length (map (rlocal b F c (n :: sh) (Some 0%nat) P) (seq 0 P)))%nat) by (apply nth_error_Some; congruence). now rewrite map_length, seq_length in H. }
    rewrite nth_error_map in E. rewrite (nth_error_nth' _ 0%nat) in E by (now rewrite seq_length). rewrite seq_nth in E by auto.
    cbn in E. injection E as <-. split; [reflexivity|]. intros idx Hi.
    rewrite rlocal_dat; [|now constructor|cbn; lia|assumption|assumption].
    f_equal. destruct idx as [|i idx']; [inversion Hi|]. unfold cnts, move_axis_idx, spos, lshape_of. cbn [upd nth dot cstrides zprod]. ring.
Qed.
