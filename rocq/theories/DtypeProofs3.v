(** Alltoallw types and resplit from one axis to another. *)
From Verif Require Import Base BaseLemmas TensorSpec TensorLemmas DtypeModel DtypeProofs DtypeProofs2.
From Coq Require Import Permutation.
Open Scope Z_scope.

Lemma skipn_nth_cons (l : list Z) i : (i < length l)%nat -> skipn i l = nth i l 0 :: skipn (S i) l.
Proof. revert i; induction l as [|x l IH]; intros [|i] H; simpl in *; try lia; auto. apply IH; lia. Qed.

Section RecVec.
Variables (w : Z) (st sizes : list Z).
Hypothesis L : length sizes = length st.

Definition LInv (i : nat) (t : dt) : Prop :=
  ext t = w * nth i st 0 /\ disps t = offsets_of w (skipn (S i) st) (skipn (S i) sizes).

Lemma loop_inv i : forall fuel cur t, (i < length st)%nat ->
  recvec_loop fuel w st sizes i false cur = Ok t -> LInv i cur -> LInv 0 t.
Proof.
  induction i as [|i IH]; intros [|fuel] cur t Hi E HI; cbn [recvec_loop] in E; try congruence.
  - cbn [andb] in E. destruct (create_vector _ 1 1 cur) as [v|] eqn:Ev; cbn [bind] in E; [|congruence].
    eapply IH in E; [exact E|lia|]. destruct HI as [E1 E2]. split; [reflexivity|].
    cbn [disps commit create_resized]. rewrite (vector1 _ _ _ _ Ev), E1, E2.
    rewrite (skipn_nth_cons st (S i)) by lia. rewrite (skipn_nth_cons sizes (S i)) by lia. rewrite offsets_cons.
    apply flat_map_ext_in. intros j _. f_equal. lia.
Qed.

Lemma vector_block c b s v : create_vector c b s (base_type w) = Ok v -> disps v = offsets_of w [s; 1] [c; b].
Proof.
  unfold create_vector. destruct (_ && _); intros E; inversion E; subst; clear E. cbn [disps ext base_type].
  rewrite offsets_cons. apply flat_map_ext_in. intros i _.
  unfold offsets_of. cbn [row_major]. unfold shift. cbn [map].
  rewrite (flat_map_single (fun j => (i * s + j) * w + 0)), (flat_map_single (fun j => [j])), !map_map.
  apply map_ext. intros j. cbn [dot]. lia.
Qed.

(** The one case the count rule of L1750 gets wrong is excluded. *)
Definition lim_ok : Prop := ~ (length st = 2%nat /\ nth 1 st 0 = 1 /\ COUNT_LIMIT <= nth 0 st 0).

Lemma recvec_spec start t : (2 <= length st)%nat -> length start = length st -> lim_ok ->
  recursive_vectortype w st sizes start = Ok t ->
  buf_positions (if Nat.eqb (length sizes) 2 && (last st 0 =? 1) then 1 else hd 0 sizes) t =
  map (fun idx => w * dot (zadd start idx) st) (row_major sizes).
Proof.
  intros Hk Ls Hl. unfold recursive_vectortype.
  destruct (recvec_loop _ w st sizes _ true _) as [u|] eqn:E; cbn [bind]; [|congruence].
  intros X; inversion X; subst t; clear X.
  assert (Elast : last st 0 = nth (length st - 1) st 0).
  { clear. induction st as [|x l IH]; [reflexivity|]. destruct l as [|y l]; [reflexivity|].
    change (last (x :: y :: l) 0) with (last (y :: l) 0). rewrite IH. replace (length (x :: y :: l) - 1)%nat with (S (length (y :: l) - 1)) by (simpl; lia). reflexivity. }
  assert (G : forall c, buf_positions c u = offsets_of w st sizes ->
     buf_positions c (commit (create_hindexed1 (dot st start * w) u)) = map (fun idx => w * dot (zadd start idx) st) (row_major sizes)).
  { intros c Hc. transitivity (shift (dot st start * w) (buf_positions c u)).
    - unfold buf_positions. cbn [commit create_hindexed1 disps ext]. unfold shift at 3. rewrite map_flat_map.
      apply flat_map_ext_in. intros i _. unfold shift. rewrite !map_map. apply map_ext. intros; lia.
    - rewrite Hc. unfold offsets_of, shift. rewrite map_map. apply map_ext_in. intros idx Hidx.
      apply in_row_major, in_bounds_length in Hidx. rewrite dot_zadd by lia. rewrite (dot_comm st start). lia. }
  apply G; clear G.
  assert (INV : LInv 0 u -> buf_positions (hd 0 sizes) u = offsets_of w st sizes).
  { intros [I1 I2]. destruct st as [|s0 ss]; [simpl in Hk; lia|]. destruct sizes as [|n0 nn]; [simpl in L; lia|].
    cbn [skipn hd nth] in *. now apply buf_offsets. }
  cbn [recvec_loop] in E. destruct (length st - 1)%nat as [|k1] eqn:Ek; [lia|].
  assert (Hlen : length st = S (S k1)) by lia.
  rewrite andb_true_l in E.
  destruct (Z.eqb_spec (nth (S k1) st 0) 1) as [E1|E1]; cbn [andb] in E.
  - destruct (Z.ltb_spec (nth k1 st 0) COUNT_LIMIT) as [Hlt|Hge].
    + destruct (create_vector _ _ _ _) as [v|] eqn:Ev; cbn [bind] in E; [|congruence]. apply vector_block in Ev.
      destruct k1 as [|k2].
      * cbn [pred] in E. rewrite Hlen in E. cbn [recvec_loop] in E. inversion E; subst u; clear E.
        rewrite L, Hlen, Elast, E1. cbn [Nat.eqb andb]. rewrite Z.eqb_refl.
        destruct st as [|s0 [|s1 [|? ?]]]; simpl in Hlen; try lia. destruct sizes as [|n0 [|n1 [|? ?]]]; simpl in L; try lia.
        cbn [nth] in *. subst s1. unfold buf_positions. rewrite zr_1. cbn [flat_map commit create_resized disps ext].
        rewrite app_nil_r, Z.mul_0_l, shift_0. exact Ev.
      * cbn [pred] in E. eapply loop_inv in E; [|lia|].
        -- rewrite L, Hlen. destruct (Nat.eqb_spec (S (S (S k2))) 2); [lia|]. cbn [andb]. auto.
        -- split.
           ++ cbn [commit create_resized ext]. unfold pyget. destruct (Z.ltb_spec (Z.of_nat (S k2) - 1) 0); [lia|].
              replace (Z.to_nat (Z.of_nat (S k2) - 1)) with k2 by lia. reflexivity.
           ++ cbn [commit create_resized disps]. rewrite Ev.
              rewrite (skipn_nth_cons st (S k2)) by lia. rewrite (skipn_nth_cons st (S (S k2))) by lia.
              rewrite (skipn_nth_cons sizes (S k2)) by lia. rewrite (skipn_nth_cons sizes (S (S k2))) by lia.
              rewrite (skipn_all2 st) by lia. rewrite (skipn_all2 sizes) by lia. rewrite E1. reflexivity.
    + assert (k1 <> 0%nat) by (intros ->; apply Hl; auto).
      destruct (create_vector _ 1 _ _) as [v|] eqn:Ev; cbn [bind] in E; [|congruence].
      eapply loop_inv in E; [|lia|].
      * rewrite L, Hlen. destruct (Nat.eqb_spec (S (S k1)) 2); [lia|]. cbn [andb]. auto.
      * split; [reflexivity|]. cbn [commit create_resized disps]. rewrite (vector1 _ _ _ _ Ev).
        rewrite (skipn_nth_cons st (S k1)) by lia. rewrite (skipn_nth_cons sizes (S k1)) by lia.
        rewrite (skipn_all2 st) by lia. rewrite (skipn_all2 sizes) by lia. rewrite offsets_cons.
        apply flat_map_ext_in. intros j _. cbn [ext base_type disps]. unfold offsets_of. simpl. f_equal. lia.
  - destruct (create_vector _ 1 _ _) as [v|] eqn:Ev; cbn [bind] in E; [|congruence].
    eapply loop_inv in E; [|lia|].
    * rewrite Elast. destruct (Z.eqb_spec (nth (S k1) st 0) 1); [lia|]. rewrite andb_false_r. auto.
    * split; [reflexivity|]. cbn [commit create_resized disps]. rewrite (vector1 _ _ _ _ Ev).
      rewrite (skipn_nth_cons st (S k1)) by lia. rewrite (skipn_nth_cons sizes (S k1)) by lia.
      rewrite (skipn_all2 st) by lia. rewrite (skipn_all2 sizes) by lia. rewrite offsets_cons.
      apply flat_map_ext_in. intros j _. cbn [ext base_type disps]. unfold offsets_of. simpl. f_equal. lia.
Qed.

Lemma loop_ok i : forall fuel cur, (i < fuel)%nat -> (i < length sizes)%nat -> Forall (fun n => int_ok n = true) sizes ->
  exists t, recvec_loop fuel w st sizes i false cur = Ok t.
Proof.
  induction i as [|i IH]; intros [|fuel] cur Hf Hi Hs; try lia; cbn [recvec_loop andb]; [eauto|].
  destruct (vector_ok (nth (S i) sizes 0) 1 1 cur) as [v ->]; try reflexivity.
  { rewrite Forall_forall in Hs. apply Hs, nth_In. lia. }
  cbn [bind]. apply IH; auto; lia.
Qed.
Lemma recvec_ok start : (2 <= length st)%nat -> Forall (fun n => int_ok n = true) sizes ->
  Forall (fun n => int_ok n = true) st -> exists t, recursive_vectortype w st sizes start = Ok t.
Proof.
  intros Hk Hs Ht. unfold recursive_vectortype.
  assert (Hn : forall i, (i < length st)%nat -> int_ok (nth i sizes 0) = true /\ int_ok (nth i st 0) = true).
  { intros i Hi. rewrite Forall_forall in Hs, Ht. split; [apply Hs|apply Ht]; apply nth_In; lia. }
  destruct (length st - 1)%nat as [|k1] eqn:Ek; [lia|].
  cbn [recvec_loop]. rewrite andb_true_l.
  destruct (_ && _).
  - destruct (vector_ok (nth k1 sizes 0) (nth (S k1) sizes 0) (nth k1 st 0) (base_type w)) as [v ->]; try (apply Hn; lia).
    cbn [bind]. match goal with |- context [recvec_loop ?f w st sizes ?i false ?c] => destruct (loop_ok i f c) as [t ->] end; auto; try lia. cbn [bind]; eauto.
  - destruct (vector_ok (nth (S k1) sizes 0) 1 (nth (S k1) st 0) (base_type w)) as [v ->]; try (apply Hn; lia); auto.
    cbn [bind]. match goal with |- context [recvec_loop ?f w st sizes ?i false ?c] => destruct (loop_ok i f c) as [t ->] end; auto; try lia. cbn [bind]; eauto.
Qed.
End RecVec.

(** ** One peer of Alltoallw *)
Lemma nonpos_row_major sub : forallb (fun n => 0 <? n) sub = false -> row_major sub = [].
Proof.
  induction sub as [|n sub IH]; [discriminate|]. cbn [forallb row_major]. intros H.
  apply andb_false_iff in H. destruct H as [H|H].
  - rewrite zr_nonpos by lia. reflexivity.
  - rewrite IH by auto. cbn [map]. apply flat_map_nil.
Qed.

Lemma subarray_positions w lshape sub starts st t : length st = length lshape -> length sub = length lshape ->
  length starts = length lshape ->
  (forall idx, in_bounds sub idx -> in_bounds lshape (zadd starts idx)) ->
  is_contiguous lshape st = true ->
  create_subarray lshape sub starts (base_type w) = Ok t ->
  buf_positions 1 (commit t) = map (fun idx => w * dot (zadd starts idx) st) (row_major sub).
Proof.
  intros L1 L2 L3 Hin C. unfold create_subarray. destruct (_ && _); intros E; inversion E; subst; clear E.
  unfold buf_positions. rewrite zr_1. cbn [flat_map commit disps ext base_type]. rewrite app_nil_r, Z.mul_0_l, shift_0.
  unfold shift. cbn [map]. rewrite (flat_map_single (fun idx => w * dot (zadd starts idx) (cstrides lshape) + 0)).
  apply map_ext_in. intros idx Hi. apply in_row_major in Hi. rewrite (is_contig_dot lshape st) by auto. lia.
Qed.

Theorem a2aw_spec w st lshape sub starts cc t c :
  (2 <= length lshape)%nat -> length st = length lshape -> length sub = length lshape -> length starts = length lshape ->
  (forall idx, in_bounds sub idx -> in_bounds lshape (zadd starts idx)) ->
  (cc = true -> is_contiguous lshape st = true) -> lim_ok st ->
  a2aw_type w cc st (lshape, sub, starts) = Ok (t, c) ->
  buf_positions c t = map (fun idx => w * dot (zadd starts idx) st) (row_major sub).
Proof.
  intros Hk L1 L2 L3 Hin C Hl. unfold a2aw_type.
  destruct (forallb (fun n => 0 <? n) sub) eqn:Ep.
  - destruct (cc && _ && _ && _) eqn:Ec.
    + destruct (create_subarray _ _ _ _) as [u|] eqn:E; cbn [bind]; [|congruence].
      intros X; inversion X; subst; clear X. eapply subarray_positions; eauto.
      apply C. destruct cc; [reflexivity|discriminate Ec].
    + destruct (recursive_vectortype _ _ _ _) as [u|] eqn:E; cbn [bind]; [|congruence].
      intros X; inversion X; subst; clear X. apply recvec_spec; auto; lia.
  - intros X; inversion X; subst; clear X. rewrite (nonpos_row_major _ Ep). reflexivity.
Qed.
Theorem a2aw_ok w st lshape sub starts cc :
  (2 <= length st)%nat -> length sub = length st ->
  Forall (fun n => 0 <= n < COUNT_LIMIT) lshape -> Forall (fun n => 0 <= n < COUNT_LIMIT) sub ->
  Forall (fun n => 0 <= n < COUNT_LIMIT) starts -> Forall (fun n => 0 <= n < COUNT_LIMIT) st ->
  exists b, a2aw_type w cc st (lshape, sub, starts) = Ok b.
Proof.
  intros Hk L F1 F2 F3 F4. assert (HL := CL_val). unfold a2aw_type. destruct (forallb (fun n => 0 <? n) sub); [|eauto].
  assert (I : forall l, Forall (fun n => 0 <= n < COUNT_LIMIT) l -> Forall (fun n => int_ok n = true) l).
  { intros l Hl. eapply Forall_impl; [|exact Hl]. simpl; intros. apply int_ok_iff. lia. }
  destruct (cc && _ && _ && _).
  - unfold create_subarray.
    assert (B : forall l, Forall (fun n => 0 <= n < COUNT_LIMIT) l -> forallb int_ok l = true).
    { intros l Hl. apply forallb_forall. rewrite <- Forall_forall. auto. }
    rewrite !B by auto. cbn. eauto.
  - destruct (recvec_ok w st sub L starts) as [t ->]; auto. cbn. eauto.
Qed.

(** ** float32 tile bookkeeping is exact up to 2^24 *)
Lemma fl32_id z : 0 <= z <= 16777216 -> fl32 z = z.
Proof.
  intros H. unfold fl32. destruct (Z.ltb_spec z 16777216); auto. assert (z = 16777216) by lia. subst. reflexivity.
Qed.
Lemma fstarts_exact l : forall acc, Forall (fun n => 0 <= n) l -> 0 <= acc -> acc + zsum l <= 16777216 -> fstarts acc l = zdispls acc l.
Proof.
  induction l as [|c l IH]; intros acc H Ha Hs; [reflexivity|]. inversion H; subst. cbn [fstarts zdispls].
  pose proof (zsum_nonneg l ltac:(auto)). unfold zsum in *. cbn [fold_right] in Hs. rewrite fl32_id by lia. f_equal. apply IH; auto; lia.
Qed.

(** balanced counts *)
Definition zbal (n : Z) (P : nat) : list Z :=
  map (fun r => n / Z.of_nat P + (if Z.of_nat r <? n mod Z.of_nat P then 1 else 0)) (seq 0 P).
Lemma zbal_length n P : length (zbal n P) = P.
Proof. unfold zbal. now rewrite map_length, seq_length. Qed.
Lemma zsum_map_seq f k : zsum (map f (seq 0 (S k))) = zsum (map f (seq 0 k)) + f k.
Proof. rewrite seq_S, map_app, zsum_app. simpl. lia. Qed.
Lemma zbal_sum n P : (0 < P)%nat -> 0 <= n -> zsum (zbal n P) = n.
Proof.
  intros HP Hn. unfold zbal.
  assert (R : 0 <= n mod Z.of_nat P < Z.of_nat P) by (apply Z.mod_pos_bound; lia).
  set (q := n / Z.of_nat P) in *. set (r := n mod Z.of_nat P) in *.
  assert (E : n = Z.of_nat P * q + r) by (apply Z.div_mod; lia). clearbody q r.
  assert (G : forall k, zsum (map (fun x => q + (if Z.of_nat x <? r then 1 else 0)) (seq 0 k)) = Z.of_nat k * q + Z.min (Z.of_nat k) r).
  { induction k; [simpl; lia|]. rewrite zsum_map_seq, IHk. destruct (Z.ltb_spec (Z.of_nat k) r); lia. }
  rewrite G. lia.
Qed.
Lemma zbal_nonneg n P : 0 <= n -> Forall (fun k => 0 <= k) (zbal n P).
Proof.
  intros Hn. unfold zbal. apply Forall_forall. intros x Hx. apply in_map_iff in Hx. destruct Hx as [r [<- Hr]].
  apply in_seq in Hr. assert (0 <= n / Z.of_nat P) by (apply Z.div_pos; lia). destruct (_ <? _); lia.
Qed.
Lemma tile_dims_bal gshape split lmap P ax : ax <> split -> (0 < P)%nat -> 0 <= nth ax gshape 0 <= 16777216 ->
  tile_dims gshape split lmap P ax = zbal (nth ax gshape 0) P.
Proof.
  intros Hne HP Hb. unfold tile_dims, zbal. destruct (Nat.eqb_spec ax split); [lia|].
  apply map_ext_in. intros r Hr. apply in_seq in Hr.
  assert (0 <= nth ax gshape 0 / Z.of_nat P) by (apply Z.div_pos; lia).
  assert (nth ax gshape 0 / Z.of_nat P <= nth ax gshape 0) by (apply Z.div_le_upper_bound; nia).
  rewrite (fl32_id (nth ax gshape 0 / Z.of_nat P)) by lia.
  destruct (Z.ltb_spec (Z.of_nat r) (nth ax gshape 0 mod Z.of_nat P)); [|lia].
  pose proof (Z.div_mod (nth ax gshape 0) (Z.of_nat P) ltac:(lia)). apply fl32_id. nia.
Qed.

(** ** the exchange *)
Section Exchange.
Variable V : Type.
Variables (w : Z) (gshape : list Z) (s1 s2 : nat) (locals : list (tensor V)) (G : list Z -> V) (q : nat).
Variables (sdims tdims : nat -> list Z).
Let P := length locals.
Hypothesis Hw : 0 < w.
Hypothesis Hs1 : (s1 < length gshape)%nat.
Hypothesis Hs2 : (s2 < length gshape)%nat.
Hypothesis Hne : s1 <> s2.
Hypothesis Hg : Forall (fun n => 0 <= n <= 16777216) gshape.
Hypothesis Hq : (q < P)%nat.
Let cnt := map (fun t => nth s1 (tshape t) 0) locals.
Variable tgt : list Z.
Hypothesis Hcnt : Forall (fun n => 0 <= n) cnt.
Hypothesis Hsum : zsum cnt = nth s1 gshape 0.
Hypothesis Htgt : Forall (fun n => 0 <= n) tgt.
Hypothesis Htlen : length tgt = P.
Hypothesis Htsum : zsum tgt = nth s2 gshape 0.
Hypothesis Hsd1 : sdims s1 = cnt.
Hypothesis Hsd2 : sdims s2 = tgt.
Hypothesis Htd1 : tdims s1 = cnt.
Hypothesis Htd2 : tdims s2 = tgt.
Let dft : tensor V := MkT [] [] (fun _ => G []).
Hypothesis Hshape : forall t, In t locals ->
  tshape t = upd gshape s1 (nth s1 (tshape t) 0) /\ length (tstride t) = length gshape /\
  Forall (fun s => 0 <= s < COUNT_LIMIT) (tstride t).
Hypothesis Hdata : forall p idx, (p < P)%nat -> in_bounds (tshape (nth p locals dft)) idx ->
  read (tmem (nth p locals dft)) w (tstride (nth p locals dft)) idx = G (upd idx s1 (zsum (firstn p cnt) + nth s1 idx 0)).

Let rshape := upd gshape s2 (nth q tgt 0).
Let sub p := upd rshape s1 (nth p cnt 0).
Definition unit_at (k : nat) (x : Z) : list Z := upd (repeat 0 (length gshape)) k x.

Lemma len_cnt : length cnt = P. Proof. unfold cnt, P. apply map_length. Qed.
Lemma len_rshape : length rshape = length gshape. Proof. apply upd_length. Qed.
Lemma len_sub p : length (sub p) = length gshape. Proof. unfold sub. rewrite upd_length. apply len_rshape. Qed.
Lemma len_unit k x : length (unit_at k x) = length gshape.
Proof. unfold unit_at. rewrite upd_length. apply repeat_length. Qed.
Lemma nth_unit k x i : (k < length gshape)%nat -> nth i (unit_at k x) 0 = if Nat.eqb i k then x else 0.
Proof.
  intros Hk. unfold unit_at. destruct (Nat.eqb_spec i k) as [->|].
  - apply upd_same. now rewrite repeat_length.
  - rewrite upd_other by auto. apply nth_repeat.
Qed.
Lemma upd_comm {A} (l : list A) i j x y : i <> j -> upd (upd l i x) j y = upd (upd l j y) i x.
Proof. revert i j; induction l as [|h l IH]; intros [|i] [|j] H; simpl; auto; try lia. f_equal. apply IH. lia. Qed.

Lemma zadd_unit k x idx : (k < length gshape)%nat -> length idx = length gshape ->
  zadd (unit_at k x) idx = upd idx k (x + nth k idx 0).
Proof.
  intros Hk Li. apply nth_ext2 with 0.
  - rewrite zadd_length, upd_length, len_unit; auto. rewrite len_unit; auto.
  - rewrite zadd_length, len_unit by (rewrite len_unit; auto). intros i Hi.
    rewrite zadd_nth by (rewrite len_unit; auto). rewrite nth_unit by auto.
    destruct (Nat.eqb_spec i k) as [->|]; [rewrite upd_same by lia; auto|rewrite upd_other by auto; lia].
Qed.

Lemma lshape_of p : (p < P)%nat -> tshape (nth p locals dft) = upd gshape s1 (nth p cnt 0).
Proof.
  intros Hp. destruct (Hshape (nth p locals dft)) as [E _]; [apply nth_In; auto|].
  rewrite E at 1. f_equal. unfold cnt. now rewrite (nth_map' (fun t => nth s1 (tshape t) 0) locals p 0 dft).
Qed.
Lemma cnt_b p : (p < P)%nat -> 0 <= zsum (firstn p cnt) /\ 0 <= nth p cnt 0 /\ zsum (firstn p cnt) + nth p cnt 0 <= nth s1 gshape 0.
Proof. intros Hp. rewrite <- Hsum. pose proof (zsum_le cnt p Hcnt ltac:(rewrite len_cnt; auto)). lia. Qed.
Lemma tgt_b : 0 <= zsum (firstn q tgt) /\ 0 <= nth q tgt 0 /\ zsum (firstn q tgt) + nth q tgt 0 <= nth s2 gshape 0.
Proof. rewrite <- Htsum. pose proof (zsum_le tgt q Htgt ltac:(lia)). lia. Qed.
Lemma g_nth i : (i < length gshape)%nat -> 0 <= nth i gshape 0 <= 16777216.
Proof. intros. rewrite Forall_forall in Hg. apply Hg, nth_In; auto. Qed.

Lemma nth_sub p i : (i < length gshape)%nat -> nth i (sub p) 0 =
  if Nat.eqb i s1 then nth p cnt 0 else if Nat.eqb i s2 then nth q tgt 0 else nth i gshape 0.
Proof.
  intros Hi. unfold sub, rshape. destruct (Nat.eqb_spec i s1) as [->|]; [apply upd_same; rewrite upd_length; auto|].
  rewrite upd_other by auto. destruct (Nat.eqb_spec i s2) as [->|]; [apply upd_same; auto|apply upd_other; auto].
Qed.
Lemma upd_Forall {A} (Q : A -> Prop) l k x : Forall Q l -> Q x -> Forall Q (upd l k x).
Proof. intros H; revert k; induction H; intros [|k] Hx; simpl; constructor; auto. Qed.

Lemma small_lt l : Forall (fun n => 0 <= n <= 16777216) l -> Forall (fun n => 0 <= n < COUNT_LIMIT) l.
Proof. intros H. eapply Forall_impl; [|exact H]. simpl; intros. rewrite CL_val. lia. Qed.

Lemma sparams p : (p < P)%nat -> nth q (subarray_params gshape sdims s1 s2 p P) ([], [], []) =
  (upd gshape s1 (nth p cnt 0), sub p, unit_at s2 (zsum (firstn q tgt))).
Proof.
  intros Hp. unfold subarray_params. rewrite nth_map_seq by auto. rewrite Hsd1, Hsd2. f_equal; [f_equal|].
  - unfold sub, rshape. apply upd_comm. auto.
  - unfold unit_at. f_equal. rewrite fstarts_exact, zdispls_nth; auto; try lia. rewrite Htsum. apply g_nth; auto.
Qed.
Lemma rparams p : (p < P)%nat -> nth p (subarray_params gshape tdims s2 s1 q P) ([], [], []) =
  (rshape, sub p, unit_at s1 (zsum (firstn p cnt))).
Proof.
  intros Hp. unfold subarray_params. rewrite nth_map_seq by auto. rewrite Htd1, Htd2. f_equal.
  unfold unit_at. f_equal. rewrite fstarts_exact, zdispls_nth; auto; try (rewrite len_cnt); try lia. rewrite Hsum. apply g_nth; auto.
Qed.

Lemma sub_in p idx : in_bounds (sub p) idx -> length idx = length gshape /\ forall i, (i < length gshape)%nat -> 
  0 <= nth i idx 0 < if Nat.eqb i s1 then nth p cnt 0 else if Nat.eqb i s2 then nth q tgt 0 else nth i gshape 0.
Proof.
  intros H. apply in_bounds_nth in H. rewrite len_sub in H. destruct H as [L H]. split; auto.
  intros i Hi. specialize (H i Hi). now rewrite nth_sub in H.
Qed.
Lemma src_in p idx : (p < P)%nat -> in_bounds (sub p) idx ->
  in_bounds (upd gshape s1 (nth p cnt 0)) (zadd (unit_at s2 (zsum (firstn q tgt))) idx).
Proof.
  intros Hp H. apply sub_in in H. destruct H as [L H]. rewrite zadd_unit by auto.
  apply in_bounds_nth. rewrite !upd_length. split; auto. intros i Hi. specialize (H i Hi).
  destruct (Nat.eqb_spec i s1) as [Eiv|].
  - try subst i. rewrite upd_same by auto. rewrite upd_other by auto. auto.
  - rewrite (upd_other gshape) by auto. pose proof tgt_b. destruct (Nat.eqb_spec i s2) as [Eiv|].
    + try subst i. rewrite upd_same by lia. lia.
    + rewrite upd_other by auto. auto.
Qed.
Lemma dst_in p idx : (p < P)%nat -> in_bounds (sub p) idx ->
  in_bounds rshape (zadd (unit_at s1 (zsum (firstn p cnt))) idx).
Proof.
  intros Hp H. apply sub_in in H. destruct H as [L H]. rewrite zadd_unit by auto.
  apply in_bounds_nth. unfold rshape. rewrite !upd_length. split; auto. intros i Hi. specialize (H i Hi). pose proof (cnt_b p Hp).
  destruct (Nat.eqb_spec i s1) as [Eiv|].
  - try subst i. rewrite upd_same by lia. rewrite upd_other by auto. lia.
  - rewrite (upd_other idx) by auto. destruct (Nat.eqb_spec i s2) as [Eiv|].
    + try subst i. rewrite upd_same by lia. lia.
    + rewrite upd_other by auto. auto.
Qed.

Lemma sub_small p : (p < P)%nat -> Forall (fun n => 0 <= n <= 16777216) (sub p).
Proof.
  intros Hp. pose proof (cnt_b p Hp). pose proof tgt_b. pose proof (g_nth s1 Hs1). pose proof (g_nth s2 Hs2).
  unfold sub, rshape. apply upd_Forall; [apply upd_Forall|]; auto; lia.
Qed.
Lemma unit_small k x : 0 <= x <= 16777216 -> Forall (fun n => 0 <= n <= 16777216) (unit_at k x).
Proof.
  intros. unfold unit_at. apply upd_Forall; auto. apply Forall_forall. intros y Hy. apply repeat_spec in Hy. lia.
Qed.
Lemma rshape_small : Forall (fun n => 0 <= n <= 16777216) rshape.
Proof. pose proof tgt_b. pose proof (g_nth s2 Hs2). unfold rshape. apply upd_Forall; auto; lia. Qed.

Definition xw (p : nat) : list (Z * V) :=
  map (fun j => (w * dot j (cstrides rshape), G (upd j s2 (zsum (firstn q tgt) + nth s2 j 0))))
      (map (zadd (unit_at s1 (zsum (firstn p cnt)))) (row_major (sub p))).

Lemma exchange_eq : alltoallw_writes w gshape s1 s2 sdims tdims locals rshape q = Ok (concat (map xw (seq 0 P))).
Proof.
  assert (Hn2 : (2 <= length gshape)%nat) by lia. assert (HL := CL_val).
  unfold alltoallw_writes.
  rewrite all_ok_map with (g := fun pt => xw (fst pt)).
  - cbn [bind]. do 2 f_equal. rewrite <- (map_map fst xw), map_fst_combine by apply seq_length. reflexivity.
  - intros [p t] Hin. destruct (combine_seq_in _ _ _ dft Hin) as [Hp Et].
    assert (Ht : In t locals) by (subst; apply nth_In; auto).
    destruct (Hshape t Ht) as [_ [Lst Fst]]. fold P in Hp |- *.
    pose proof (lshape_of p Hp) as Els. rewrite <- Et in Els.
    rewrite sparams, rparams by auto. cbn [fst].
    assert (Sp : forall st0, length st0 = length gshape -> Forall (fun s => 0 <= s < COUNT_LIMIT) st0 -> lim_ok st0).
    { intros st0 L0 F0 [A [_ B]]. rewrite Forall_forall in F0. assert (In (nth 0 st0 0) st0) by (apply nth_In; lia). apply F0 in H. lia. }
    pose proof (cnt_b p Hp) as Cb. pose proof tgt_b as Tb. pose proof (g_nth s1 Hs1). pose proof (g_nth s2 Hs2).
    assert (HcF : Forall (fun n => 0 <= n < COUNT_LIMIT) (upd gshape s1 (nth p cnt 0))).
    { apply small_lt, upd_Forall; auto; lia. }
    assert (OKs : exists b, a2aw_type w (is_contiguous (tshape t) (tstride t)) (tstride t)
              (upd gshape s1 (nth p cnt 0), sub p, unit_at s2 (zsum (firstn q tgt))) = Ok b).
    { apply a2aw_ok; auto; rewrite ?len_sub; auto; try lia; apply small_lt; [apply sub_small; auto|apply unit_small; lia]. }
    destruct OKs as [[ts cs] Es]. rewrite Es. cbn [bind].
    apply a2aw_spec in Es; rewrite ?upd_length, ?len_sub, ?len_unit; auto; try lia.
    2:{ intros; apply src_in; auto. }
    2:{ rewrite <- Els; auto. }
    assert (OKr : exists b, a2aw_type w true (cstrides rshape) (rshape, sub p, unit_at s1 (zsum (firstn p cnt))) = Ok b).
    { unfold a2aw_type. destruct (forallb (fun n => 0 <? n) (sub p)); [|eauto].
      assert (B : forall l, Forall (fun n => 0 <= n <= 16777216) l -> forallb (fun n => n <? COUNT_LIMIT) l = true /\ forallb int_ok l = true).
      { intros l Hl. rewrite !forallb_forall. rewrite Forall_forall in Hl. split; intros x Hx; apply Hl in Hx; [|apply int_ok_iff]; lia. }
      destruct (B rshape rshape_small) as [-> B1]. destruct (B (sub p) (sub_small p Hp)) as [-> B2].
      destruct (B (unit_at s1 (zsum (firstn p cnt)))) as [-> B3]; [apply unit_small; lia|].
      cbn [andb]. unfold create_subarray. rewrite B1, B2, B3. cbn. eauto. }
    destruct OKr as [[tr cr] Er]. rewrite Er. cbn [bind fst snd].
    assert (Er' : buf_positions cr tr = map (fun idx => w * dot (zadd (unit_at s1 (zsum (firstn p cnt))) idx) (cstrides rshape)) (row_major (sub p))).
    { revert Er. unfold a2aw_type. destruct (forallb (fun n => 0 <? n) (sub p)) eqn:Ep.
      - assert (B : forall l, Forall (fun n => 0 <= n <= 16777216) l -> forallb (fun n => n <? COUNT_LIMIT) l = true).
        { intros l Hl. rewrite !forallb_forall. rewrite Forall_forall in Hl. intros x Hx; apply Hl in Hx; lia. }
        rewrite (B rshape rshape_small), (B (sub p) (sub_small p Hp)), (B (unit_at s1 (zsum (firstn p cnt)))) by (apply unit_small; lia).
        cbn [andb]. destruct (create_subarray _ _ _ _) as [u|] eqn:E; cbn [bind]; [|congruence].
        intros X; injection X as <- <-. apply (subarray_positions w rshape (sub p) (unit_at s1 (zsum (firstn p cnt))) (cstrides rshape) u).
        + apply cstrides_length.
        + now rewrite len_sub, len_rshape.
        + now rewrite len_unit, len_rshape.
        + intros idx Hidx; apply dst_in; auto.
        + apply is_contiguous_cstrides.
        + exact E.
      - intros X; injection X as <- <-. rewrite (nonpos_row_major _ Ep). reflexivity. }
    rewrite Er', Es. unfold pair_up. rewrite !map_length, Nat.eqb_refl. f_equal.
    rewrite map_map, combine_map2. unfold xw. rewrite map_map. apply map_ext_in. intros idx Hidx. apply in_row_major in Hidx.
    f_equal.
    pose proof (src_in p idx Hp Hidx) as Hin2. rewrite <- Els in Hin2.
    pose proof (Hdata p (zadd (unit_at s2 (zsum (firstn q tgt))) idx) Hp) as D. rewrite <- Et in D. specialize (D Hin2).
    unfold read in D. rewrite D. f_equal.
    pose proof (in_bounds_length _ _ Hidx) as Li. rewrite len_sub in Li.
    rewrite !zadd_unit by auto. rewrite (upd_other idx) by auto. rewrite (upd_other idx) by auto. rewrite upd_comm by auto. reflexivity.
Qed.

Lemma find_block l : forall x, Forall (fun n => 0 <= n) l -> 0 <= x < zsum l ->
  exists p, (p < length l)%nat /\ zsum (firstn p l) <= x < zsum (firstn p l) + nth p l 0.
Proof.
  induction l as [|c l IH]; intros x F H; [simpl in H; lia|]. inversion F; subst. unfold zsum in *. cbn [fold_right] in H.
  destruct (Z.lt_ge_cases x c).
  - exists 0%nat. simpl. lia.
  - destruct (IH (x - c)) as [p [Hp E]]; auto; [lia|]. exists (S p). simpl. lia.
Qed.
Lemma block_unique l p p' x : Forall (fun n => 0 <= n) l -> (p < length l)%nat -> (p' < length l)%nat ->
  zsum (firstn p l) <= x < zsum (firstn p l) + nth p l 0 ->
  zsum (firstn p' l) <= x < zsum (firstn p' l) + nth p' l 0 -> p = p'.
Proof.
  intros F. revert p p' x. induction F as [|c l Hc F IH]; intros p p' x Hp Hp' H1 H2; [simpl in Hp; lia|].
  unfold zsum in *. destruct p, p'; simpl in *; auto.
  - pose proof (zsum_le l p' F ltac:(lia)). unfold zsum in *. lia.
  - pose proof (zsum_le l p F ltac:(lia)). unfold zsum in *. lia.
  - f_equal. apply (IH p p' (x - c)); lia.
Qed.

Lemma xw_nodup : NoDup (map fst (concat (map xw (seq 0 P)))).
Proof.
  rewrite concat_map, map_map.
  set (J := flat_map (fun p => map (zadd (unit_at s1 (zsum (firstn p cnt)))) (row_major (sub p))) (seq 0 P)).
  assert (E : concat (map (fun p => map fst (xw p)) (seq 0 P)) = map (fun j => w * dot j (cstrides rshape)) J).
  { unfold J. rewrite map_flat_map, flat_map_concat_map. f_equal. apply map_ext. intros p. unfold xw. rewrite !map_map. reflexivity. }
  rewrite E. apply NoDup_map_inj_on.
  - intros x y Hx Hy Exy. unfold J in *. apply in_flat_map in Hx, Hy.
    destruct Hx as [p [Hp Hx]], Hy as [p' [Hp' Hy]]. apply in_seq in Hp, Hp'.
    apply in_map_iff in Hx, Hy. destruct Hx as [i [<- Hi]], Hy as [j [<- Hj]]. apply in_row_major in Hi, Hj.
    apply (dot_inj rshape); try (apply dst_in; auto; lia). nia.
  - unfold J. apply NoDup_flat_map; [apply seq_NoDup| |].
    + intros p Hp. apply in_seq in Hp. apply NoDup_map_inj_on; [|apply NoDup_row_major].
      intros x y Hx Hy Exy. apply in_row_major in Hx, Hy. apply in_bounds_length in Hx, Hy. rewrite len_sub in Hx, Hy.
      apply nth_ext2 with 0; [lia|]. intros i Hi.
      assert (N : nth i (zadd (unit_at s1 (zsum (firstn p cnt))) x) 0 = nth i (zadd (unit_at s1 (zsum (firstn p cnt))) y) 0) by now rewrite Exy.
      rewrite !zadd_nth in N by (rewrite len_unit; auto). lia.
    + intros p p' b Hp Hp' H1 H2. apply in_seq in Hp, Hp'. apply in_map_iff in H1, H2.
      destruct H1 as [i [<- Hi]], H2 as [j [Ej Hj]]. apply in_row_major, sub_in in Hi. apply in_row_major, sub_in in Hj.
      destruct Hi as [Li Hi], Hj as [Lj Hj]. specialize (Hi s1 Hs1). specialize (Hj s1 Hs1). rewrite Nat.eqb_refl in *.
      assert (N : nth s1 (zadd (unit_at s1 (zsum (firstn p' cnt))) j) 0 = nth s1 (zadd (unit_at s1 (zsum (firstn p cnt))) i) 0) by now rewrite Ej.
      rewrite !zadd_nth, !nth_unit, Nat.eqb_refl in N by (rewrite ?len_unit; auto).
      apply (block_unique cnt p p' (zsum (firstn p cnt) + nth s1 i 0)); rewrite ?len_cnt; auto; try lia.
Qed.

Theorem exchange_spec : exists ws, alltoallw_writes w gshape s1 s2 sdims tdims locals rshape q = Ok ws /\
  forall ws' m0, Permutation ws ws' ->
    (forall idx, in_bounds rshape idx ->
       read (writes m0 ws') w (cstrides rshape) idx = G (upd idx s2 (zsum (firstn q tgt) + nth s2 idx 0))) /\
    (forall addr, (forall idx, in_bounds rshape idx -> addr <> w * dot idx (cstrides rshape)) -> writes m0 ws' addr = m0 addr).
Proof.
  eexists. split; [apply exchange_eq|]. intros ws' m0 Hp. split.
  - intros idx Hi. unfold read. eapply writes_perm; [exact Hp|apply xw_nodup|].
    pose proof Hi as Hi'. apply in_bounds_nth in Hi'. rewrite len_rshape in Hi'. destruct Hi' as [Li Hb].
    pose proof (Hb s1 Hs1) as B1. unfold rshape in B1. rewrite upd_other in B1 by auto. rewrite <- Hsum in B1.
    destruct (find_block cnt _ Hcnt B1) as [p [Hpl Hpb]]. rewrite len_cnt in Hpl.
    apply in_concat. exists (xw p). split; [apply in_map, in_seq; lia|].
    unfold xw. apply in_map_iff. exists idx. split; [reflexivity|]. apply in_map_iff.
    exists (upd idx s1 (nth s1 idx 0 - zsum (firstn p cnt))). split.
    + rewrite zadd_unit by (rewrite ?upd_length; auto). rewrite upd_same by lia.
      apply nth_ext2 with 0; rewrite !upd_length; auto. intros i Hi2. destruct (Nat.eq_dec i s1) as [Eiv|].
      * try subst i. rewrite upd_same by (rewrite upd_length; auto). lia.
      * now rewrite !upd_other by auto.
    + apply in_row_major, in_bounds_nth. rewrite upd_length, len_sub. split; auto. intros i Hi2.
      rewrite nth_sub by auto. specialize (Hb i Hi2). unfold rshape in Hb. destruct (Nat.eqb_spec i s1) as [Eiv|].
      * try subst i. rewrite upd_same by lia. lia.
      * rewrite upd_other by auto. destruct (Nat.eqb_spec i s2) as [Eiv|].
        -- try subst i. rewrite upd_same in Hb by auto. auto.
        -- rewrite upd_other in Hb by auto. auto.
  - intros addr Hn. apply writes_not_in. intros Hin.
    apply (Permutation_in _ (Permutation_sym (Permutation_map fst Hp))) in Hin.
    apply in_map_iff in Hin. destruct Hin as [x [E Hx]]. apply in_concat in Hx. destruct Hx as [l [Hl Hx]].
    apply in_map_iff in Hl. destruct Hl as [p [<- Hps]]. apply in_seq in Hps. unfold xw in Hx.
    apply in_map_iff in Hx. destruct Hx as [j [<- Hj]]. apply in_map_iff in Hj. destruct Hj as [i [<- Hi]].
    apply in_row_major in Hi. cbn [fst] in E. eapply Hn; [|symmetry; exact E]. apply dst_in; auto; lia.
Qed.
End Exchange.
