(** Allgatherv / resplit to None. *)
From Verif Require Import Base BaseLemmas TensorSpec TensorLemmas DtypeModel DtypeProofs.
From Coq Require Import Permutation.
Open Scope Z_scope.

(** ** swapping dimension 0 with another one *)
Lemma swap0_length a l : length (swap0 a l) = length l.
Proof. destruct a; simpl; auto. now rewrite !upd_length. Qed.
Lemma swap0_nth a l i : (a < length l)%nat -> (i < length l)%nat ->
  nth i (swap0 a l) 0 = if Nat.eqb i 0 then nth a l 0 else if Nat.eqb i a then nth 0 l 0 else nth i l 0.
Proof.
  intros Ha Hi. unfold swap0. destruct a as [|a].
  - destruct i; simpl; auto.
  - destruct (Nat.eqb_spec i 0) as [->|].
    + rewrite upd_other by lia. apply upd_same. lia.
    + destruct (Nat.eqb_spec i (S a)) as [->|].
      * apply upd_same. rewrite upd_length. lia.
      * rewrite !upd_other by lia. reflexivity.
Qed.
Lemma swap0_invol a l : (a < length l)%nat -> swap0 a (swap0 a l) = l.
Proof.
  intros Ha. apply nth_ext2 with 0; rewrite !swap0_length; auto.
  intros i Hi. rewrite swap0_nth by (rewrite swap0_length; auto).
  destruct (Nat.eqb_spec i 0) as [->|]; [|destruct (Nat.eqb_spec i a) as [->|]].
  - rewrite swap0_nth by auto. destruct (Nat.eqb_spec a 0) as [->|]; auto. rewrite Nat.eqb_refl; auto.
  - rewrite swap0_nth by lia. reflexivity.
  - rewrite swap0_nth by auto. destruct (Nat.eqb_spec i 0); [lia|]. destruct (Nat.eqb_spec i a); [lia|auto].
Qed.
Lemma dot_upd a b k x y : length a = length b -> (k < length a)%nat ->
  dot (upd a k x) (upd b k y) = dot a b - nth k a 0 * nth k b 0 + x * y.
Proof.
  revert b k; induction a as [|u a IH]; intros [|v b] [|k] L Hk; simpl in *; try lia.
  rewrite IH by lia. lia.
Qed.
Lemma dot_swap0 a u v : length u = length v -> (a < length u)%nat -> dot (swap0 a u) (swap0 a v) = dot u v.
Proof.
  intros L Ha. destruct a as [|a]; [reflexivity|]. unfold swap0.
  rewrite dot_upd by (rewrite ?upd_length; lia). rewrite dot_upd by lia.
  rewrite !upd_other by lia. lia.
Qed.
Lemma in_bounds_swap0 a sh idx : (a < length sh)%nat -> in_bounds sh idx -> in_bounds (swap0 a sh) (swap0 a idx).
Proof.
  intros Ha H. apply in_bounds_nth in H. destruct H as [L H]. apply in_bounds_nth.
  rewrite !swap0_length. split; auto. intros i Hi. rewrite !swap0_nth by lia.
  destruct (Nat.eqb i 0); [apply H; lia|]. destruct (Nat.eqb i a); apply H; lia.
Qed.
Lemma swap0_Forall (Q : Z -> Prop) a l : (a < length l)%nat -> Forall Q l -> Forall Q (swap0 a l).
Proof.
  intros Ha H. apply Forall_forall. intros x Hx. apply (In_nth _ _ 0) in Hx. destruct Hx as [i [Hi <-]].
  rewrite swap0_length in Hi. rewrite swap0_nth by auto. rewrite Forall_forall in H.
  destruct (Nat.eqb i 0); [apply H, nth_In; auto|]. destruct (Nat.eqb i a); apply H, nth_In; lia.
Qed.
Lemma hd_swap0 a l : (a < length l)%nat -> exists t, swap0 a l = nth a l 0 :: t.
Proof.
  intros Ha. pose proof (swap0_nth a l 0 Ha ltac:(lia)) as E. simpl in E.
  pose proof (swap0_length a l) as L. destruct (swap0 a l) as [|h t]; simpl in *; [lia|]. subst; eauto.
Qed.
(** changing the extent of the axis only changes the head of the permuted shape *)
Lemma swap0_upd a l c : (a < length l)%nat -> swap0 a (upd l a c) = c :: tl (swap0 a l).
Proof.
  intros Ha. apply nth_ext2 with 0.
  - destruct (hd_swap0 a l Ha) as [t E]. rewrite swap0_length, upd_length. simpl. rewrite E. simpl.
    rewrite <- (swap0_length a l), E. reflexivity.
  - rewrite swap0_length, upd_length. intros i Hi. rewrite swap0_nth by (rewrite upd_length; auto).
    destruct i as [|i]; simpl; [now rewrite upd_same|].
    assert (E : nth i (tl (swap0 a l)) 0 = nth (S i) (swap0 a l) 0) by (destruct (hd_swap0 a l Ha) as [t ->]; reflexivity).
    rewrite E, swap0_nth by auto. simpl. destruct a as [|a].
    + simpl. apply upd_other. lia.
    + destruct (Nat.eqb_spec i a); apply upd_other; lia.
Qed.

(** ** int32 arithmetic without overflow *)
Lemma wrap32_id z : -2147483648 <= z <= 2147483647 -> wrap32 z = z.
Proof. intros. unfold wrap32. rewrite Z.mod_small; lia. Qed.
Lemma zprod_le1 x p : 1 <= x -> 1 <= p -> p <= x * p. Proof. nia. Qed.
Lemma prod32_spec l : Forall (fun n => 1 <= n) l -> zprod l <= 2147483647 -> prod32 l = zprod l.
Proof.
  intros H Hp. unfold prod32.
  assert (G : forall acc, 1 <= acc -> acc * zprod l <= 2147483647 ->
     fold_left (fun a b => wrap32 (a * wrap32 b)) l acc = acc * zprod l).
  { clear Hp. induction H as [|x l Hx Hl IH]; intros acc Ha Hp; cbn [fold_left zprod]; [lia|].
    pose proof (zprod_pos _ Hl). cbn [zprod] in Hp.
    assert (x <= x * zprod l) by nia. assert (x * zprod l <= acc * (x * zprod l)) by nia.
    assert (acc * x <= acc * x * zprod l) by nia.
    rewrite (wrap32_id x) by lia. rewrite (wrap32_id (acc * x)) by nia.
    rewrite IH; nia. }
  rewrite G by lia. lia.
Qed.

(** ** blocks of a v-collective receive buffer *)
Definition addhd (d : Z) (idx : list Z) : list Z := match idx with [] => [] | i :: t => (d + i) :: t end.

Lemma block_noncontig w t s st sh d c : ext t = w * s -> disps t = offsets_of w st sh ->
  buf_block d c t = map (fun idx => w * dot (addhd d idx) (s :: st)) (row_major (c :: sh)).
Proof.
  intros E1 E2. unfold buf_block. cbn [row_major]. rewrite map_flat_map. apply flat_map_ext_in. intros i _.
  rewrite E1, E2. unfold offsets_of, shift. rewrite !map_map. apply map_ext. intros idx. cbn [addhd dot]. lia.
Qed.
Lemma block_contig w sh d c : Forall (fun n => 0 <= n) sh -> 0 <= c ->
  buf_block (zprod sh * d) (zprod sh * c) (base_type w) =
  map (fun idx => w * dot (addhd d idx) (zprod sh :: cstrides sh)) (row_major (c :: sh)).
Proof.
  intros Hs Hc. unfold buf_block, base_type. cbn [disps ext].
  transitivity (map (fun i => (zprod sh * d + i) * w) (zr (zprod sh * c))).
  { unfold shift. cbn [map]. rewrite (flat_map_single (fun i => (zprod sh * d + i) * w + 0)). apply map_ext. intros; lia. }
  replace (zprod sh * c) with (c * zprod sh) by lia.
  rewrite <- zr_mul by (auto using zprod_nonneg). cbn [row_major]. rewrite !map_flat_map. apply flat_map_ext_in. intros i _.
  rewrite <- cstrides_offsets by auto. rewrite !map_map. apply map_ext. intros idx. cbn [addhd dot]. lia.
Qed.

Lemma combine_map2 {A B C} (f : A -> B) (g : A -> C) l : combine (map f l) (map g l) = map (fun x => (f x, g x)) l.
Proof. induction l; simpl; auto. now rewrite IHl. Qed.

(** ** displacements *)
Lemma zdispls_length acc l : length (zdispls acc l) = length l.
Proof. revert acc; induction l; simpl; auto. Qed.
Definition zsum (l : list Z) : Z := fold_right Z.add 0 l.
Lemma zdispls_nth l : forall acc p, (p < length l)%nat -> nth p (zdispls acc l) 0 = acc + zsum (firstn p l).
Proof.
  induction l as [|c l IH]; intros acc p Hp; simpl in *; [lia|]. destruct p; simpl; [lia|].
  rewrite IH by lia. lia.
Qed.
Lemma zsum_nonneg l : Forall (fun n => 0 <= n) l -> 0 <= zsum l.
Proof. induction 1; simpl; [lia|]. unfold zsum in *. lia. Qed.
Lemma zsum_app a b : zsum (a ++ b) = zsum a + zsum b.
Proof. induction a; simpl; auto. unfold zsum in *. lia. Qed.
Lemma zsum_le l p : Forall (fun n => 0 <= n) l -> (p < length l)%nat ->
  0 <= zsum (firstn p l) /\ zsum (firstn p l) + nth p l 0 <= zsum l /\ 0 <= nth p l 0.
Proof.
  intros H. revert p. induction H as [|x l Hx Hl IH]; intros p Hp; simpl in *; [lia|].
  pose proof (zsum_nonneg _ Hl). unfold zsum in *. destruct p; simpl; [lia|].
  specialize (IH p ltac:(lia)). lia.
Qed.

(** consecutive blocks of the leading axis enumerate the whole shape *)
Lemma addhd_blocks sh cs : forall acc, Forall (fun n => 0 <= n) cs ->
  concat (map (fun pc => map (addhd (fst pc)) (row_major (snd pc :: sh))) (combine (zdispls acc cs) cs)) =
  map (addhd acc) (row_major (zsum cs :: sh)).
Proof.
  induction cs as [|c cs IH]; intros acc H; [reflexivity|].
  inversion H as [|? ? Hc Hcs]; subst. cbn [zdispls combine map concat fst snd].
  rewrite IH by auto. unfold zsum. cbn [fold_right]. fold (zsum cs). pose proof (zsum_nonneg _ Hcs).
  cbn [row_major]. rewrite zr_app by lia. rewrite flat_map_app', map_app. f_equal.
  rewrite !map_flat_map, flat_map_map. apply flat_map_ext_in. intros i _. rewrite !map_map.
  apply map_ext. intros idx. cbn [addhd]. f_equal. lia.
Qed.
Lemma addhd_0 l : (forall x, In x l -> x <> @nil Z) -> map (addhd 0) l = l.
Proof.
  intros H. rewrite <- (map_id l) at 2. apply map_ext_in. intros [|i t] Hi; [exfalso; eapply H; eauto|]. reflexivity.
Qed.

Lemma all_ok_map {A B} (f : A -> res B) (g : A -> B) l : (forall x, In x l -> f x = Ok (g x)) -> all_ok (map f l) = Ok (map g l).
Proof.
  induction l as [|a l IH]; intros H; [reflexivity|]. cbn [map all_ok]. rewrite H by (simpl; auto).
  rewrite IH by (intros; apply H; simpl; auto). reflexivity.
Qed.

Lemma nth_map' {A B} (f : A -> B) l p d d' : (p < length l)%nat -> nth p (map f l) d = f (nth p l d').
Proof. intros H. rewrite nth_indep with (d' := f d') by (now rewrite map_length). apply map_nth. Qed.

Section Gather.
Variable V : Type.
Variables (w : Z) (gshape : list Z) (a : nat) (locals : list (tensor V)) (G : list Z -> V).
Hypothesis Hw : 0 < w.
Hypothesis Ha : (a < length gshape)%nat.
Hypothesis Hg : Forall (fun n => 1 <= n) gshape.
Hypothesis Hlim : zprod gshape <= COUNT_LIMIT.
Let counts := map (fun t => nth a (tshape t) 0) locals.
Let displs := zdispls 0 counts.
Hypothesis Hcnt : Forall (fun n => 0 <= n) counts.
Hypothesis Hsum : zsum counts = nth a gshape 0.
(** every rank holds a tensor of the right shape with sensible strides *)
Hypothesis Hshape : forall t, In t locals ->
  tshape t = upd gshape a (nth a (tshape t) 0) /\ length (tstride t) = length gshape /\
  Forall (fun s => 0 <= s <= COUNT_LIMIT) (tstride t).
Hypothesis Hdata : forall p idx, (p < length locals)%nat ->
  in_bounds (tshape (nth p locals (MkT [] [] (fun _ => G [])))) idx ->
  read (tmem (nth p locals (MkT [] [] (fun _ => G [])))) w (tstride (nth p locals (MkT [] [] (fun _ => G [])))) idx
  = G (upd idx a (zsum (firstn p counts) + nth a idx 0)).

Let sh' := tl (swap0 a gshape).
Let gst' := swap0 a (cstrides gshape).

Lemma g_pos_all : forall x, In x gshape -> 1 <= x <= COUNT_LIMIT.
Proof.
  intros x Hx. rewrite Forall_forall in Hg. split; [auto|].
  assert (E : forall l, Forall (fun n => 1 <= n) l -> In x l -> x <= zprod l).
  { clear. induction 1 as [|y l Hy Hl IH]; simpl; intros [].
    - subst. pose proof (zprod_pos _ Hl). nia.
    - specialize (IH H). pose proof (zprod_pos _ Hl). nia. }
  rewrite <- Forall_forall in Hg. specialize (E gshape Hg Hx). lia.
Qed.

Lemma sh'_eq : swap0 a gshape = nth a gshape 0 :: sh'.
Proof. unfold sh'. destruct (hd_swap0 a gshape Ha) as [t ->]. reflexivity. Qed.
Lemma sh'_len : S (length sh') = length gshape.
Proof. rewrite <- (swap0_length a gshape), sh'_eq. reflexivity. Qed.
Lemma sh'_pos : Forall (fun n => 1 <= n <= COUNT_LIMIT) sh'.
Proof.
  assert (F : Forall (fun n => 1 <= n <= COUNT_LIMIT) (swap0 a gshape)).
  { apply swap0_Forall; auto. apply Forall_forall. apply g_pos_all. }
  rewrite sh'_eq in F. now inversion F.
Qed.
Lemma sh'_nonneg : Forall (fun n => 0 <= n) sh'.
Proof. eapply Forall_impl; [|exact sh'_pos]. simpl; intros; lia. Qed.

Lemma local_shape' t : In t locals -> swap0 a (tshape t) = nth a (tshape t) 0 :: sh'.
Proof.
  intros Ht. destruct (Hshape t Ht) as [E _].
  transitivity (swap0 a (upd gshape a (nth a (tshape t) 0))); [now rewrite <- E|]. now apply swap0_upd.
Qed.
Lemma cnt_bounds t : In t locals -> 0 <= nth a (tshape t) 0 <= nth a gshape 0.
Proof.
  intros Ht. rewrite <- Hsum. destruct (In_nth _ _ t Ht) as [p [Hp E]].
  pose proof (zsum_le counts p Hcnt ltac:(unfold counts; now rewrite map_length)) as H.
  replace (nth p counts 0) with (nth a (tshape t) 0) in H; [|].
  - unfold counts in *. pose proof (zsum_nonneg (firstn p counts)). unfold counts in *. lia.
  - unfold counts. rewrite (nth_map' (fun t => nth a (tshape t) 0) locals p 0 t) by auto. now rewrite E.
Qed.
Lemma cstr_bounds : Forall (fun s => 0 <= s <= COUNT_LIMIT) (cstrides gshape).
Proof.
  assert (E : forall l, Forall (fun n => 1 <= n) l -> Forall (fun s => 1 <= s <= zprod l) (cstrides l)).
  { clear. induction 1 as [|y l Hy Hl IH]; simpl; constructor.
    - pose proof (zprod_pos _ Hl). nia.
    - eapply Forall_impl; [|exact IH]. simpl. intros s Hs. pose proof (zprod_pos _ Hl). nia. }
  eapply Forall_impl; [|apply E, Hg]. simpl; intros; lia.
Qed.
Lemma last_Forall (Q : Z -> Prop) l d : Q d -> Forall Q l -> Q (last l d).
Proof. intros Hd. induction 1 as [|x l Hx Hl IH]; simpl; auto. destruct l; auto. Qed.

Lemma send_positions t : In t locals -> exists b,
  allgatherv_send w (tshape t) (tstride t) a = Ok b /\
  simple_positions b = offsets_of w (swap0 a (tstride t)) (nth a (tshape t) 0 :: sh').
Proof.
  intros Ht. pose proof (local_shape' t Ht) as Es. pose proof (cnt_bounds t Ht) as Hc.
  destruct (Hshape t Ht) as [Et [Lt St]]. assert (HL := CL_val).
  assert (Hn : nth a gshape 0 <= COUNT_LIMIT) by (apply g_pos_all, nth_In; auto).
  assert (Lsh : length (tshape t) = length gshape) by (rewrite Et, upd_length; auto).
  unfold allgatherv_send. destruct (Nat.eqb_spec a 0) as [E0|E0].
  - assert (Es0 : tshape t = nth a (tshape t) 0 :: sh') by (rewrite E0 in Es |- *; exact Es).
    replace (swap0 a (tstride t)) with (tstride t) by (rewrite E0; reflexivity).
    destruct (as_buffer_ok w (tshape t) (tstride t)) as [b Eb].
    + rewrite Es0. constructor; [lia|]. eapply Forall_impl; [|exact sh'_pos]. simpl; intros; lia.
    + lia.
    + exact St.
    + rewrite Es0. assert (zprod gshape = nth a gshape 0 * zprod sh').
      { replace gshape with (swap0 a gshape) at 1 by (rewrite E0; reflexivity). rewrite sh'_eq. reflexivity. }
      pose proof (zprod_nonneg _ sh'_nonneg). cbn [zprod].
      assert (nth a (tshape t) 0 * zprod sh' <= COUNT_LIMIT) by nia.
      apply Z.div_le_upper_bound; nia.
    + exists b. split; auto. rewrite <- Es0. apply as_buffer_spec; auto; [|lia].
      rewrite Es0. constructor; [lia|apply sh'_nonneg].
  - unfold as_buffer. rewrite swap0_length.
    replace (Nat.eqb (length (tshape t)) 1) with false by (symmetry; apply Nat.eqb_neq; lia). rewrite andb_false_r.
    rewrite Es. destruct (hd_swap0 a (tstride t) ltac:(lia)) as [ss Ess].
    assert (Lss : length ss = length sh').
    { pose proof (swap0_length a (tstride t)) as L. rewrite Ess in L. pose proof sh'_len. simpl in L. lia. }
    assert (Hne : sh' <> []) by (intros E; pose proof sh'_len as X; rewrite E in X; simpl in X; lia).
    assert (Fss : Forall (fun s => 0 <= s <= COUNT_LIMIT) ss).
    { pose proof (swap0_Forall _ a (tstride t) ltac:(lia) St) as F. rewrite Ess in F. now inversion F. }
    rewrite Ess.
    destruct (type_noncontig_ok w (nth a (tshape t) 0) sh' (nth a (tstride t) 0) ss None) as [b Eb]; auto.
    + eapply Forall_impl; [|exact sh'_pos]. simpl. intros k Hk. apply int_ok_iff. lia.
    + apply last_Forall; [reflexivity|]. eapply Forall_impl; [|exact Fss]. simpl. intros k Hk. apply int_ok_iff. lia.
    + exists b. split; auto. destruct b as [ty e]. apply type_noncontig in Eb; auto. cbn [fst snd] in Eb.
      destruct Eb as [E1 [E2 [_ ->]]]. cbn [simple_positions]. now apply buf_offsets.
Qed.

Lemma recv_positions : exists b, allgatherv_recv w gshape (cstrides gshape) a counts displs = Ok b /\
  forall p, (p < length locals)%nat -> block_positions b p =
    map (fun idx => w * dot (addhd (zsum (firstn p counts)) idx) gst') (row_major (nth p counts 0 :: sh')).
Proof.
  assert (HL := CL_val).
  assert (Lc : length counts = length locals) by (unfold counts; apply map_length).
  unfold allgatherv_recv. destruct (Nat.eqb_spec a 0) as [E0|E0].
  - assert (Eg : gshape = nth a gshape 0 :: sh').
    { transitivity (swap0 a gshape); [rewrite E0; reflexivity|apply sh'_eq]. }
    unfold as_buffer. rewrite is_contiguous_cstrides. cbn [negb andb]. rewrite type_none, is_contiguous_cstrides.
    unfold mpi_type_and_elements_of.
    assert (Ef : prod32 (tl gshape) = zprod sh').
    { replace (tl gshape) with sh' by (rewrite Eg; reflexivity). apply prod32_spec.
      - eapply Forall_impl; [|exact sh'_pos]. simpl; intros; lia.
      - assert (zprod gshape = nth a gshape 0 * zprod sh') by (rewrite Eg at 1; reflexivity).
        assert (1 <= nth a gshape 0) by (apply g_pos_all, nth_In; auto).
        pose proof (zprod_nonneg _ sh'_nonneg). nia. }
    eexists. split; [reflexivity|]. intros p Hp. cbn [block_positions]. rewrite Ef.
    pose proof (zsum_le counts p Hcnt ltac:(lia)) as Hz.
    assert (Hm : zprod sh' * nth a gshape 0 <= COUNT_LIMIT).
    { assert (zprod gshape = nth a gshape 0 * zprod sh') by (rewrite Eg at 1; reflexivity). lia. }
    pose proof (zprod_nonneg _ sh'_nonneg) as Hz0.
    assert (D : nth p (map (fun e => wrap32 (zprod sh' * e)) displs) 0 = zprod sh' * zsum (firstn p counts)).
    { rewrite (nth_map' (fun e => wrap32 (zprod sh' * e)) displs p 0 0) by (unfold displs; rewrite zdispls_length; lia). unfold displs. rewrite zdispls_nth by lia.
      apply wrap32_id. nia. }
    assert (C : nth p (map (fun e => wrap32 (zprod sh' * e)) counts) 0 = zprod sh' * nth p counts 0).
    { rewrite (nth_map' (fun e => wrap32 (zprod sh' * e)) counts p 0 0) by lia. apply wrap32_id. nia. }
    rewrite D, C, block_contig by (auto using sh'_nonneg; lia).
    replace gst' with (zprod sh' :: cstrides sh'); [reflexivity|].
    unfold gst'. rewrite E0. cbn [swap0]. rewrite Eg. reflexivity.
  - unfold as_buffer. rewrite swap0_length.
    replace (Nat.eqb (length gshape) 1) with false by (symmetry; apply Nat.eqb_neq; lia). rewrite andb_false_r.
    rewrite sh'_eq. fold gst'.
    assert (Lg : length gst' = length gshape) by (unfold gst'; rewrite swap0_length, cstrides_length; auto).
    assert (Fg : Forall (fun s => 0 <= s <= COUNT_LIMIT) gst').
    { unfold gst'. apply swap0_Forall; [rewrite cstrides_length; auto|apply cstr_bounds]. }
    pose proof sh'_len as Ls.
    destruct gst' as [|s0 ss]; [simpl in Lg; lia|]. cbn [length] in Lg. inversion Fg; subst.
    assert (Hne : sh' <> []) by (intros E; rewrite E in Ls; simpl in Ls; lia).
    destruct (type_noncontig_ok w (nth a gshape 0) sh' s0 ss (Some (counts, displs))) as [b Eb]; auto; try lia.
    + eapply Forall_impl; [|exact sh'_pos]. simpl. intros k Hk. apply int_ok_iff. lia.
    + apply last_Forall; [reflexivity|]. eapply Forall_impl; [|eassumption]. simpl. intros k Hk. apply int_ok_iff. lia.
    + exists b. split; auto. destruct b as [ty e]. apply type_noncontig in Eb; auto; try lia. cbn [fst snd] in Eb.
      destruct Eb as [E1 [E2 [_ ->]]]. intros p Hp. cbn [block_positions].
      rewrite (block_noncontig w ty s0 ss sh') by auto. unfold displs. rewrite zdispls_nth by lia. reflexivity.
Qed.

Lemma combine_seq_in {A} (l : list A) p x d : In (p, x) (combine (seq 0 (length l)) l) -> (p < length l)%nat /\ x = nth p l d.
Proof.
  intros H. apply (In_nth _ _ (0%nat, d)) in H. destruct H as [i [Hi E]].
  rewrite combine_length, seq_length, Nat.min_id in Hi.
  rewrite combine_nth in E by apply seq_length. rewrite seq_nth in E by auto. inversion E; subst. auto.
Qed.

Definition gwrites : list (Z * V) :=
  map (fun j => (w * dot (swap0 a j) (cstrides gshape), G (swap0 a j))) (row_major (swap0 a gshape)).

Lemma writes_eq : allgatherv_writes w gshape a counts displs locals = Ok gwrites.
Proof.
  unfold allgatherv_writes. destruct recv_positions as [rb [-> Hrb]]. cbn [bind].
  set (dft := MkT [] [] (fun _ => G [])) in *.
  set (g := fun pt : nat * tensor V =>
    map (fun j => (w * dot (swap0 a j) (cstrides gshape), G (swap0 a j)))
        (map (addhd (zsum (firstn (fst pt) counts))) (row_major (nth (fst pt) counts 0 :: sh')))).
  rewrite all_ok_map with (g := g).
  - cbn [bind]. f_equal. unfold g, gwrites. rewrite <- map_map with (f := fun pt => map (addhd (zsum (firstn (fst pt) counts))) (row_major (nth (fst pt) counts 0 :: sh'))).
    rewrite <- concat_map. f_equal. rewrite sh'_eq.
    transitivity (map (addhd 0) (row_major (zsum counts :: sh'))).
    + rewrite <- addhd_blocks by exact Hcnt. f_equal.
      apply nth_ext2 with []; rewrite !map_length, !combine_length, ?zdispls_length, ?seq_length; [unfold counts; rewrite !map_length; auto|].
      rewrite Nat.min_id. intros p Hp.
      assert (Lc : length counts = length locals) by (unfold counts; apply map_length).
      rewrite (nth_map' (fun pt : nat * tensor V => map (addhd (zsum (firstn (fst pt) counts))) (row_major (nth (fst pt) counts 0 :: sh'))) _ p [] (0%nat, dft)) by (rewrite combine_length, seq_length; lia).
      rewrite combine_nth by apply seq_length. rewrite seq_nth by auto. cbn [fst snd].
      symmetry.
      rewrite (nth_map' (fun pc : Z * Z => map (addhd (fst pc)) (row_major (snd pc :: sh'))) _ p [] (0, 0)) by (rewrite combine_length, zdispls_length; lia).
      rewrite combine_nth by apply zdispls_length. cbn [fst snd]. rewrite zdispls_nth by lia. reflexivity.
    + rewrite Hsum. apply addhd_0. intros x Hx. apply in_row_major, in_bounds_length in Hx. destruct x; simpl in *; congruence.
  - intros [p t] Hin. destruct (combine_seq_in _ _ _ dft Hin) as [Hp Et].
    assert (Ht : In t locals) by (subst; apply nth_In; auto).
    destruct (send_positions t Ht) as [sb [-> Hsb]]. cbn [bind]. unfold pair_up.
    rewrite Hsb, Hrb by auto. unfold offsets_of.
    assert (Ec : nth p counts 0 = nth a (tshape t) 0).
    { unfold counts. rewrite (nth_map' (fun t => nth a (tshape t) 0) locals p 0 dft) by auto. now rewrite Et. }
    rewrite Ec, !map_length, Nat.eqb_refl. f_equal. rewrite map_map, combine_map2. unfold g. cbn [fst].
    rewrite Ec, map_map. apply map_ext_in. intros idx Hidx. apply in_row_major in Hidx.
    pose proof (local_shape' t Ht) as Els. destruct (Hshape t Ht) as [Esh [Lst _]].
    assert (Lsh : length (tshape t) = length gshape) by (rewrite Esh, upd_length; auto).
    rewrite <- Els in Hidx. pose proof (in_bounds_length _ _ Hidx) as Li. rewrite swap0_length, Lsh in Li.
    assert (La : length (addhd (zsum (firstn p counts)) idx) = length gshape) by (destruct idx; simpl in *; lia).
    f_equal.
    + f_equal. unfold gst'. transitivity (dot (swap0 a (swap0 a (addhd (zsum (firstn p counts)) idx))) (swap0 a (cstrides gshape))).
      * rewrite swap0_invol by lia. reflexivity.
      * apply dot_swap0; rewrite ?swap0_length, ?cstrides_length; lia.
    + assert (Hb : in_bounds (tshape t) (swap0 a idx)).
      { rewrite <- (swap0_invol a (tshape t)) by lia. apply in_bounds_swap0; [rewrite swap0_length; lia|auto]. }
      pose proof (Hdata p (swap0 a idx) Hp) as D. fold dft in D. rewrite <- Et in D. specialize (D Hb).
      unfold read in D.
      replace (dot idx (swap0 a (tstride t))) with (dot (swap0 a idx) (tstride t)).
      2:{ rewrite <- (dot_swap0 a (swap0 a idx) (tstride t)) by (rewrite swap0_length; lia). rewrite swap0_invol by lia. reflexivity. }
      rewrite D. f_equal.
      destruct idx as [|i idx]; [simpl in Li; lia|]. cbn [addhd].
      apply nth_ext2 with 0; rewrite upd_length, !swap0_length; [reflexivity|]. intros k Hk. cbn [length] in Li, Hk.
      destruct (Nat.eq_dec k a) as [->|Hka].
      * rewrite upd_same by (rewrite swap0_length; simpl; lia).
        rewrite !swap0_nth by (simpl; lia). rewrite Nat.eqb_refl. destruct (Nat.eqb_spec a 0) as [->|]; reflexivity.
      * rewrite upd_other by auto. rewrite !swap0_nth by (simpl; lia).
        destruct (Nat.eqb_spec k 0) as [->|]; [destruct a; [lia|reflexivity]|].
        destruct (Nat.eqb_spec k a); [lia|]. destruct k; [lia|reflexivity].
Qed.

Lemma gwrites_nodup : NoDup (map fst gwrites).
Proof.
  unfold gwrites. rewrite map_map. cbn [fst]. apply NoDup_map_inj_on; [|apply NoDup_row_major].
  intros x y Hx Hy E. apply in_row_major in Hx, Hy.
  assert (L : length (swap0 a gshape) = length gshape) by apply swap0_length.
  pose proof (in_bounds_length _ _ Hx). pose proof (in_bounds_length _ _ Hy).
  apply in_bounds_swap0 with (a := a) in Hx, Hy; try lia. rewrite swap0_invol in Hx, Hy by lia.
  assert (E' : swap0 a x = swap0 a y) by (apply (dot_inj gshape); auto; nia).
  rewrite <- (swap0_invol a x), <- (swap0_invol a y) by lia. now rewrite E'.
Qed.

Theorem gather_spec : exists ws, resplit_none w gshape a locals = Ok ws /\
  forall ws' m0, Permutation ws ws' ->
    (forall idx, in_bounds gshape idx -> read (writes m0 ws') w (cstrides gshape) idx = G idx) /\
    (forall addr, (forall idx, in_bounds gshape idx -> addr <> w * dot idx (cstrides gshape)) -> writes m0 ws' addr = m0 addr).
Proof.
  exists gwrites. split.
  - unfold resplit_none, counts_displs. rewrite map_map. exact writes_eq.
  - intros ws' m0 Hp. split.
    + intros idx Hi. unfold read. eapply writes_perm; [exact Hp|apply gwrites_nodup|].
      unfold gwrites. apply in_map_iff. exists (swap0 a idx).
      pose proof (in_bounds_length _ _ Hi). rewrite swap0_invol by lia. split; auto.
      apply in_row_major. apply in_bounds_swap0; auto.
    + intros addr Hn. apply writes_not_in. intros Hin.
      apply (Permutation_in _ (Permutation_sym (Permutation_map fst Hp))) in Hin.
      unfold gwrites in Hin. rewrite map_map in Hin. apply in_map_iff in Hin. destruct Hin as [j [E Hj]]. cbn [fst] in E.
      apply in_row_major in Hj. apply (in_bounds_swap0 a) in Hj; [|rewrite swap0_length; auto]. rewrite swap0_invol in Hj by auto.
      apply (Hn _ Hj). auto.
Qed.
End Gather.
