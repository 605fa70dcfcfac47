(** C91: boolean masks x[mask] and x[mask] = v. *)
From Coq Require Import Permutation Sorted.
From Verif Require Import Base BaseLemmas LayoutModel LayoutProofs NdSpec TensorSpec TensorLemmas NdLemmas OpsModel OpsProofs2 OpsProofs4 RedistModel RedistProofs ShapeSpec ShapeModel ShapeProofs ShapeProofs2 ShapeProofs3 ShapeProofs4 BinModel BinProofs BinProofs2 ShapeProps ReshapeModel ReshapeProofs FactoryModel FactoryProps ConcatProps DiagSpec DiagModel DiagProps NonzeroProps TraceModel TraceProofs MaskSpec MaskModel MaskProofs.
Open Scope Z_scope.

Lemma take_agrees {A} (t : arr A) ks : agrees (take t ks) [Z.of_nat (length ks)] (fun idx => adat t (nth (Z.to_nat (nth 0 idx 0)) ks [])).
Proof. split; reflexivity. Qed.
Lemma hd_nth0 {A} (l : list A) d : hd d l = nth 0 l d.
Proof. destruct l; reflexivity. Qed.

(** every rank: the elements of this rank's coordinates, for a distributed array *)
Lemma get_local_ok {A} (x : dnd A) s cx (G : list Z -> A) r t ks : rep x cx G -> d_split x = Some s -> nth_error (d_locals x) r = Some t ->
  (1 < length ks)%nat -> (forall k, In k ks -> in_bounds (d_gshape x) k) ->
  agrees (get_local x s r t ks) [Z.of_nat (length (owned s cx ks r))] (at_coords G (owned s cx ks r)).
Proof.
  intros HX Es Ht H1 HB. unfold rep in HX. rewrite Es in HX. pose proof (local_counts _ _ _ _ _ HX) as LC. destruct HX as (HL & NN & Hs & C & SM & Q).
  unfold get_local, real_start, lcounts. rewrite LC. rewrite (proj2 (Nat.ltb_lt _ _) H1). fold (owned s cx ks r). split; [cbn [take ash]; now rewrite map_length|].
  intros idx Hi. cbn [take adat]. unfold at_coords. assert (Hj : (Z.to_nat (nth 0 idx 0%Z) < length (owned s cx ks r))%nat).
  { inversion Hi as [|? ? ? ? Hi' HN]; subst. cbn [nth]. lia. }
  set (j := Z.to_nat (nth 0 idx 0)) in *. rewrite (nth_indep _ [] (upd [] s (nth s [] 0 - zsum (firstn r cx)))) by now rewrite map_length. rewrite (map_nth (fun k => upd k s (nth s k 0 - zsum (firstn r cx)))).
  set (k := nth j (owned s cx ks r) []). assert (Hk : In k (owned s cx ks r)) by now apply nth_In. apply filter_In in Hk as [Hk Hr]. apply in_range_iff in Hr. specialize (HB k Hk). destruct (Q r t Ht) as [E D]. pose proof (in_bounds_length _ _ HB) as Lk.
  rewrite D.
  - f_equal. unfold move_axis_idx. rewrite upd_same by lia. rewrite upd_upd. replace (nth s k 0 - zsum (firstn r cx) + zsum (firstn r cx)) with (nth s k 0) by lia. apply upd_self.
  - apply in_bounds_nth in HB as [_ HB]. apply in_bounds_nth. rewrite !upd_length. split; [auto|]. intros i Hi'. destruct (Nat.eq_dec i s) as [->|Ne]; [rewrite !upd_same by lia; lia|]. rewrite !upd_other by auto. auto.
Qed.

(** distributed, any split axis: the selected elements in the order of the owning ranks *)
Lemma get_dist {A} (x : dnd A) s cx (G : list Z -> A) (m : dnd bool) cm M :
  rep x cx G -> d_split x = Some s -> rep m cm M -> d_gshape m = d_gshape x -> length (d_locals m) = length (d_locals x) -> (1 < length (d_locals x))%nat ->
  (length (d_gshape x) = 1%nat \/ Forall (fun n => 1 <= n) (d_gshape x)) -> length (selected (d_gshape x) M) <> 1%nat ->
  exists y cy, mask_get x m = Ok y /\ d_split y = Some 0%nat /\ d_gshape y = [Z.of_nat (length (selected (d_gshape x) M))] /\
    rep y cy (at_coords G (by_owner s cx (selected (d_gshape x) M))).
Proof.
  intros HX Es HM Eg EL HP HE HN. destruct (mask_rows_ok m cm M HM) as [RL RR]. rewrite Eg in RR. set (ks := selected (d_gshape x) M) in *.
  assert (PO : probes_ok (d_gshape x) = true).
  { unfold probes_ok. destruct HE as [HE|HE]; [rewrite HE; reflexivity|]. rewrite orb_true_iff. right. apply negb_true_iff. destruct (existsb (Z.eqb 0) (d_gshape x)) eqn:E; [|auto]. apply existsb_exists in E as (n & Hn & E). apply Z.eqb_eq in E. rewrite Forall_forall in HE. specialize (HE n Hn). lia. }
  assert (H0 : hd [] (mask_rows m) = ks) by (rewrite hd_nth0; apply RR; lia).
  unfold mask_get. rewrite PO, H0. unfold ks at 1. rewrite coords_ok_sel. cbn [negb]. unfold is_dist. rewrite Es. rewrite (proj2 (Nat.ltb_lt _ _) HP).
  pose proof HX as HX'. unfold rep in HX'. rewrite Es in HX'. destruct HX' as (HL & NN & Hs & C & SM & Q).
  assert (KB : forall k, In k ks -> in_bounds (d_gshape x) k) by (intros k Hk; apply sel_in in Hk; tauto).
  assert (KR : forall k, In k ks -> 0 <= nth s k 0 < zsum cx) by (intros k Hk; apply KB, in_bounds_nth in Hk as [_ Hk]; rewrite SM; apply Hk; auto).
  eexists; exists (map (fun l => Z.of_nat (length l)) (map (owned s cx ks) (seq 0 (length cx)))). split; [reflexivity|]. split; [reflexivity|]. split; [reflexivity|]. unfold rep. cbn [d_gshape d_split d_locals].
  replace (length ks) with (length (by_owner s cx ks)) by (apply Permutation_length, by_owner_perm; auto; apply sel_NoDup). unfold by_owner. apply vec_represents.
  - rewrite !map_length, ranked_length, seq_length. auto.
  - intros r t Ht. apply ranked_map in Ht as (t0 & Ht0 & -> & Hr). cbn [fst snd]. rewrite RR by lia. rewrite nth_map_seq by lia.
    destruct (Nat.ltb_spec 1 (length ks)) as [L1|L1]; [apply (get_local_ok x s cx G r t0 ks HX Es Ht0 L1 KB)|].
    assert (E0 : ks = []) by (destruct ks as [|a [|]]; [auto|cbn in HN; lia|cbn in L1; lia]). rewrite E0. split; [reflexivity|]. intros idx Hi. inversion Hi as [|? ? ? ? Hi' _]; subst. cbn in Hi'. lia.
Qed.
(** not distributed *)
Lemma get_local_only {A} (x : dnd A) cx (G : list Z -> A) (m : dnd bool) cm M :
  rep x cx G -> (d_split x = None \/ length (d_locals x) = 1%nat) -> rep m cm M -> d_gshape m = d_gshape x -> length (d_locals m) = length (d_locals x) -> (0 < length (d_locals x))%nat ->
  (length (d_gshape x) = 1%nat \/ Forall (fun n => 1 <= n) (d_gshape x)) ->
  exists y cy, mask_get x m = Ok y /\ d_split y = match d_split x with Some _ => Some 0%nat | None => None end /\ d_gshape y = [Z.of_nat (length (selected (d_gshape x) M))] /\
    rep y cy (at_coords G (selected (d_gshape x) M)).
Proof.
  intros HX HD HM Eg EL HP HE. destruct (mask_rows_ok m cm M HM) as [RL RR]. rewrite Eg in RR. set (ks := selected (d_gshape x) M) in *.
  assert (PO : probes_ok (d_gshape x) = true).
  { unfold probes_ok. destruct HE as [HE|HE]; [rewrite HE; reflexivity|]. rewrite orb_true_iff. right. apply negb_true_iff. destruct (existsb (Z.eqb 0) (d_gshape x)) eqn:E; [|auto]. apply existsb_exists in E as (n & Hn & E). apply Z.eqb_eq in E. rewrite Forall_forall in HE. specialize (HE n Hn). lia. }
  assert (H0 : hd [] (mask_rows m) = ks) by (rewrite hd_nth0; apply RR; lia).
  assert (KB : forall k, In k ks -> in_bounds (d_gshape x) k) by (intros k Hk; apply sel_in in Hk; tauto).
  assert (ND : is_dist x = false) by (unfold is_dist; destruct (d_split x); [|auto]; destruct HD as [HD|HD]; [discriminate|]; rewrite HD; reflexivity).
  assert (AG : forall r t, nth_error (d_locals x) r = Some t -> agrees t (d_gshape x) G).
  { intros r t Ht. unfold rep in HX. destruct (d_split x) as [s|] eqn:Es; [|destruct HX as (_ & _ & Q); apply Q; eapply nth_error_In; eauto].
    destruct HD as [HD|HD]; [discriminate|]. destruct HX as (HL & NN & Hs & C & SM & Q). specialize (Q r t Ht). assert (r = 0%nat) by (assert (r < 1)%nat by (rewrite <- HD; apply nth_error_Some; congruence); lia). subst r.
    destruct cx as [|c [|]]; cbn in HL; try lia. unfold zsum in SM. cbn in SM. rewrite Z.add_0_r in SM. cbn [nth firstn] in Q. destruct Q as [Q1 Q2]. rewrite SM in Q1, Q2. rewrite upd_self in Q1, Q2. split; [auto|]. intros idx Hi. rewrite Q2 by auto. f_equal. unfold move_axis_idx. change (zsum []) with 0. rewrite Z.add_0_r. apply upd_self. }
  assert (AT : forall r t, nth_error (map (fun p => take (snd p) (nth (fst p) (mask_rows m) [])) (ranked (d_locals x))) r = Some t -> agrees t [Z.of_nat (length ks)] (at_coords G ks)).
  { intros r t Ht. apply ranked_map in Ht as (t0 & Ht0 & -> & Hr). cbn [fst snd]. rewrite RR by lia. split; [reflexivity|]. intros idx Hi. cbn [take adat]. destruct (AG r t0 Ht0) as [_ D]. unfold at_coords. apply D. apply KB, nth_In. inversion Hi as [|? ? ? ? Hi' _]; subst. cbn [nth]. lia. }
  unfold mask_get. rewrite PO, H0. unfold ks at 1. rewrite coords_ok_sel, ND. cbn [negb].
  destruct (d_split x) as [s|] eqn:Es.
  - destruct HD as [HD|HD]; [discriminate|]. eexists; exists (map (fun l => Z.of_nat (length l)) [ks]). split; [reflexivity|]. split; [reflexivity|]. split; [reflexivity|]. unfold rep. cbn [d_gshape d_split d_locals].
    replace ks with (concat [ks]) at 1 2 by (cbn [concat]; apply app_nil_r). apply vec_represents; [rewrite map_length, ranked_length; auto|]. intros r t Ht. assert (r = 0%nat) by (assert (r < 1)%nat by (rewrite <- HD, <- (ranked_length (d_locals x)), <- (map_length (fun p => take (snd p) (nth (fst p) (mask_rows m) []))); apply nth_error_Some; congruence); lia). subst r. cbn [nth]. apply (AT 0%nat t Ht).
  - eexists; exists cx. split; [reflexivity|]. split; [reflexivity|]. split; [reflexivity|]. unfold rep. cbn [d_gshape d_split d_locals]. destruct HX as (HL & _). split; [rewrite map_length, ranked_length; auto|]. split; [constructor; [lia|constructor]|].
    intros t Ht. apply In_nth_error in Ht as [r Ht]. apply (AT r t Ht).
Qed.

(** x[mask] for an array that is replicated or split along axis 0, in any layout, and a mask in any layout: the vector of
    the selected elements in row-major order.  Missing: exactly one selected element of a distributed array, arrays with
    more than one axis and an extent of zero, and the order for other split axes (all refuted below). *)
Theorem C91_mask_get_partial : forall (A : Type) (x : dnd A) (cx : list Z) (G : list Z -> A) (m : dnd bool) (cm : list Z) (M : list Z -> bool),
  rep x cx G -> rep m cm M -> d_gshape m = d_gshape x -> length (d_locals m) = length (d_locals x) -> (0 < length (d_locals x))%nat ->
  (d_split x = None \/ d_split x = Some 0%nat) ->
  (length (d_gshape x) = 1%nat \/ Forall (fun n => 1 <= n) (d_gshape x)) ->
  (d_split x = None \/ length (d_locals x) = 1%nat \/ length (selected (d_gshape x) M) <> 1%nat) ->
  exists y cy, mask_get x m = Ok y /\ d_split y = d_split x /\
    d_gshape y = [Z.of_nat (length (selected (d_gshape x) M))] /\
    rep y cy (at_coords G (selected (d_gshape x) M)).
Proof.
  intros A x cx G m cm M HX HM Eg EL HP HS HE HN. destruct HS as [Es|Es].
  - destruct (get_local_only x cx G m cm M) as (y & cy & H1 & H2 & H3); auto. exists y, cy. rewrite Es in *. auto.
  - destruct (Nat.eq_dec (length (d_locals x)) 1) as [L1|L1].
    + destruct (get_local_only x cx G m cm M) as (y & cy & H1 & H2 & H3); auto. exists y, cy. rewrite Es in *. auto.
    + destruct (get_dist x 0 cx G m cm M) as (y & cy & H1 & H2 & H3 & H4); auto; [lia|destruct HN as [HN|[HN|HN]]; [congruence|congruence|auto]|]. exists y, cy. rewrite Es. split; [auto|]. split; [auto|]. split; [auto|].
      unfold rep in HX. rewrite Es in HX. destruct HX as (HL & NN & Hs & C & SM & Q). rewrite by_owner_0 in H4; auto; [apply sel_sorted|]. intros k Hk. apply sel_in in Hk as [Hk _]. apply in_bounds_nth in Hk as [_ Hk]. rewrite SM. apply Hk; auto.
Qed.
Print Assumptions C91_mask_get_partial.

(** any split axis: the same elements, each once, ordered by the rank that owns them (row-major within a rank) *)
Theorem C91_mask_get_permuted_partial : forall (A : Type) (x : dnd A) (s : nat) (cx : list Z) (G : list Z -> A) (m : dnd bool) (cm : list Z) (M : list Z -> bool),
  rep x cx G -> d_split x = Some s -> rep m cm M -> d_gshape m = d_gshape x -> length (d_locals m) = length (d_locals x) -> (1 < length (d_locals x))%nat ->
  (length (d_gshape x) = 1%nat \/ Forall (fun n => 1 <= n) (d_gshape x)) ->
  length (selected (d_gshape x) M) <> 1%nat ->
  exists y cy ks, mask_get x m = Ok y /\ d_split y = Some 0%nat /\ d_gshape y = [Z.of_nat (length ks)] /\
    Permutation ks (selected (d_gshape x) M) /\ rep y cy (at_coords G ks) /\
    (* rank r's piece: the coordinates whose split index lies in rank r's range, in row-major order *)
    forall r t, nth_error (d_locals y) r = Some t ->
      agrees t [nth r cy 0] (at_coords G (filter (fun k => (zsum (firstn r cx) <=? nth s k 0) && (nth s k 0 <? zsum (firstn r cx) + nth r cx 0)) (selected (d_gshape x) M))).
Proof.
  intros A x s cx G m cm M HX Es HM Eg EL HP HE HN. pose proof HX as HX'. unfold rep in HX'. rewrite Es in HX'. destruct HX' as (HL & NN & Hs & C & SM & Q).
  assert (KR : forall k, In k (selected (d_gshape x) M) -> 0 <= nth s k 0 < zsum cx) by (intros k Hk; apply sel_in in Hk as [Hk _]; apply in_bounds_nth in Hk as [_ Hk]; rewrite SM; apply Hk; auto).
  assert (PE : Permutation (by_owner s cx (selected (d_gshape x) M)) (selected (d_gshape x) M)) by (apply by_owner_perm; auto; apply sel_NoDup).
  destruct (get_dist x s cx G m cm M HX Es HM Eg EL HP HE HN) as (y & cy & H1 & H2 & H3 & H4).
  exists y, cy, (by_owner s cx (selected (d_gshape x) M)). split; [auto|]. split; [auto|]. split; [rewrite (Permutation_length PE); auto|]. split; [auto|]. split; [auto|].
  intros r t Ht. pose proof H4 as H4'. unfold rep in H4'. rewrite H2 in H4'. destruct H4' as (L4 & _ & _ & _ & _ & Q4). specialize (Q4 r t Ht). rewrite H3 in Q4. cbn [upd] in Q4.
  (* the piece itself *)
  unfold mask_get in H1. destruct (negb (probes_ok (d_gshape x))); [discriminate H1|]. destruct (negb (coords_ok (d_gshape x) (hd [] (mask_rows m)))); [discriminate H1|]. unfold is_dist in H1. rewrite Es in H1. rewrite (proj2 (Nat.ltb_lt _ _) HP) in H1. injection H1 as H1. subst y. cbn [d_locals] in Ht.
  apply ranked_map in Ht as (t0 & Ht0 & Et & Hr). cbn [fst snd] in Et. destruct (mask_rows_ok m cm M HM) as [RL RR]. rewrite Eg in RR. rewrite RR in Et by lia.
  assert (AG : agrees t [Z.of_nat (length (owned s cx (selected (d_gshape x) M) r))] (at_coords G (owned s cx (selected (d_gshape x) M) r))).
  { rewrite Et. destruct (Nat.ltb_spec 1 (length (selected (d_gshape x) M))) as [L1|L1].
    - apply (get_local_ok x s cx G r t0); auto. intros k Hk. apply sel_in in Hk; tauto.
    - assert (E0 : selected (d_gshape x) M = []) by (destruct (selected (d_gshape x) M) as [|a [|]]; [auto|cbn in HN; lia|cbn in L1; lia]). rewrite E0. split; [reflexivity|]. intros idx Hi. inversion Hi as [|? ? ? ? Hi' _]; subst. cbn in Hi'. lia. }
  change (filter (fun k => (zsum (firstn r cx) <=? nth s k 0) && (nth s k 0 <? zsum (firstn r cx) + nth r cx 0)) (selected (d_gshape x) M)) with (owned s cx (selected (d_gshape x) M) r).
  destruct AG as [A1 A2]. destruct Q4 as [Q1 _]. assert (E : [nth r cy 0] = [Z.of_nat (length (owned s cx (selected (d_gshape x) M) r))]) by congruence. rewrite E. split; auto.
Qed.
Print Assumptions C91_mask_get_permuted_partial.
