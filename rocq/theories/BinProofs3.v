(** Binary operations: case analysis over the splits, and padding of dimensions. *)
From Verif Require Import Base ShapeSpec BaseLemmas LayoutModel LayoutProofs NdSpec TensorSpec TensorLemmas NdLemmas OpsModel OpsProofs2 OpsProofs3 OpsProofs4 OpsProofs5 OpsProofs6 RedistModel RedistProofs ShapeModel ShapeProofs ShapeProofs2 ShapeProofs3 ShapeProofs4 ShapeProofs5 ShapeProofs6 BinSpec BinModel BinProofs BinProofs2.
From Coq Require Import Sorted.
Open Scope Z_scope.

Lemma split_lt {A} (G : list Z -> A) gsh s cnts ls : represents G gsh (Some s) cnts ls -> (s < length gsh)%nat.
Proof. intros H; apply H. Qed.

Section Core.
Variables (A B C : Type) (da : A) (db : B) (f : A -> B -> C) (x1 : bnd A) (x2 : bnd B).
Variables (G1 : list Z -> A) (G2 : list Z -> B) (c1 c2 : list Z) (osh : list Z).
Let y1 := b_arr x1. Let y2 := b_arr x2. Let P := length (d_locals y1).
Let g1 := d_gshape y1. Let g2 := d_gshape y2.
Hypothesis R1 : represents G1 g1 (d_split y1) c1 (d_locals y1).
Hypothesis R2 : represents G2 g2 (d_split y2) c2 (d_locals y2).
Hypothesis T1 : truthful x1.
Hypothesis T2 : truthful x2.
Hypothesis HP : (0 < P)%nat.
Hypothesis HPP : length (d_locals y2) = P.
Hypothesis HB : bshape g1 g2 = Ok osh.
Let F := fun idx => f (G1 (clamp g1 idx)) (G2 (clamp g2 idx)).

Lemma bin_core_ok : supported P g1 g2 osh (d_split y1) (d_split y2) ->
  exists u cnts, bin_core da db f x1 x2 = Ok u /\ d_gshape (b_arr u) = osh /\
    d_split (b_arr u) = result_split g1 g2 osh (d_split y1) (d_split y2) /\
    represents F osh (d_split (b_arr u)) cnts (d_locals (b_arr u)) /\
    (forall s, d_split (b_arr u) = Some s -> d_split y1 = Some s -> nth s g1 0 = nth s osh 0 -> cnts = c1 /\ b_flag u = b_flag x1) /\
    (forall s, d_split (b_arr u) = Some s -> d_split y2 = Some s -> d_split y1 <> Some s -> nth s g2 0 = nth s osh 0 -> cnts = c2 /\ b_flag u = b_flag x2).
Proof.
  intros HS. unfold bin_core. fold y1 y2 g1 g2 P. rewrite HB. cbn [bind].
  destruct (proj1 (bshape_ok g1 g2 osh) HB) as (Q1 & Q2 & DM).
  assert (DM' : forall s, (s < length osh)%nat -> bcast_dim (nth s g1 0) (nth s g2 0) (nth s osh 0)) by (apply bshape_ok in HB as (_ & _ & Z); exact Z).
  assert (On : forall s, (s < length osh)%nat -> 0 <= nth s osh 0).
  { intros s Hs. pose proof (osh_nonneg _ _ _ HB (proj1 (proj2 R1)) (proj1 (proj2 R2))) as H. rewrite Forall_forall in H. apply H, nth_In; auto. }
  pose proof (core_dom1 A B C da db f x1 x2 G1 G2 c1 c2 osh R1 R2 T1 T2 HP HPP HB) as D1.
  pose proof (core_dom2 A B C da db f x1 x2 G1 G2 c1 c2 osh R1 R2 T1 T2 HP HPP HB) as D2.
  pose proof (core_b1 A B C da db f x1 x2 G1 G2 c1 c2 osh R1 R2 T2 HP HPP HB) as B1.
  pose proof (core_b2 A B C da db f x1 x2 G1 G2 c1 c2 osh R1 R2 T1 HP HPP HB) as B2.
  pose proof (core_none A B C da db f x1 x2 G1 G2 c1 c2 osh R1 R2 HP HPP HB) as N0.
  fold y1 y2 g1 g2 P in D1, D2, B1, B2, N0.
  pose proof R1 as R1'. pose proof R2 as R2'.
  destruct (d_split y1) as [a|] eqn:E1; destruct (d_split y2) as [b|] eqn:E2; cbn [result_split].
  - pose proof (split_lt _ _ _ _ _ R1') as La. pose proof (split_lt _ _ _ _ _ R2') as Lb.
    pose proof (DM' a ltac:(lia)) as Da. pose proof (On a ltac:(lia)) as Oa. pose proof (DM' b ltac:(lia)) as Db. pose proof (On b ltac:(lia)) as Ob. unfold bcast_dim in Da, Db.
    destruct (Z.eqb_spec (nth a g1 0) (nth a osh 0)) as [Ed|Ed].
    + destruct (D1 a eq_refl Ed) as (z & ls & Ez & El & R).
      { destruct HS as [HS|HS]; [auto|]. destruct (Nat.eqb_spec a b) as [<-|N].
        - destruct (Z.eq_dec (nth a g2 0) (nth a osh 0)); [right; right; auto|]. right; left. lia.
        - right; left. lia. }
      rewrite Ez. cbn [bind]. rewrite El. cbn [bind]. do 2 eexists. split; [reflexivity|]. cbn [b_arr d_gshape d_split d_locals b_flag].
      split; [auto|]. split; [auto|]. split; [exact R|]. split; [auto|]. intros s [= ->] _ N. congruence.
    + destruct (Z.eqb_spec (nth b g2 0) (nth b osh 0)) as [Ed2|Ed2].
      * destruct (D2 b eq_refl Ed2) as (z & ls & Ez & El & R).
        { destruct HS as [HS|HS]; [auto|]. destruct (Nat.eqb_spec a b) as [<-|N].
          - right; left. lia.
          - right; left. lia. }
        rewrite Ez. cbn [bind]. rewrite El. cbn [bind]. do 2 eexists. split; [reflexivity|]. cbn [b_arr d_gshape d_split d_locals b_flag].
        split; [auto|]. split; [auto|]. split; [exact R|]. split; [|auto]. intros s [= ->] [= ->] N. congruence.
      * destruct (B1 a eq_refl Ed) as (z & ls & Ez & El & R).
        { destruct HS as [HS|HS]; [auto|]. destruct (Nat.eqb_spec a b) as [<-|N]; lia. }
        rewrite Ez. cbn [bind]. rewrite El. cbn [bind]. do 2 eexists. split; [reflexivity|]. cbn [b_arr d_gshape d_split d_locals b_flag].
        split; [auto|]. split; [auto|]. split; [exact R|]. split; [intros s [= ->]; congruence|]. intros s [= ->] [= ->]; congruence.
  - pose proof (split_lt _ _ _ _ _ R1') as La. pose proof (DM' a ltac:(lia)) as Da. pose proof (On a ltac:(lia)) as Oa. unfold bcast_dim in Da.
    destruct (Z.eqb_spec (nth a g1 0) (nth a osh 0)) as [Ed|Ed].
    + destruct (D1 a eq_refl Ed) as (z & ls & Ez & El & R).
      { destruct HS as [HS|HS]; [auto|]. destruct (Z.eq_dec (nth a g2 0) (nth a osh 0)); [right; right; auto|]. right; left.
        destruct R2' as (_ & Hn & _). assert (0 <= nth a osh 0) by (destruct R1' as (_ & Hn1 & _); rewrite <- Ed; rewrite Forall_forall in Hn1; apply Hn1, nth_In; lia). lia. }
      rewrite Ez. cbn [bind]. rewrite El. cbn [bind]. do 2 eexists. split; [reflexivity|]. cbn [b_arr d_gshape d_split d_locals b_flag].
      split; [auto|]. split; [auto|]. split; [exact R|]. split; [auto|]. intros s _ H. discriminate.
    + destruct (B1 a eq_refl Ed) as (z & ls & Ez & El & R); [auto|].
      rewrite Ez. cbn [bind]. rewrite El. cbn [bind]. do 2 eexists. split; [reflexivity|]. cbn [b_arr d_gshape d_split d_locals b_flag].
      split; [auto|]. split; [auto|]. split; [exact R|]. split; [intros s [= ->]; congruence|]. intros s _ H; discriminate.
  - pose proof (split_lt _ _ _ _ _ R2') as Lb. pose proof (DM' b ltac:(lia)) as Db. pose proof (On b ltac:(lia)) as Ob. unfold bcast_dim in Db.
    destruct (Z.eqb_spec (nth b g2 0) (nth b osh 0)) as [Ed2|Ed2].
    + destruct (D2 b eq_refl Ed2) as (z & ls & Ez & El & R).
      { destruct HS as [HS|HS]; [auto|]. destruct (Z.eq_dec (nth b g1 0) (nth b osh 0)); [right; right; auto|]. right; left.
        assert (0 <= nth b osh 0) by (destruct R2' as (_ & Hn1 & _); rewrite <- Ed2; rewrite Forall_forall in Hn1; apply Hn1, nth_In; lia). lia. }
      rewrite Ez. cbn [bind]. rewrite El. cbn [bind]. do 2 eexists. split; [reflexivity|]. cbn [b_arr d_gshape d_split d_locals b_flag].
      split; [auto|]. split; [auto|]. split; [exact R|]. split; [intros s _ H; discriminate|auto].
    + destruct (B2 b eq_refl Ed2) as (z & ls & Ez & El & R); [auto|].
      rewrite Ez. cbn [bind]. rewrite El. cbn [bind]. do 2 eexists. split; [reflexivity|]. cbn [b_arr d_gshape d_split d_locals b_flag].
      split; [auto|]. split; [auto|]. split; [exact R|]. split; [intros s _ H; discriminate|]. intros s [= ->]. congruence.
  - destruct (N0 eq_refl eq_refl) as (ls & El & R). cbn [bind]. rewrite El. cbn [bind].
    do 2 eexists. split; [reflexivity|]. cbn [b_arr d_gshape d_split d_locals b_flag].
    split; [auto|]. split; [auto|]. split; [exact R|]. split; intros s H; discriminate.
Qed.

Lemma bin_core_unsupported : ~ supported P g1 g2 osh (d_split y1) (d_split y2) ->
  exists e, bin_core da db f x1 x2 = Err e.
Proof.
  intros HS. unfold bin_core. fold y1 y2 g1 g2 P. rewrite HB. cbn [bind].
  pose proof (bshape_ok g1 g2 osh) as [Hb _]. destruct (Hb HB) as (Q1 & Q2 & DM).
  assert (NP : P <> 1%nat) by (intros Q; apply HS; left; auto).
  assert (NP2 : length (d_locals y2) <> 1%nat) by lia.
  pose proof R1 as R1'. pose proof R2 as R2'. unfold supported in HS.
  destruct (d_split y1) as [a|] eqn:E1; destruct (d_split y2) as [b|] eqn:E2.
  - pose proof (split_lt _ _ _ _ _ R1') as La. pose proof (split_lt _ _ _ _ _ R2') as Lb.
    pose proof (DM a ltac:(lia)) as Da. pose proof (DM b ltac:(lia)) as Db. unfold bcast_dim in Da, Db.
    destruct (Z.eqb_spec (nth a g1 0) (nth a osh 0)) as [Ed|Ed].
    + destruct (sanitize_dist_err db x2 a (nth a g1 0) (lcounts y1 a) (is_bal x1)) as [e ->]; [auto| | |cbn; eauto]; fold y2 g2; rewrite ?E2.
      * intros [? ?]. apply HS. right. destruct (Nat.eqb_spec a b) as [<-|N]; [lia|left; lia].
      * intros [? [?|H]]; [discriminate|]. injection H as ->. apply HS. right. rewrite Nat.eqb_refl. lia.
    + destruct (Z.eqb_spec (nth b g2 0) (nth b osh 0)) as [Ed2|Ed2].
      * destruct (sanitize_dist_err da x1 b (nth b g2 0) (lcounts y2 b) (is_bal x2)) as [e ->]; [auto| | |cbn; eauto]; fold y1 g1; rewrite ?E1.
        -- intros [? ?]. apply HS. right. destruct (Nat.eqb_spec a b) as [<-|N]; [lia|right; lia].
        -- intros [? [?|H]]; [discriminate|]. injection H as ->. lia.
      * assert (N : a <> b) by (intros ->; lia).
        set (m := full_map (lcounts y1 a) (nth a osh 0)).
        assert (Zm : zsum m = nth a osh 0).
        { unfold m, lcounts. rewrite (local_counts _ _ _ _ _ R1'). destruct R1' as (_ & _ & _ & Hc & Hsum & _). apply full_map_sum; auto; lia. }
        destruct (sanitize_dist_err db x2 a (zsum m) m (eqb_idx m (zcounts (zsum m) P))) as [e ->]; [auto| | |cbn; eauto]; fold y2 g2; rewrite ?E2.
        -- lia.
        -- intros [? [?|H]]; [discriminate|]. congruence.
  - pose proof (split_lt _ _ _ _ _ R1') as La. pose proof (DM a ltac:(lia)) as Da. unfold bcast_dim in Da.
    assert (HS' : nth a g2 0 = 1 /\ nth a osh 0 = 0) by (clear - HS; destruct (Z.eq_dec (nth a g2 0) 1), (Z.eq_dec (nth a osh 0) 0); intuition lia).
    destruct (Z.eqb_spec (nth a g1 0) (nth a osh 0)) as [Ed|Ed]; [|lia].
    destruct (sanitize_dist_err db x2 a (nth a g1 0) (lcounts y1 a) (is_bal x1)) as [e ->]; [auto| | |cbn; eauto]; fold y2 g2; intuition lia.
  - pose proof (split_lt _ _ _ _ _ R2') as Lb. pose proof (DM b ltac:(lia)) as Db. unfold bcast_dim in Db.
    assert (HS' : nth b g1 0 = 1 /\ nth b osh 0 = 0) by (clear - HS; destruct (Z.eq_dec (nth b g1 0) 1), (Z.eq_dec (nth b osh 0) 0); intuition lia).
    destruct (Z.eqb_spec (nth b g2 0) (nth b osh 0)) as [Ed|Ed]; [|lia].
    destruct (sanitize_dist_err da x1 b (nth b g2 0) (lcounts y2 b) (is_bal x2)) as [e ->]; [auto| | |cbn; eauto]; fold y1 g1; intuition lia.
  - exfalso. apply HS. auto.
Qed.
End Core.

(** padding *)
Lemma drop0 {A} (l : list A) : drop_axes [0%nat] l = tl l.
Proof.
  destruct l as [|x l]; [reflexivity|]. unfold drop_axes. simpl.
  assert (H : forall i (m : list A), (0 < i)%nat -> drop_from i [0%nat] m = m).
  { intros i m; revert i; induction m as [|y m IH]; intros i Hi; simpl; auto. destruct i; [lia|]. simpl. rewrite IH; auto; lia. }
  apply H. lia.
Qed.
Lemma tl_skipn {A} k : forall l : list A, tl (skipn k l) = skipn (S k) l.
Proof. induction k as [|k IH]; intros [|h t]; try reflexivity. cbn [skipn]. rewrite IH. reflexivity. Qed.
Lemma pad_dims_ok {A} k : forall (x : dnd A) (G : list Z -> A) cnts,
  represents G (d_gshape x) (d_split x) cnts (d_locals x) ->
  exists y, pad_dims k x = Ok y /\ d_gshape y = repeat 1 k ++ d_gshape x /\ d_split y = option_map (fun s => (k + s)%nat) (d_split x) /\
    represents (fun idx => G (skipn k idx)) (d_gshape y) (d_split y) cnts (d_locals y).
Proof.
  induction k as [|k IH]; intros x G cnts HR.
  - exists x. split; [reflexivity|]. split; [reflexivity|]. split; [destruct (d_split x); reflexivity|]. exact HR.
  - cbn [pad_dims]. set (n := length (d_gshape x)).
    destruct (expand_dims_ok x G cnts (AxInt 0) [norm (n + 1) 0] HR) as (y & E & L & D & O & R & SS).
    + split; [lia|reflexivity].
    + repeat constructor.
    + replace (norm (n + 1) 0) with 0%nat in * by (unfold norm; simpl; lia). fold n in L, SS. cbn [length] in L.
      assert (Eg : d_gshape y = 1 :: d_gshape x).
      { rewrite drop0 in D. specialize (O 0%nat ltac:(left; auto)). destruct (d_gshape y) as [|h t]; [simpl in L; lia|].
        simpl in *. congruence. }
      assert (Es : d_split y = option_map S (d_split x)).
      { destruct (d_split x) as [s|] eqn:Ex; [|auto]. destruct SS as (s' & -> & Hs'). simpl. f_equal.
        cbn [length] in Hs'. rewrite drop0 in Hs'. replace (n + 1)%nat with (S n) in Hs' by lia. cbn [seq tl] in Hs'.
        apply nth_error_nth with (d:=0%nat) in Hs' as Q. assert (s < length (seq 1 n))%nat by (apply nth_error_Some; congruence).
        rewrite seq_length in *. rewrite seq_nth in Q by auto. lia. }
      rewrite E. cbn [bind]. destruct (IH y (fun idx => G (drop_axes [0%nat] idx)) cnts R) as (z & Ez & Egz & Esz & Rz).
      exists z. split; [auto|]. split.
      { rewrite Egz, Eg. change (repeat 1 (S k)) with (1 :: repeat 1 k). rewrite (app_comm_cons) || idtac.
        replace (1 :: d_gshape x) with ([1] ++ d_gshape x) by reflexivity. rewrite app_assoc. f_equal.
        clear. induction k; simpl; auto. f_equal. auto. }
      split; [rewrite Esz, Es; destruct (d_split x); simpl; f_equal; lia|].
      eapply represents_ext; [|exact Rz]. intros i Hi. cbn beta. rewrite drop0. f_equal.
      apply tl_skipn.
Qed.
