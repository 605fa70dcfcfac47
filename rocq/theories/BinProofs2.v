(** Binary operations: the distributed operation. *)
From Verif Require Import Base ShapeSpec BaseLemmas LayoutModel LayoutProofs NdSpec TensorSpec TensorLemmas NdLemmas OpsModel OpsProofs2 OpsProofs3 OpsProofs4 OpsProofs5 OpsProofs6 RedistModel RedistProofs ShapeModel ShapeProofs ShapeProofs2 ShapeProofs3 ShapeProofs4 ShapeProofs5 ShapeProofs6 BinSpec BinModel BinProofs.
Open Scope Z_scope.

Lemma nth_error_combine {A B} (a : list A) (b : list B) r p : nth_error (combine a b) r = Some p ->
  nth_error a r = Some (fst p) /\ nth_error b r = Some (snd p).
Proof. revert b r; induction a as [|x a IH]; intros [|y b] [|r]; simpl; intros H; try discriminate; [injection H as <-; auto|auto]. Qed.
Lemma all_ok_Qn {B C} (f : B -> res C) (Q : nat -> C -> Prop) l :
  (forall r x, nth_error l r = Some x -> exists y, f x = Ok y /\ Q r y) ->
  exists ys, all_ok (map f l) = Ok ys /\ length ys = length l /\ forall r y, nth_error ys r = Some y -> Q r y.
Proof.
  revert Q; induction l as [|x l IH]; intros Q H; simpl.
  - exists []. repeat split; auto. intros [|r] y E; discriminate.
  - destruct (H 0%nat x eq_refl) as (y & E & HQ). rewrite E. cbn [bind].
    destruct (IH (fun r => Q (S r))) as (ys & E2 & L & HQs); [intros r z Hz; apply (H (S r) z Hz)|].
    rewrite E2. cbn [bind]. exists (y :: ys). split; [auto|]. split; [simpl; lia|].
    intros [|r] z Hz; simpl in Hz; [injection Hz as <-; auto|auto].
Qed.

Lemma assemble {A B C} (f : A -> B -> C) gsh1 gsh2 osh G1 G2 s ocnts (l1 : list (arr A)) (l2 : list (arr B)) :
  bshape gsh1 gsh2 = Ok osh -> Forall (fun n => 0 <= n) osh -> (s < length osh)%nat ->
  Forall (fun c => 0 <= c) ocnts -> zsum ocnts = nth s osh 0 ->
  length l1 = length ocnts -> length l2 = length ocnts ->
  (forall r t1 t2, nth_error l1 r = Some t1 -> nth_error l2 r = Some t2 -> exists e1 e2,
     aligned t1 gsh1 G1 s (nth r ocnts 0) (zsum (firstn r ocnts)) e1 /\
     aligned t2 gsh2 G2 s (nth r ocnts 0) (zsum (firstn r ocnts)) e2 /\ (e1 = nth r ocnts 0 \/ e2 = nth r ocnts 0)) ->
  exists ls, all_ok (map (fun p => bop f (fst p) (snd p)) (combine l1 l2)) = Ok ls /\
    represents (fun idx => f (G1 (clamp gsh1 idx)) (G2 (clamp gsh2 idx))) osh (Some s) ocnts ls.
Proof.
  intros HB Hn Hs Hc Hsum L1 L2 H.
  destruct (all_ok_Qn (fun p => bop f (fst p) (snd p))
    (fun r t => agrees t (upd osh s (nth r ocnts 0)) (fun idx => f (G1 (clamp gsh1 (move_axis_idx s (zsum (firstn r ocnts)) idx))) (G2 (clamp gsh2 (move_axis_idx s (zsum (firstn r ocnts)) idx)))))
    (combine l1 l2)) as (ls & E & L & Q).
  - intros r [t1 t2] Hp. apply nth_error_combine in Hp as [P1 P2]. cbn [fst snd] in *.
    destruct (H r t1 t2 P1 P2) as (e1 & e2 & A1 & A2 & E). eapply bop_aligned; eauto.
  - exists ls. split; [auto|]. rewrite combine_length, L1, L2, Nat.min_id in L. split; [auto|]. split; [auto|]. split; [auto|]. split; [auto|]. split; [auto|]. exact Q.
Qed.

Lemma full_map_length m n : length (full_map m n) = length m. Proof. apply map_length. Qed.
Lemma full_map_zero m n : Forall (fun c => 0 <= c) m -> zsum m = 0 -> zsum (full_map m n) = 0.
Proof.
  induction 1 as [|c m Hc H IH]; intros S; [reflexivity|]. change (zsum (c :: m)) with (c + zsum m) in S.
  pose proof (zsum_nonneg m H). simpl. destruct (Z.eqb_spec c 0); [|lia]. unfold zsum in *. simpl. rewrite IH; lia.
Qed.
Lemma full_map_sum m n : Forall (fun c => 0 <= c) m -> zsum m = 1 -> zsum (full_map m n) = n.
Proof.
  induction 1 as [|c m Hc H IH]; intros S; [discriminate|]. change (zsum (c :: m)) with (c + zsum m) in S.
  pose proof (zsum_nonneg m H). simpl full_map. change (zsum ((if c =? 0 then 0 else n) :: full_map m n) = n).
  destruct (Z.eqb_spec c 0).
  - change (0 + zsum (full_map m n) = n). rewrite IH; lia.
  - change (n + zsum (full_map m n) = n). rewrite full_map_zero; auto; lia.
Qed.
Lemma full_map_nonneg m n : 0 <= n -> Forall (fun c => 0 <= c) (full_map m n).
Proof. intros Hn. apply Forall_forall. intros x Hx. apply in_map_iff in Hx as (c & <- & _). destruct (c =? 0); lia. Qed.

Lemma cut_map_aligned {A} (x : dnd A) (G : list Z -> A) cnts s tmap :
  represents G (d_gshape x) None cnts (d_locals x) -> (s < length (d_gshape x))%nat ->
  length tmap = length cnts -> Forall (fun c => 0 <= c) tmap -> zsum tmap = nth s (d_gshape x) 0 ->
  represents G (d_gshape x) (Some s) tmap (d_locals (cut_map x s tmap)).
Proof.
  intros (HL & Hn & HR) Hs LT HT ST. unfold cut_map. cbn [d_locals].
  split; [rewrite map_length, combine_length, seq_length; lia|]. split; [auto|]. split; [auto|]. split; [auto|]. split; [auto|].
  intros r t Ht. rewrite nth_error_map in Ht. destruct (nth_error (combine _ _) r) as [[r' tr]|] eqn:E; [|discriminate].
  injection Ht as <-. apply nth_error_combine in E as [E1 E2]. cbn [fst snd] in *.
  assert (Hr : (r < length (d_locals x))%nat) by (apply nth_error_Some; congruence).
  assert (r' = r) as -> by (apply nth_error_nth with (d:=0%nat) in E1; rewrite seq_nth in E1 by auto; lia).
  split; [reflexivity|]. unfold cut. cbn [adat]. intros idx Hi. apply nth_error_In in E2.
  destruct (HR tr E2) as [_ V]. unfold move_axis_idx. apply V.
  apply (move_in_bounds (d_gshape x) s tmap r); auto. lia.
Qed.

Definition truthful {A} (u : bnd A) : Prop := b_flag u = Some true ->
  match d_split (b_arr u) with
  | None => True
  | Some s => lcounts (b_arr u) s = zcounts (nth s (d_gshape (b_arr u)) 0) (length (d_locals (b_arr u)))
  end.
Lemma is_bal_true {A} (u : bnd A) s : truthful u -> d_split (b_arr u) = Some s -> is_bal u = true ->
  lcounts (b_arr u) s = zcounts (nth s (d_gshape (b_arr u)) 0) (length (d_locals (b_arr u))).
Proof.
  unfold truthful, is_bal. intros T E. rewrite E in *. destruct (b_flag u) as [[|]|]; intros H; auto; try discriminate.
  now apply eqb_idx_eq.
Qed.

Lemma zcounts_ok n P : (0 < P)%nat -> 0 <= n ->
  length (zcounts n P) = P /\ Forall (fun c => 0 <= c) (zcounts n P) /\ zsum (zcounts n P) = n.
Proof.
  intros HP Hn. unfold zcounts. split; [unfold counts_of; now rewrite !map_length, seq_length|]. split.
  - apply Forall_forall. intros c Hc. apply in_map_iff in Hc as (k & <- & _). lia.
  - rewrite (proj1 (counts_Z _ _ HP)). lia.
Qed.

Lemma represents_nth_nonneg {A} (G : list Z -> A) gsh sp cnts ls s : represents G gsh sp cnts ls -> (s < length gsh)%nat -> 0 <= nth s gsh 0.
Proof. intros (_ & Hn & _) Hs. rewrite Forall_forall in Hn. apply Hn, nth_In; auto. Qed.
Lemma one_rank_whole {A} (G : list Z -> A) gsh sp cnts ls t : represents G gsh sp cnts ls -> length ls = 1%nat -> In t ls -> agrees t gsh G.
Proof.
  intros (HL & Hn & HR) L1 Ht. destruct sp as [s|]; [|auto]. destruct HR as (Hs & Hc & Hsum & HR).
  destruct ls as [|t' [|]]; try discriminate. destruct Ht as [<-|[]]. destruct cnts as [|c [|]]; try discriminate.
  destruct (HR 0%nat t' eq_refl) as [S V]. change (zsum [c]) with (c + 0) in Hsum. cbn [nth] in S, V. replace c with (nth s gsh 0) in S, V by lia. rewrite upd_self in S, V.
  split; [auto|]. intros idx Hi. rewrite V by auto. f_equal. unfold move_axis_idx. simpl. rewrite Z.add_0_r. apply upd_self.
Qed.

Lemma sanitize_dist_ok {A} (dflt : A) (arg : bnd A) (G : list Z -> A) acnts s tsize tmap tbal :
  let x := b_arr arg in let P := length (d_locals x) in
  represents G (d_gshape x) (d_split x) acnts (d_locals x) -> truthful arg -> (s < length (d_gshape x))%nat ->
  (0 < P)%nat -> length tmap = P -> Forall (fun c => 0 <= c) tmap -> zsum tmap = tsize ->
  (tbal = true -> tmap = zcounts tsize P) ->
  (P = 1%nat /\ (nth s (d_gshape x) 0 = tsize \/ nth s (d_gshape x) 0 = 1) \/
   nth s (d_gshape x) 0 = 1 /\ 1 < tsize \/
   nth s (d_gshape x) 0 = tsize /\ (d_split x = None \/ d_split x = Some s)) ->
  exists z, sanitize_dist dflt arg s tsize tmap tbal = Ok z /\ length (d_locals z) = P /\
    forall r t, nth_error (d_locals z) r = Some t ->
      exists e, aligned t (d_gshape x) G s (nth r tmap 0) (zsum (firstn r tmap)) e /\ (nth s (d_gshape x) 0 = tsize -> e = nth r tmap 0).
Proof.
  intros x P HR HT Hs HP LT HN HS HB HC. unfold sanitize_dist. fold x. fold P.
  assert (HL : length (d_locals x) = length acnts) by apply HR.
  destruct (Nat.eqb_spec P 1) as [E1|N1].
  - exists x. split; [auto|]. split; [auto|]. intros r t Ht.
    assert (AG : agrees t (d_gshape x) G) by (eapply one_rank_whole; eauto using nth_error_In).
    assert (r = 0%nat) as -> by (assert (r < P)%nat by (apply nth_error_Some; congruence); lia).
    destruct tmap as [|c [|]]; simpl in LT; try lia. change (zsum [c]) with (c + 0) in HS. cbn [nth firstn].
    replace c with tsize by lia. change (zsum []) with 0.
    destruct (Z.eq_dec (nth s (d_gshape x) 0) tsize) as [E|N].
    + exists tsize. rewrite <- E. split; [now apply aligned_whole|auto].
    + exists 1. split; [apply aligned_one; auto; lia|lia].
  - assert (Hg0 : 0 <= nth s (d_gshape x) 0) by (eapply represents_nth_nonneg; eauto).
    destruct ((nth s (d_gshape x) 0 =? 1) && (1 <? tsize)) eqn:EB.
    + exists (resplit_none dflt x). destruct (resplit_none_represents G x acnts dflt HR) as (Eg & Es & R). split; [auto|].
      split; [destruct R as (RL & _); lia|]. intros r t Ht. exists 1. split; [|lia].
      apply aligned_one; [auto|lia|]. destruct R as (_ & _ & R). apply R. eapply nth_error_In; eauto.
    + destruct (Z.eqb_spec (nth s (d_gshape x) 0) tsize) as [E|N]; [|lia]. cbn [negb].
      assert (HC' : d_split x = None \/ d_split x = Some s) by (destruct HC as [[? ?]|[[? ?]|[? ?]]]; [lia|lia|auto]). clear HC.
      assert (AL : forall ls cn, represents G (d_gshape x) (Some s) cn ls -> cn = tmap ->
        forall r t, nth_error ls r = Some t -> exists e, aligned t (d_gshape x) G s (nth r tmap 0) (zsum (firstn r tmap)) e /\ (nth s (d_gshape x) 0 = tsize -> e = nth r tmap 0)).
      { intros ls cn (RL & _ & _ & Rc & Rs & R) -> r t Ht. exists (nth r tmap 0). split; [|auto].
        apply aligned_cut; auto. assert (r < length ls)%nat by (apply nth_error_Some; congruence). lia. }
      destruct HC' as [Es|Es]; rewrite Es in *.
      * set (m := if tbal then zcounts (nth s (d_gshape x) 0) P else tmap).
        assert (Em : m = tmap) by (unfold m; destruct tbal; [rewrite E; symmetry; auto|auto]).
        exists (cut_map x s m). split; [unfold m; destruct tbal; auto|].
        assert (R : represents G (d_gshape x) (Some s) m (d_locals (cut_map x s m))).
        { rewrite Em. apply cut_map_aligned with (cnts:=acnts); auto; [unfold P in LT|]; lia. }
        split; [destruct R as (RL & _); rewrite RL, Em; auto|]. eapply AL; eauto.
      * rewrite Nat.eqb_refl. cbn [negb].
        assert (LC : lcounts x s = acnts) by (eapply local_counts; eauto).
        destruct (tbal && is_bal arg) eqn:Eb; cbn [negb].
        -- apply andb_prop in Eb as [Eb1 Eb2]. exists x. split; [auto|]. split; [auto|]. eapply AL; [exact HR|].
           rewrite <- LC. unfold x. rewrite (is_bal_true arg s HT Es Eb2). fold x. fold P. rewrite E. symmetry. auto.
        -- destruct (eqb_idx (lcounts x s) tmap) eqn:Ec.
           ++ apply eqb_idx_eq in Ec. exists x. split; [auto|]. split; [auto|]. eapply AL; [exact HR|]. congruence.
           ++ assert (Rs : zsum acnts = nth s (d_gshape x) 0) by apply HR.
              destruct (redistribute_nd_ok dflt x G acnts s tmap HR) as (z & Ez & _ & _ & R); auto; unfold P in *; try lia.
              exists z. split; [auto|]. split; [destruct R as (RL & _); lia|]. eapply AL; eauto.
Qed.

Lemma sanitize_dist_err {A} (dflt : A) (arg : bnd A) s tsize tmap tbal :
  let x := b_arr arg in let P := length (d_locals x) in
  P <> 1%nat -> ~ (nth s (d_gshape x) 0 = 1 /\ 1 < tsize) ->
  ~ (nth s (d_gshape x) 0 = tsize /\ (d_split x = None \/ d_split x = Some s)) ->
  exists e, sanitize_dist dflt arg s tsize tmap tbal = Err e.
Proof.
  intros x P N1 N2 N3. unfold sanitize_dist. fold x. fold P. destruct (Nat.eqb_spec P 1); [lia|].
  destruct ((nth s (d_gshape x) 0 =? 1) && (1 <? tsize)) eqn:EB; [lia|].
  destruct (Z.eqb_spec (nth s (d_gshape x) 0) tsize); cbn [negb]; [|eauto].
  destruct (d_split x) as [s'|] eqn:Es; [|exfalso; apply N3; auto].
  destruct (Nat.eqb_spec s' s) as [->|]; cbn [negb]; [exfalso; apply N3; auto|eauto].
Qed.

Lemma osh_nonneg gsh1 gsh2 osh : bshape gsh1 gsh2 = Ok osh -> Forall (fun n => 0 <= n) gsh1 -> Forall (fun n => 0 <= n) gsh2 -> Forall (fun n => 0 <= n) osh.
Proof.
  intros HB H1 H2. apply bshape_ok in HB as (L1 & L2 & HB). rewrite Forall_forall in *. intros n Hn.
  apply (In_nth _ _ 0) in Hn as (i & Hi & <-). specialize (HB i Hi).
  assert (0 <= nth i gsh1 0) by (apply H1, nth_In; lia). assert (0 <= nth i gsh2 0) by (apply H2, nth_In; lia).
  unfold bcast_dim in HB. lia.
Qed.

Section Core.
Variables (A B C : Type) (da : A) (db : B) (f : A -> B -> C) (x1 : bnd A) (x2 : bnd B).
Variables (G1 : list Z -> A) (G2 : list Z -> B) (c1 c2 : list Z) (osh : list Z).
Let y1 := b_arr x1. Let y2 := b_arr x2. Let P := length (d_locals y1).
Let g1 := d_gshape y1. Let g2 := d_gshape y2.
Hypothesis R1 : represents G1 g1 (d_split y1) c1 (d_locals y1).
Hypothesis R2 : represents G2 g2 (d_split y2) c2 (d_locals y2).
Hypothesis T1 : truthful x1.
Hypothesis T2 : truthful x2.
Hypothesis HP : (0 < P)%nat.
Hypothesis HPP : length (d_locals y2) = P.
Hypothesis HB : bshape g1 g2 = Ok osh.
Let F := fun idx => f (G1 (clamp g1 idx)) (G2 (clamp g2 idx)).

Lemma len_eq : length g1 = length osh /\ length g2 = length osh.
Proof. apply bshape_ok in HB as (L1 & L2 & _). auto. Qed.
Lemma dim_at s : (s < length osh)%nat -> bcast_dim (nth s g1 0) (nth s g2 0) (nth s osh 0).
Proof. intros. apply bshape_ok in HB as (_ & _ & H0). auto. Qed.

(** first operand is the target, not broadcast *)
Lemma core_dom1 s : d_split y1 = Some s -> nth s g1 0 = nth s osh 0 ->
  (P = 1%nat \/ nth s g2 0 = 1 /\ 1 < nth s osh 0 \/ nth s g2 0 = nth s osh 0 /\ (d_split y2 = None \/ d_split y2 = Some s)) ->
  exists z2 ls, sanitize_dist db x2 s (nth s g1 0) (lcounts y1 s) (is_bal x1) = Ok z2 /\
    all_ok (map (fun p => bop f (fst p) (snd p)) (combine (d_locals y1) (d_locals z2))) = Ok ls /\
    represents F osh (Some s) c1 ls.
Proof.
  intros Es Ed HC. assert (R1' := R1). rewrite Es in R1'. pose proof (local_counts _ _ _ _ _ R1') as LC. fold (lcounts y1 s) in LC.
  destruct R1' as (RL & Rn & Rs & Rc & Rsum & RR). destruct len_eq as [Q1 Q2].
  pose proof (dim_at s ltac:(lia)) as D.
  destruct (sanitize_dist_ok db x2 G2 c2 s (nth s g1 0) (lcounts y1 s) (is_bal x1)) as (z2 & E & Lz & Al); auto.
  - fold y2 g2. lia.
  - fold y2. lia.
  - rewrite LC. fold y2. unfold P in *. lia.
  - rewrite LC. auto.
  - rewrite LC. auto.
  - intros Hb. fold y2. rewrite HPP. apply (is_bal_true x1 s T1 Es Hb).
  - fold y2. fold g2. rewrite HPP. unfold bcast_dim in D. destruct HC as [HC|[HC|HC]]; [left|right; left|right; right]; intuition lia.
  - rewrite LC in *.
    destruct (assemble f g1 g2 osh G1 G2 s c1 (d_locals y1) (d_locals z2)) as (ls & E2 & RR2); auto; try lia.
    + eapply osh_nonneg; eauto. apply R2.
    + fold y2 in Lz. unfold P in *. lia.
    + intros r t1 t2 H1 H2. destruct (Al r t2 H2) as (e & A2 & _). exists (nth r c1 0), e.
      split; [|split; [exact A2|auto]]. apply aligned_cut; auto. assert (r < length (d_locals y1))%nat by (apply nth_error_Some; congruence). lia.
    + eauto.
Qed.
(** second operand is the target, not broadcast *)
Lemma core_dom2 s : d_split y2 = Some s -> nth s g2 0 = nth s osh 0 ->
  (P = 1%nat \/ nth s g1 0 = 1 /\ 1 < nth s osh 0 \/ nth s g1 0 = nth s osh 0 /\ (d_split y1 = None \/ d_split y1 = Some s)) ->
  exists z1 ls, sanitize_dist da x1 s (nth s g2 0) (lcounts y2 s) (is_bal x2) = Ok z1 /\
    all_ok (map (fun p => bop f (fst p) (snd p)) (combine (d_locals z1) (d_locals y2))) = Ok ls /\
    represents F osh (Some s) c2 ls.
Proof.
  intros Es Ed HC. assert (R2' := R2). rewrite Es in R2'. pose proof (local_counts _ _ _ _ _ R2') as LC. fold (lcounts y2 s) in LC.
  destruct R2' as (RL & Rn & Rs & Rc & Rsum & RR). destruct len_eq as [Q1 Q2].
  pose proof (dim_at s ltac:(lia)) as D.
  destruct (sanitize_dist_ok da x1 G1 c1 s (nth s g2 0) (lcounts y2 s) (is_bal x2)) as (z1 & E & Lz & Al); auto.
  - fold y1 g1. lia.
  - rewrite LC. fold y1. fold P. lia.
  - rewrite LC. auto.
  - rewrite LC. auto.
  - intros Hb. fold y1. fold P. rewrite <- HPP. apply (is_bal_true x2 s T2 Es Hb).
  - fold y1. fold g1. fold P. unfold bcast_dim in D. destruct HC as [HC|[HC|HC]]; [left|right; left|right; right]; intuition lia.
  - rewrite LC in *.
    destruct (assemble f g1 g2 osh G1 G2 s c2 (d_locals z1) (d_locals y2)) as (ls & E2 & RR2); auto; try lia.
    + eapply osh_nonneg; eauto. apply R1.
    + fold y1 in Lz. fold P in Lz. lia.
    + intros r t1 t2 H1 H2. destruct (Al r t1 H1) as (e & A2 & _). exists e, (nth r c2 0).
      split; [exact A2|split; [|auto]]. apply aligned_cut; auto. assert (r < length (d_locals y2))%nat by (apply nth_error_Some; congruence). lia.
    + eauto.
Qed.
(** first operand is the target and is broadcast along its split axis *)
Lemma core_b1 s : d_split y1 = Some s -> nth s g1 0 <> nth s osh 0 -> (P = 1%nat \/ d_split y2 = None) ->
  let m := full_map (lcounts y1 s) (nth s osh 0) in
  exists z2 ls, sanitize_dist db x2 s (zsum m) m (eqb_idx m (zcounts (zsum m) P)) = Ok z2 /\
    all_ok (map (fun p => bop f (fst p) (snd p)) (combine (d_locals y1) (d_locals z2))) = Ok ls /\
    represents F osh (Some s) m ls.
Proof.
  intros Es Ed HC m. assert (R1' := R1). rewrite Es in R1'. pose proof (local_counts _ _ _ _ _ R1') as LC. fold (lcounts y1 s) in LC.
  destruct R1' as (RL & Rn & Rs & Rc & Rsum & RR). destruct len_eq as [Q1 Q2].
  pose proof (dim_at s ltac:(lia)) as D.
  assert (O1 : nth s g1 0 = 1) by (unfold bcast_dim in D; lia). assert (O2 : nth s g2 0 = nth s osh 0) by (unfold bcast_dim in D; lia).
  assert (On : Forall (fun n => 0 <= n) osh) by (eapply osh_nonneg; eauto; apply R2).
  assert (Os : 0 <= nth s osh 0) by (rewrite Forall_forall in On; apply On, nth_In; lia).
  assert (Zm : zsum m = nth s osh 0) by (unfold m; rewrite LC; apply full_map_sum; auto; lia).
  assert (Lm : length m = P) by (unfold m; rewrite full_map_length, LC; auto).
  assert (Nm : Forall (fun c => 0 <= c) m) by (now apply full_map_nonneg).
  destruct (sanitize_dist_ok db x2 G2 c2 s (zsum m) m (eqb_idx m (zcounts (zsum m) P))) as (z2 & E & Lz & Al); auto.
  - fold y2 g2. lia.
  - fold y2. lia.
  - fold y2. lia.
  - intros Hb. fold y2. rewrite HPP. now apply eqb_idx_eq.
  - fold y2. fold g2. rewrite HPP, Zm. destruct HC as [HC|HC]; [left; lia|right; right; auto].
  - destruct (assemble f g1 g2 osh G1 G2 s m (d_locals y1) (d_locals z2)) as (ls & E2 & RR2); auto; try lia.
    + fold y2 in Lz. lia.
    + intros r t1 t2 H1 H2. destruct (Al r t2 H2) as (e & A2 & A3). exists (nth r c1 0), e.
      split; [|split; [exact A2|right; apply A3; fold y2 g2; lia]]. unfold m. rewrite LC. apply aligned_bsplit; auto.
      assert (r < length (d_locals y1))%nat by (apply nth_error_Some; congruence). lia.
    + eauto.
Qed.
Lemma core_b2 s : d_split y2 = Some s -> nth s g2 0 <> nth s osh 0 -> (P = 1%nat \/ d_split y1 = None) ->
  let m := full_map (lcounts y2 s) (nth s osh 0) in
  exists z1 ls, sanitize_dist da x1 s (zsum m) m (eqb_idx m (zcounts (zsum m) P)) = Ok z1 /\
    all_ok (map (fun p => bop f (fst p) (snd p)) (combine (d_locals z1) (d_locals y2))) = Ok ls /\
    represents F osh (Some s) m ls.
Proof.
  intros Es Ed HC m. assert (R2' := R2). rewrite Es in R2'. pose proof (local_counts _ _ _ _ _ R2') as LC. fold (lcounts y2 s) in LC.
  destruct R2' as (RL & Rn & Rs & Rc & Rsum & RR). destruct len_eq as [Q1 Q2].
  pose proof (dim_at s ltac:(lia)) as D.
  assert (O1 : nth s g2 0 = 1) by (unfold bcast_dim in D; lia). assert (O2 : nth s g1 0 = nth s osh 0) by (unfold bcast_dim in D; lia).
  assert (On : Forall (fun n => 0 <= n) osh) by (eapply osh_nonneg; eauto; apply R1).
  assert (Os : 0 <= nth s osh 0) by (rewrite Forall_forall in On; apply On, nth_In; lia).
  assert (Zm : zsum m = nth s osh 0) by (unfold m; rewrite LC; apply full_map_sum; auto; lia).
  assert (Lm : length m = P) by (unfold m; rewrite full_map_length, LC, <- RL; auto).
  assert (Nm : Forall (fun c => 0 <= c) m) by (now apply full_map_nonneg).
  destruct (sanitize_dist_ok da x1 G1 c1 s (zsum m) m (eqb_idx m (zcounts (zsum m) P))) as (z1 & E & Lz & Al); auto.
  - fold y1 g1. lia.
  - intros Hb. fold y1. fold P. now apply eqb_idx_eq.
  - fold y1. fold g1. fold P. rewrite Zm. destruct HC as [HC|HC]; [left; lia|right; right; auto].
  - destruct (assemble f g1 g2 osh G1 G2 s m (d_locals z1) (d_locals y2)) as (ls & E2 & RR2); auto; try lia.
    + fold y1 in Lz. fold P in Lz. lia.
    + intros r t1 t2 H1 H2. destruct (Al r t1 H1) as (e & A2 & A3). exists e, (nth r c2 0).
      split; [exact A2|split; [|left; apply A3; fold y1 g1; lia]]. unfold m. rewrite LC. apply aligned_bsplit; auto.
      assert (r < length (d_locals y2))%nat by (apply nth_error_Some; congruence). lia.
    + eauto.
Qed.
Lemma core_none : d_split y1 = None -> d_split y2 = None ->
  exists ls, all_ok (map (fun p => bop f (fst p) (snd p)) (combine (d_locals y1) (d_locals y2))) = Ok ls /\
    represents F osh None c1 ls.
Proof.
  intros E1 E2. rewrite E1 in R1. rewrite E2 in R2. destruct R1 as (L1 & N1 & V1). destruct R2 as (L2 & N2 & V2).
  destruct len_eq as [Q1 Q2].
  destruct (all_ok_Qn (fun p => bop f (fst p) (snd p)) (fun _ t => agrees t osh F) (combine (d_locals y1) (d_locals y2))) as (ls & E & L & Q).
  - intros r [t1 t2] Hp. apply nth_error_combine in Hp as [P1 P2]. cbn [fst snd] in *.
    destruct (V1 t1 (nth_error_In _ _ P1)) as [S1 W1]. destruct (V2 t2 (nth_error_In _ _ P2)) as [S2 W2].
    unfold bop. rewrite S1, S2, HB. cbn [bind]. eexists. split; [reflexivity|]. split; [reflexivity|]. cbn [adat]. intros idx Hi.
    rewrite !bclamp_clamp. apply in_bounds_nth in Hi as [LI Hi]. unfold F. f_equal.
    + apply W1. apply in_bounds_nth. rewrite clamp_length by lia. split; [lia|]. intros i Hi'. rewrite clamp_nth by lia.
      specialize (Hi i ltac:(lia)). pose proof (dim_at i ltac:(lia)) as D. unfold bcast_dim in D. destruct (Z.eqb_spec (nth i g1 0) 1); lia.
    + apply W2. apply in_bounds_nth. rewrite clamp_length by lia. split; [lia|]. intros i Hi'. rewrite clamp_nth by lia.
      specialize (Hi i ltac:(lia)). pose proof (dim_at i ltac:(lia)) as D. unfold bcast_dim in D. destruct (Z.eqb_spec (nth i g2 0) 1); lia.
  - exists ls. split; [auto|]. rewrite combine_length in L. split; [unfold P in *; lia|]. split; [eapply osh_nonneg; eauto|].
    intros t Ht. apply In_nth_error in Ht as (r & Ht). eapply Q; eauto.
Qed.
End Core.
