(** Invariant of the iterated differences. *)
From Verif Require Import Base BaseLemmas LayoutModel TensorSpec NdSpec TensorLemmas NdLemmas OpsModel OpsProofs4 PySpec PySpecSel IndexModel IndexProps ShapeModel ShapeProofs4 BinModel BinProofs SlabLemmas RollModel RollProofs3 UniqueProps4 MatmulProofs2 DiffSpec DiffModel.
Open Scope Z_scope.

Lemma move_nth_same s d idx : (s < length idx)%nat -> nth s (move_axis_idx s d idx) 0 = nth s idx 0 + d.
Proof. intros. unfold move_axis_idx. now rewrite upd_same. Qed.
Lemma move_nth_other s k d idx : k <> s -> nth k (move_axis_idx s d idx) 0 = nth k idx 0.
Proof. intros. unfold move_axis_idx. now rewrite upd_other. Qed.
Lemma move_comm a b d e idx : (a < length idx)%nat -> (b < length idx)%nat -> move_axis_idx a d (move_axis_idx b e idx) = move_axis_idx b e (move_axis_idx a d idx).
Proof.
  intros Ha Hb. unfold move_axis_idx. destruct (Nat.eq_dec a b) as [->|N].
  - rewrite !upd_same, !upd_upd by auto. f_equal. lia.
  - rewrite (upd_other idx) by auto. rewrite (upd_other idx (k := a)) by auto. apply RedistProofs.upd_comm. auto.
Qed.
Lemma zprod_upd_le sh k a b : (k < length sh)%nat -> Forall (fun n => 0 <= n) sh -> 0 <= a <= b -> zprod (upd sh k a) <= zprod (upd sh k b).
Proof.
  intros Hk F Hab. rewrite (UniqueProps4.zprod_upd sh k a), (UniqueProps4.zprod_upd sh k b) by auto.
  assert (0 <= zprod (upd sh k 1)) by (apply zprod_nonneg; apply OpsProofs5.Forall_upd; auto; lia). nia.
Qed.
Lemma flat_nth {A} (t : arr A) idx d : in_bounds (ash t) idx -> nth (Z.to_nat (ravel (ash t) idx)) (flat t) d = adat t idx /\ (Z.to_nat (ravel (ash t) idx) < length (flat t))%nat.
Proof.
  intros H. unfold flat, ravel. set (p := Z.to_nat (dot idx (cstrides (ash t)))).
  assert (Hp : (p < length (row_major (ash t)))%nat).
  { destruct (Nat.lt_ge_cases p (length (row_major (ash t)))) as [|GE]; [auto|]. pose proof (row_major_ravel (ash t) idx (0 :: idx) H) as E. fold p in E. rewrite nth_overflow in E by auto.
    apply (f_equal (@length Z)) in E. cbn in E. lia. }
  split; [|now rewrite map_length]. rewrite (nth_indep _ d (adat t idx)) by (now rewrite map_length). rewrite map_nth. unfold p. now rewrite row_major_ravel.
Qed.
Lemma flat_length {A} (t : arr A) : Forall (fun n => 0 <= n) (ash t) -> Z.of_nat (length (flat t)) = zprod (ash t).
Proof. intros F. unfold flat. rewrite map_length. now apply row_major_length. Qed.

Section DiffP.
Context {A : Type} (minus : A -> A -> A) (one dflt : A).
Variables (G : list Z -> A) (gsh cnts : list Z) (s axis : nat).
Hypothesis Hs : (s < length gsh)%nat.
Hypothesis Ha : (axis < length gsh)%nat.
Hypothesis Hn : Forall (fun z => 0 <= z) gsh.
Hypothesis Hc : Forall (fun c => 0 <= c) cnts.
Hypothesis Hsum : zsum cnts = nth s gsh 0.
Let N := nth axis gsh 0.
Hypothesis HS : smooth cnts s axis.
Let o r := zsum (firstn r cnts).
(** after k rounds all positions below N - k hold the k-th differences *)
Definition upto (k : Z) (F : list Z -> A) (ts : list (arr A)) : Prop :=
  length ts = length cnts /\ forall r t, nth_error ts r = Some t -> ash t = upd gsh s (nth r cnts 0) /\
    forall idx, in_bounds (ash t) idx -> nth axis (move_axis_idx s (o r) idx) 0 < N - k -> adat t idx = F (move_axis_idx s (o r) idx).
Lemma o_S r : (r < length cnts)%nat -> o (S r) = o r + nth r cnts 0.
Proof. intros Hr. unfold o. apply zsum_firstn_S. auto. Qed.
Lemma cr0 r : 0 <= nth r cnts 0. Proof. apply Forall_nth0. exact Hc. Qed.
Lemma sh_nonneg r : Forall (fun z => 0 <= z) (upd gsh s (nth r cnts 0)).
Proof. apply OpsProofs5.Forall_upd; [exact Hn|apply cr0]. Qed.
Lemma rest_empty r : axis = s -> (S r < length cnts)%nat -> nth (S r) cnts 0 = 0 -> o (S r) = nth s gsh 0.
Proof.
  intros E Hr Hz. unfold smooth in HS. rewrite E, Nat.eqb_refl in HS.
  assert (Q : forall j, (S r + j < length cnts)%nat -> nth (S r + j) cnts 0 = 0).
  { induction j as [|j IH]; intros Hj; [now rewrite Nat.add_0_r|]. rewrite Nat.add_succ_r in *. apply HS; [lia|]. apply IH. lia. }
  assert (Q2 : forall j, (S r + j <= length cnts)%nat -> o (S r + j) = o (S r)).
  { induction j as [|j IH]; intros Hj; [now rewrite Nat.add_0_r|]. rewrite Nat.add_succ_r in *. rewrite o_S by lia. rewrite Q, IH by lia. lia. }
  specialize (Q2 (length cnts - S r)%nat ltac:(lia)). rewrite <- Q2. replace (S r + (length cnts - S r))%nat with (length cnts) by lia. unfold o. now rewrite firstn_all.
Qed.
Lemma receive_ok r (t next : arr A) : ash t = upd gsh s (nth r cnts 0) -> ash next = upd gsh s (nth (S r) cnts 0) -> (S r < length cnts)%nat ->
  exists rest, receive one axis t next = Ok (flat (first_slab axis next) ++ rest).
Proof.
  intros St Sn Hr. unfold receive. set (msg := flat (first_slab axis next)).
  assert (Bd : (length msg <= Z.to_nat (zprod (ash (first_slab axis t))))%nat); [|destruct (Nat.ltb_spec (Z.to_nat (zprod (ash (first_slab axis t)))) (length msg)); [lia|eauto]].
  pose proof (cr0 r) as C0. pose proof (cr0 (S r)) as C1.
  assert (E : Z.of_nat (length msg) = zprod (ash (first_slab axis next))).
  { apply flat_length. unfold first_slab. cbn [ash]. apply OpsProofs5.Forall_upd; [rewrite Sn; apply sh_nonneg|]. unfold ext. rewrite Sn. pose proof (Forall_nth0 _ axis (sh_nonneg (S r))). lia. }
  assert (LE : zprod (ash (first_slab axis next)) <= zprod (ash (first_slab axis t))); [|lia].
  unfold first_slab, ext. cbn [ash]. rewrite St, Sn. unfold smooth in HS. destruct (Nat.eqb_spec axis s) as [->|NE].
  - rewrite !upd_same, !upd_upd by auto. apply zprod_upd_le; auto. specialize (HS r Hr). lia.
  - rewrite !(upd_other gsh) by auto. rewrite !(@RedistProofs.upd_comm _ gsh s axis) by auto. apply zprod_upd_le; [now rewrite upd_length| |split; [auto|apply HS; auto]].
    apply OpsProofs5.Forall_upd; [auto|]. pose proof (Forall_nth0 _ axis Hn). lia.
Qed.
Lemma step_ok k F ts : 0 <= k -> upto k F ts -> exists ts', diff_step minus one axis (Ok ts) = Ok ts' /\ upto (k + 1) (difference minus axis F) ts'.
Proof.
  intros Hk [HL HT]. unfold diff_step. cbn [bind].
  destruct (all_ok_list (fun p => diff_rank minus one axis ts (fst p) (snd p)) (fun r t' => ash t' = upd gsh s (nth r cnts 0) /\
     forall idx, in_bounds (ash t') idx -> nth axis (move_axis_idx s (o r) idx) 0 < N - (k + 1) -> adat t' idx = difference minus axis F (move_axis_idx s (o r) idx)) (combine (seq 0 (length ts)) ts) 0) as (ts' & E & L & I).
  - intros r [r' t] Hrt. apply nth_error_pairs in Hrt as [HA HB]. assert (Hr : (r < length ts)%nat) by (apply nth_error_Some; congruence).
    rewrite (nth_error_nth' _ 0%nat) in HA by (now rewrite seq_length). rewrite seq_nth in HA by auto. injection HA as <-. cbn [fst snd Nat.add].
    destruct (HT r t HB) as [St Dt]. unfold diff_rank. set (m := ext axis t). assert (Em : m = nth axis (ash t) 0) by reflexivity.
    assert (INNER : forall idx, in_bounds (ash t) idx -> nth axis (move_axis_idx s (o r) idx) 0 < N - (k + 1) -> nth axis idx 0 < m - 1 ->
       minus (adat t (move_axis_idx axis 1 idx)) (adat t idx) = difference minus axis F (move_axis_idx s (o r) idx)).
    { intros idx Hb Hlt Hi. pose proof Hb as Hb'. apply in_bounds_nth in Hb' as [LI BI]. rewrite St, upd_length in LI. unfold difference.
      assert (Hb1 : in_bounds (ash t) (move_axis_idx axis 1 idx)).
      { apply in_bounds_nth. unfold move_axis_idx. rewrite upd_length. rewrite St at 1. rewrite upd_length. split; [auto|]. intros j Hj. destruct (Nat.eq_dec j axis) as [->|Nj].
        - rewrite upd_same by lia. specialize (BI axis ltac:(rewrite St, upd_length; lia)). lia.
        - rewrite upd_other by auto. apply BI. auto. }
      rewrite (Dt _ Hb1), (Dt _ Hb).
      - f_equal. f_equal. apply move_comm; lia.
      - lia.
      - rewrite move_comm by lia. rewrite move_nth_same; [lia|]. unfold move_axis_idx. rewrite upd_length. lia. }
    (* the last slab *)
    assert (LAST : forall idx, in_bounds (ash t) idx -> nth axis (move_axis_idx s (o r) idx) 0 < N - (k + 1) -> ~ nth axis idx 0 < m - 1 -> axis = s /\ nth s idx 0 = nth r cnts 0 - 1 /\ (S r < length cnts)%nat /\ 1 <= nth (S r) cnts 0).
    { intros idx Hb Hlt Hi. apply in_bounds_nth in Hb as [LI BI]. rewrite St, upd_length in LI, BI. destruct (Nat.eq_dec axis s) as [Eas|NE].
      - split; [auto|]. assert (Hm : m = nth r cnts 0) by (unfold m, ext; rewrite Eas, St; now rewrite upd_same). assert (HN : N = nth s gsh 0) by (unfold N; now rewrite Eas).
        rewrite Eas in Hlt, Hi. rewrite move_nth_same in Hlt by lia. specialize (BI s Hs). rewrite upd_same in BI by auto.
        assert (o (S r) < nth s gsh 0) by (rewrite o_S by lia; lia).
        assert (S1 : (S r < length cnts)%nat). { destruct (Nat.eq_dec (S r) (length cnts)) as [ES|]; [|lia]. unfold o in H. rewrite ES, firstn_all in H. lia. }
        split; [lia|]. split; [auto|]. pose proof (cr0 (S r)). destruct (Z.eq_dec (nth (S r) cnts 0) 0) as [Z0|]; [|lia]. pose proof (rest_empty r Eas S1 Z0). lia.
      - exfalso. rewrite move_nth_other in Hlt by auto. unfold m, ext in Hi. rewrite St, upd_other in Hi by auto. fold N in Hi. specialize (BI axis Ha). lia. }
    destruct (nth_error ts (S r)) as [next|] eqn:En.
    + assert (Hr2 : (S r < length cnts)%nat) by (rewrite <- HL; apply nth_error_Some; congruence). destruct (HT (S r) next En) as [Sn Dn].
      destruct (receive_ok r t next St Sn Hr2) as (rest & ER). rewrite ER. cbn [bind]. eexists. split; [reflexivity|]. cbn [ash adat]. split; [exact St|]. intros idx Hb Hlt.
      destruct (Z.ltb_spec (nth axis idx 0) (m - 1)) as [Hi|Hi]; [apply INNER; auto|]. destruct (LAST idx Hb Hlt ltac:(lia)) as (Eas & Ei & _ & C1).
      pose proof Hb as Hb'. apply in_bounds_nth in Hb' as [LI BI]. rewrite St, upd_length in LI, BI. assert (Cr : 1 <= nth r cnts 0) by (specialize (BI s Hs); rewrite upd_same in BI by auto; lia).
      assert (Hm : m = nth r cnts 0) by (unfold m, ext; rewrite Eas, St; now rewrite upd_same). assert (HN : N = nth s gsh 0) by (unfold N; now rewrite Eas).
      unfold difference. rewrite (Dt idx Hb ltac:(lia)). f_equal. rewrite Eas in Hlt, Hi. rewrite Eas.
      assert (Esh : upd (ash t) s (Z.min m 1) = ash (first_slab s next)).
      { rewrite Hm. unfold first_slab, ext. cbn [ash]. rewrite St, Sn, !upd_same, !upd_upd by auto. f_equal. lia. }
      rewrite Esh. assert (Hb0 : in_bounds (ash (first_slab s next)) (upd idx s 0)).
      { rewrite <- Esh, St, upd_upd. apply in_bounds_nth. rewrite !upd_length. split; [lia|]. intros j Hj. destruct (Nat.eq_dec j s) as [->|Nj].
        - rewrite !upd_same by lia. lia.
        - rewrite !upd_other by auto. specialize (BI j Hj). rewrite upd_other in BI by auto. auto. }
      destruct (flat_nth (first_slab s next) (upd idx s 0) one Hb0) as [V1 V2]. rewrite app_nth1 by exact V2. rewrite V1. cbn [first_slab adat].
      rewrite Dn.
      * f_equal. unfold move_axis_idx. rewrite !upd_upd, !upd_same by lia. f_equal. rewrite o_S by lia. lia.
      * rewrite Sn. apply in_bounds_nth. rewrite !upd_length. split; [lia|]. intros j Hj. destruct (Nat.eq_dec j s) as [->|Nj].
        -- rewrite !upd_same by lia. lia.
        -- rewrite !upd_other by auto. specialize (BI j Hj). rewrite upd_other in BI by auto. auto.
      * rewrite Eas. rewrite move_nth_same by (rewrite upd_length; lia). rewrite upd_same by lia. rewrite o_S by lia. rewrite move_nth_same in Hlt by lia. lia.
    + eexists. split; [reflexivity|]. cbn [ash adat]. split; [exact St|]. intros idx Hb Hlt. destruct (Z.ltb_spec (nth axis idx 0) (m - 1)) as [Hi|Hi]; [apply INNER; auto|].
      exfalso. destruct (LAST idx Hb Hlt ltac:(lia)) as (_ & _ & Q & _). apply nth_error_None in En. lia.
  - exists ts'. split; [exact E|]. rewrite combine_length, seq_length, Nat.min_id in L. split; [lia|exact I].
Qed.
Lemma iter_ok k ts : upto 0 G ts -> exists ts', Nat.iter k (diff_step minus one axis) (Ok ts) = Ok ts' /\ upto (Z.of_nat k) (differences minus axis k G) ts'.
Proof.
  intros H. induction k as [|k IH]; [exists ts; auto|]. destruct IH as (ts1 & E1 & U1). destruct (step_ok (Z.of_nat k) _ ts1 ltac:(lia) U1) as (ts2 & E2 & U2). exists ts2. split; [change (Nat.iter (S k) (diff_step minus one axis) (Ok ts)) with (diff_step minus one axis (Nat.iter k (diff_step minus one axis) (Ok ts))); rewrite E1; exact E2|].
  replace (Z.of_nat (S k)) with (Z.of_nat k + 1) by lia. exact U2.
Qed.
(** whatever the locals hold, they hold some global array *)
Lemma some_global (ts : list (arr A)) : length ts = length cnts -> (forall r t, nth_error ts r = Some t -> ash t = upd gsh s (nth r cnts 0)) ->
  exists H, represents H gsh (Some s) cnts ts.
Proof.
  intros HL HT. exists (fun g => let (p, y) := owner cnts (nth s g 0) in adat (nth p ts (mk_arr [] (fun _ => dflt))) (upd g s y)).
  split; [auto|]. split; [auto|]. split; [auto|]. split; [auto|]. split; [auto|]. intros r t Ht. assert (Hr : (r < length cnts)%nat) by (rewrite <- HL; apply nth_error_Some; congruence).
  split; [auto|]. intros idx Hb. rewrite <- (HT r t Ht) in Hb. pose proof Hb as Hb'. rewrite (HT r t Ht) in Hb'. apply in_bounds_nth in Hb' as [LI BI]. rewrite upd_length in LI, BI. specialize (BI s Hs). rewrite upd_same in BI by auto.
  rewrite move_nth_same by lia. fold (o r).
  assert (OX : owner cnts (nth s idx 0 + o r) = (r, nth s idx 0)).
  { clear - Hc Hr BI. unfold o. revert r Hr BI. induction cnts as [|c l IH]; intros [|r] Hr BI; cbn [length] in Hr; try lia.
    - cbn [owner firstn zsum fold_right nth] in *. rewrite Z.add_0_r. destruct (Z.ltb_spec (nth s idx 0) c); [auto|lia].
    - cbn [owner firstn nth] in *. inversion Hc as [|? ? C0 C1]; subst. change (zsum (c :: firstn r l)) with (c + zsum (firstn r l)).
      assert (0 <= zsum (firstn r l)) by (apply (zsum_firstn_mono l 0 r C1); lia). destruct (Z.ltb_spec (nth s idx 0 + (c + zsum (firstn r l))) c); [lia|].
      replace (nth s idx 0 + (c + zsum (firstn r l)) - c) with (nth s idx 0 + zsum (firstn r l)) by lia. rewrite IH by (auto; lia). auto. }
  rewrite OX. rewrite (nth_error_nth _ _ _ Ht). unfold move_axis_idx. rewrite upd_upd, upd_self. auto.
Qed.
Lemma upto_global k F ts H : upto k F ts -> represents H gsh (Some s) cnts ts -> forall g, in_bounds gsh g -> nth axis g 0 < N - k -> H g = F g.
Proof.
  intros [HL HT] (_ & _ & _ & _ & _ & HR) g Hg Hlt. pose proof Hg as Hg'. apply in_bounds_nth in Hg' as [LG BG].
  pose proof (owner_spec cnts (nth s g 0) Hc) as OS. rewrite Hsum in OS. specialize (OS (BG s Hs)). destruct (owner cnts (nth s g 0)) as [p y]. destruct OS as (Hp & Ey & Hy).
  destruct (nth_error ts p) as [t|] eqn:Et; [|apply nth_error_None in Et; lia]. destruct (HT p t Et) as [St Dt]. destruct (HR p t Et) as [_ Dr].
  assert (Hb : in_bounds (upd gsh s (nth p cnts 0)) (upd g s y)).
  { apply in_bounds_nth. rewrite !upd_length. split; [lia|]. intros j Hj. destruct (Nat.eq_dec j s) as [->|Nj]; [rewrite !upd_same by lia; lia|rewrite !upd_other by auto; apply BG; auto]. }
  assert (EG : move_axis_idx s (o p) (upd g s y) = g).
  { unfold move_axis_idx. rewrite upd_upd, upd_same by lia. replace (y + o p) with (nth s g 0) by (unfold o; lia). apply upd_self. }
  specialize (Dr _ Hb). fold (o p) in Dr. rewrite EG in Dr. rewrite <- Dr. rewrite <- EG at 2. apply Dt; [now rewrite St|]. now rewrite EG.
Qed.
End DiffP.
