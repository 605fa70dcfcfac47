(** allclose and isclose: proofs. *)
From Verif Require Import Base ShapeSpec BaseLemmas LayoutModel NdSpec TensorSpec TensorLemmas NdLemmas ShapeProofs3 OpsModel OpsProofs4 OpsProofs5 RedistModel ShapeModel ShapeProofs4 ShapeProps BinSpec BinModel BinProofs BinProofs2 BinProofs3 BinProps RollModel RollProofs3 RepeatModel RepeatProofs3 CloseSpec CloseModel CloseProofs.
Open Scope Z_scope.

Lemma bshape_same sh : bshape sh sh = Ok sh.
Proof. induction sh as [|a sh IH]; [reflexivity|]. cbn [bshape]. unfold bdim. rewrite Z.eqb_refl. cbn [bind]. now rewrite IH. Qed.
Lemma bshape_ones_r sh : bshape sh (repeat 1 (length sh)) = Ok sh.
Proof.
  induction sh as [|a sh IH]; [reflexivity|]. cbn [bshape repeat length]. unfold bdim. rewrite Z.eqb_refl.
  destruct (Z.eqb_spec a 1) as [->|]; cbn [bind]; now rewrite IH.
Qed.
Lemma bshape_ones_l sh : bshape (repeat 1 (length sh)) sh = Ok sh.
Proof.
  induction sh as [|a sh IH]; [reflexivity|]. cbn [bshape repeat length]. unfold bdim. rewrite Z.eqb_refl.
  destruct (Z.eqb_spec 1 a) as [<-|]; cbn [bind]; now rewrite IH.
Qed.
Lemma bclamp_in sh idx : in_bounds sh idx -> bclamp sh idx = idx.
Proof. intros H. induction H as [|n i sh idx H1 H2 IH]; [reflexivity|]. cbn [bclamp]. rewrite IH. destruct (Z.eqb_spec n 1); [|auto]. f_equal; lia. Qed.
Lemma pad_same {A} (t : arr A) n : n = length (ash t) -> ash (pad_arr n t) = ash t /\ forall idx, adat (pad_arr n t) idx = adat t idx.
Proof. intros ->. unfold pad_arr. rewrite Nat.sub_diag. split; reflexivity. Qed.

Section L.
Context {A : Type} (close : A -> A -> bool).
(** the local comparison succeeds, has the first operand's shape and the elements [F] *)
Definition result_is (t1 t2 : arr A) (F : list Z -> bool) (sh : list Z) : Prop :=
  exists t, local_close close t1 t2 = Ok t /\ ash t = sh /\ forall idx, in_bounds sh idx -> adat t idx = F idx.
Lemma close_same t1 t2 : ash t1 = ash t2 -> result_is t1 t2 (fun idx => close (adat t1 idx) (adat t2 idx)) (ash t1).
Proof.
  intros E. unfold result_is, local_close. rewrite <- E, Nat.max_id. unfold bop.
  destruct (pad_same t1 (length (ash t1)) eq_refl) as [-> D1]. destruct (pad_same t2 (length (ash t1)) ltac:(now rewrite E)) as [-> D2]. rewrite <- E, bshape_same. cbn [bind].
  eexists. split; [reflexivity|]. split; [reflexivity|]. intros idx Hi. cbn [adat]. rewrite D1, D2, bclamp_in by auto. reflexivity.
Qed.
Lemma scalar_pad (t : arr A) n idx : ash t = [] -> length idx = n -> ash (pad_arr n t) = repeat 1 n /\ adat (pad_arr n t) (bclamp (repeat 1 n) idx) = adat t [].
Proof.
  intros E L. unfold pad_arr. cbn [ash adat]. rewrite E. cbn [length]. rewrite Nat.sub_0_r, app_nil_r. split; [auto|].
  f_equal. apply length_zero_iff_nil. rewrite skipn_length, bclamp_clamp, clamp_length; rewrite ?repeat_length; lia.
Qed.
Lemma close_scalar t1 t2 : ash t2 = [] -> result_is t1 t2 (fun idx => close (adat t1 idx) (adat t2 [])) (ash t1).
Proof.
  intros E. unfold result_is, local_close. rewrite E. cbn [length]. rewrite Nat.max_0_r. unfold bop.
  destruct (pad_same t1 (length (ash t1)) eq_refl) as [-> D1].
  assert (EP : ash (pad_arr (length (ash t1)) t2) = repeat 1 (length (ash t1))) by (unfold pad_arr; cbn [ash]; rewrite E; cbn [length]; now rewrite Nat.sub_0_r, app_nil_r).
  rewrite EP, bshape_ones_r. cbn [bind]. eexists. split; [reflexivity|]. split; [reflexivity|]. intros idx Hi. cbn [adat].
  rewrite D1, bclamp_in by auto. rewrite (proj2 (scalar_pad t2 _ idx E (in_bounds_length _ _ Hi))). reflexivity.
Qed.
Lemma scalar_close t1 t2 : ash t1 = [] -> result_is t1 t2 (fun idx => close (adat t1 []) (adat t2 idx)) (ash t2).
Proof.
  intros E. unfold result_is, local_close. rewrite E. cbn [length]. rewrite Nat.max_0_l. unfold bop.
  destruct (pad_same t2 (length (ash t2)) eq_refl) as [-> D1].
  assert (EP : ash (pad_arr (length (ash t2)) t1) = repeat 1 (length (ash t2))) by (unfold pad_arr; cbn [ash]; rewrite E; cbn [length]; now rewrite Nat.sub_0_r, app_nil_r).
  rewrite EP, bshape_ones_l. cbn [bind]. eexists. split; [reflexivity|]. split; [reflexivity|]. intros idx Hi. cbn [adat].
  rewrite D1, (bclamp_in (ash t2) idx) by auto. rewrite (proj2 (scalar_pad t1 _ idx E (in_bounds_length _ _ Hi))). reflexivity.
Qed.

Lemma collect ps (F : arr A * arr A -> list Z -> bool) (sh : arr A * arr A -> list Z) :
  (forall q, In q ps -> result_is (fst q) (snd q) (F q) (sh q)) ->
  exists ls, all_ok (map (fun q => local_close close (fst q) (snd q)) ps) = Ok ls /\ length ls = length ps /\
    (forall r q t, nth_error ps r = Some q -> nth_error ls r = Some t -> ash t = sh q /\ forall idx, in_bounds (sh q) idx -> adat t idx = F q idx) /\
    (forallb (fun t => forallb (fun b => b) (flat t)) ls = true <-> forall q, In q ps -> forall idx, in_bounds (sh q) idx -> F q idx = true).
Proof.
  induction ps as [|q ps IH]; intros H.
  - exists []. split; [reflexivity|]. split; [reflexivity|]. split; [intros [|r] q t E; discriminate E|]. split; [intros _ q []|reflexivity].
  - destruct (H q (or_introl eq_refl)) as (t & E & S0 & D). destruct IH as (ls & El & L & N & B); [intros p Hp; apply H; now right|].
    exists (t :: ls). cbn [map OpsModel.all_ok]. rewrite E, El. cbn [bind]. split; [reflexivity|]. split; [simpl; lia|]. split.
    + intros [|r] q' t' E1 E2; cbn [nth_error] in *; [|eapply N; eauto]. injection E1 as <-. injection E2 as <-. auto.
    + cbn [forallb]. rewrite andb_true_iff, B. split.
      * intros [H1 H2] p [<-|Hp]; [|auto]. intros idx Hi. unfold flat in H1. rewrite forallb_forall in H1. rewrite <- (D idx Hi). apply H1. apply in_map, in_row_major. now rewrite S0.
      * intros H1. split; [|intros p Hp; apply H1; now right]. apply forallb_forall. intros b Hb. unfold flat in Hb. apply in_map_iff in Hb as (idx & <- & Hi).
        apply in_row_major in Hi. rewrite S0 in Hi. rewrite D by auto. apply H1; [now left|auto].
Qed.
End L.

Section C.
Context {A : Type} (dflt : A) (u1 u2 : bnd A) (G1 G2 : list Z -> A) (c1 c2 : list Z).
Let x := b_arr u1. Let y := b_arr u2. Let P := length (d_locals x).
Hypothesis R1 : rep x c1 G1. Hypothesis R2 : rep y c2 G2.
Hypothesis F1 : flag_ok u1 c1. Hypothesis F2 : flag_ok u2 c2.
Hypothesis HP : (0 < P)%nat. Hypothesis HPP : length (d_locals y) = P.

Lemma scatter_ok (a : dnd A) (ub : bnd A) (Ga Gb : list Z -> A) ca cb s :
  let b := b_arr ub in
  rep a ca Ga -> rep b cb Gb -> truthful ub -> length (d_locals a) = P -> length (d_locals b) = P -> (1 < P)%nat ->
  d_gshape a = d_gshape b -> d_split b = Some s -> d_split a = None ->
  exists z, (do t2 <- scatter a s; sanitize_dist dflt t2 s (nth s (d_gshape b) 0) (lcounts b s) (is_bal ub)) = Ok z /\
    represents Ga (d_gshape b) (Some s) cb (d_locals z).
Proof.
  intros b Ra Rb Tb La Lb HP1 EG Sb Sa. unfold rep in Ra, Rb. rewrite Sa in Ra. rewrite Sb in Rb.
  assert (Hs : (s < length (d_gshape b))%nat) by apply Rb. pose proof (proj1 Ra) as L1. pose proof (proj1 Rb) as L2.
  assert (C2 : lcounts b s = cb) by (unfold lcounts; eapply local_counts; eauto).
  unfold scatter. rewrite EG. destruct (Nat.leb_spec (length (d_gshape b)) s); [lia|]. cbn [bind].
  set (n := nth s (d_gshape b) 0). set (t := cut_map a s (zcounts n (length (d_locals a)))).
  assert (Hn : 0 <= n) by (eapply represents_nth_nonneg; eauto).
  assert (HPc : (0 < P)%nat) by lia.
  destruct (zcounts_ok n P HPc Hn) as (Z1 & Z2 & Z3).
  assert (Rt : represents Ga (d_gshape b) (Some s) (zcounts n P) (d_locals t)).
  { unfold t. rewrite La, <- EG. apply cut_map_aligned with (cnts := ca); auto; [rewrite EG; auto|lia|rewrite EG; auto]. }
  assert (Gt : d_gshape t = d_gshape b) by (unfold t, cut_map; cbn [d_gshape]; auto).
  assert (St : d_split t = Some s) by reflexivity.
  assert (Lt : length (d_locals t) = P) by (destruct Rt as (-> & _); auto).
  unfold sanitize_dist. cbn [b_arr]. rewrite Lt, Gt, St. fold n. destruct (Nat.eqb_spec P 1); [lia|].
  replace ((n =? 1) && (1 <? n)) with false by (destruct (Z.eqb_spec n 1); destruct (Z.ltb_spec 1 n); auto; lia).
  rewrite Z.eqb_refl, Nat.eqb_refl. cbn [negb is_bal b_flag]. rewrite andb_true_r, C2.
  assert (Ct : lcounts t s = zcounts n P) by (unfold lcounts; eapply local_counts; eauto). rewrite Ct.
  destruct (is_bal ub) eqn:B; cbn [negb].
  - apply (is_bal_true ub s Tb) in B; [|auto]. fold b in B. rewrite C2, Lb in B. fold n in B. exists t. split; [reflexivity|]. rewrite B. exact Rt.
  - destruct (eqb_idx (zcounts n P) cb) eqn:EC.
    + apply eqb_idx_eq in EC. exists t. split; [reflexivity|]. now rewrite <- EC.
    + rewrite <- Gt in Rt. pose proof Rb as (_ & _ & _ & Hc & Q & _).
      destruct (redistribute_nd_ok dflt t Ga (zcounts n P) s cb Rt ltac:(lia) ltac:(lia) Hc ltac:(rewrite Z3; exact Q)) as (z & Ez & _ & _ & Rz).
      exists z. split; [exact Ez|]. rewrite <- Gt. exact Rz.
Qed.

Definition close_cond : Prop := match d_split x, d_split y with
  | Some s, Some t => P = 1%nat \/ (if Nat.eqb s t then c1 = c2 else c1 = zcounts (nth s (d_gshape x) 0) P) | _, _ => True end.

Lemma whole (a : dnd A) Ga ca : rep a ca Ga -> length (d_locals a) = P -> (d_split a = None \/ P = 1%nat) -> represents Ga (d_gshape a) None c1 (d_locals a).
Proof.
  intros Ra La H. assert (L1 : length c1 = P) by (symmetry; apply R1). split; [lia|]. split; [apply Ra|]. intros t Ht. destruct H as [H|H].
  - unfold rep in Ra. rewrite H in Ra. apply Ra. auto.
  - eapply one_rank_whole; eauto. lia.
Qed.
Lemma dist_iff (a : dnd A) : length (d_locals a) = P -> distributed a = true <-> exists s, d_split a = Some s /\ (1 < P)%nat.
Proof.
  intros La. unfold distributed. rewrite La. destruct (d_split a) as [s|].
  - rewrite Nat.ltb_lt. split; [intros H; eauto|intros (s' & _ & H); auto].
  - split; [discriminate|intros (s' & E & _); discriminate].
Qed.

Lemma sanitize_close_ok : d_gshape x = d_gshape y -> close_cond ->
  exists z1 z2 sp c, sanitize_close dflt u1 u2 = Ok (z1, z2) /\ represents G1 (d_gshape x) sp c (d_locals z1) /\ represents G2 (d_gshape x) sp c (d_locals z2) /\ length (d_locals z1) = P.
Proof.
  intros EG HC. pose proof (flag_truthful u1 c1 G1 R1 F1) as T1. pose proof (flag_truthful u2 c2 G2 R2 F2) as T2.
  unfold sanitize_close. fold x y.
  pose proof (dist_iff x eq_refl) as Dx. pose proof (dist_iff y HPP) as Dy.
  destruct (distributed x) eqn:EDx; destruct (distributed y) eqn:EDy; cbn [andb negb].
  - destruct (proj1 Dx eq_refl) as (s & Sx & HP1). destruct (proj1 Dy eq_refl) as (t & Sy & _). unfold close_cond in HC. rewrite Sx, Sy in HC. destruct HC as [HC|HC]; [lia|].
    rewrite Sx, Sy. cbn [oeqb]. destruct (Nat.eqb_spec s t) as [Est|Ne].
    + rewrite <- Est in Sy. exists x, y, (Some s), c1. split; [reflexivity|]. unfold rep in R1, R2. rewrite Sx in R1. rewrite Sy in R2. split; [auto|]. split; [|auto]. rewrite HC, EG. auto.
    + assert (Hs : (s < length (d_gshape y))%nat) by (rewrite <- EG; unfold rep in R1; rewrite Sx in R1; apply R1).
      destruct (Nat.eqb_spec (length (d_gshape y)) 0); [lia|]. destruct (Nat.leb_spec (length (d_gshape y)) s); [lia|].
      assert (L2 : length c2 = P) by (rewrite <- HPP; symmetry; apply R2).
      destruct (to_split_ok dflt y G2 c2 (Some s) R2 ltac:(lia)) as (Eg & Es & El & c' & Rc & Lc & _ & Hk); [intros k [= <-]; auto|].
      exists x, (to_split dflt y (Some s)), (Some s), c1. split; [reflexivity|]. unfold rep in R1. rewrite Sx in R1. split; [auto|]. split; [|auto].
      rewrite HC, EG. rewrite (Hk s eq_refl) in Rc by congruence. rewrite L2 in Rc. exact Rc.
  - destruct (proj1 Dx eq_refl) as (s & Sx & HP1). assert (Sy : d_split y = None) by (destruct (d_split y) as [t|] eqn:Sy; [exfalso; assert (false = true) by (apply Dy; eauto); discriminate|reflexivity]).
    assert (Hs : (s < length (d_gshape x))%nat) by (unfold rep in R1; rewrite Sx in R1; apply R1).
    destruct (Nat.ltb_spec 0 (length (d_gshape y))); [|rewrite <- EG in *; lia]. rewrite Sx.
    destruct (scatter_ok y u1 G2 G1 c2 c1 s R2 R1 T1 HPP eq_refl HP1 (eq_sym EG) Sx Sy) as (z & Ez & Rz). fold x in Ez, Rz.
    destruct (scatter y s) as [t2|e]; cbn [bind] in *; [|discriminate]. rewrite Ez. cbn [bind].
    exists x, z, (Some s), c1. split; [reflexivity|]. unfold rep in R1. rewrite Sx in R1. auto.
  - destruct (proj1 Dy eq_refl) as (s & Sy & HP1). assert (Sx : d_split x = None) by (destruct (d_split x) as [t|] eqn:Sx; [exfalso; assert (false = true) by (apply Dx; eauto); discriminate|reflexivity]).
    assert (Hs : (s < length (d_gshape y))%nat) by (unfold rep in R2; rewrite Sy in R2; apply R2).
    destruct (Nat.ltb_spec 0 (length (d_gshape x))); [|rewrite EG in *; lia]. rewrite Sy.
    destruct (scatter_ok x u2 G1 G2 c1 c2 s R1 R2 T2 eq_refl HPP HP1 EG Sy Sx) as (z & Ez & Rz). fold y in Ez, Rz.
    destruct (scatter x s) as [t1|e]; cbn [bind] in *; [|discriminate]. rewrite Ez. cbn [bind].
    exists z, y, (Some s), c2. split; [reflexivity|]. unfold rep in R2. rewrite Sy in R2. rewrite EG. split; [auto|]. split; [auto|].
    destruct Rz as (-> & _). rewrite <- HPP. symmetry. apply R2.
  - assert (NP : (d_split x = None /\ d_split y = None) \/ P = 1%nat).
    { destruct (Nat.eq_dec P 1) as [|N]; [auto|]. left. split.
      - destruct (d_split x) as [t|] eqn:Sx; [exfalso; assert (false = true) by (apply Dx; exists t; split; [auto|lia]); discriminate|reflexivity].
      - destruct (d_split y) as [t|] eqn:Sy; [exfalso; assert (false = true) by (apply Dy; exists t; split; [auto|lia]); discriminate|reflexivity]. }
    assert (W1 : represents G1 (d_gshape x) None c1 (d_locals x)) by (eapply whole; eauto; tauto).
    assert (W2 : represents G2 (d_gshape x) None c1 (d_locals y)) by (rewrite EG; eapply whole; eauto; tauto).
    destruct (oeqb (d_split x) (d_split y)) eqn:EO; [exists x, y, None, c1; auto|].
    assert (P1 : P = 1%nat) by (destruct NP as [[E1 E2]|]; [rewrite E1, E2 in EO; discriminate|auto]).
    assert (L2 : length c2 = P) by (rewrite <- HPP; symmetry; apply R2).
    assert (K : forall b, (forall k, b = Some k -> (k < length (d_gshape y))%nat) -> represents G2 (d_gshape x) None c1 (d_locals (to_split dflt y b))).
    { intros b Hb. destruct (to_split_ok dflt y G2 c2 b R2 ltac:(lia) Hb) as (Eg & Es & El & c' & Rc & Lc & _). rewrite EG, <- Eg.
      eapply whole; [|lia|auto]. unfold rep. rewrite Eg, Es. exact Rc. }
    destruct (d_split x) as [s|] eqn:Sx.
    + assert (Hs : (s < length (d_gshape y))%nat) by (rewrite <- EG; unfold rep in R1; rewrite Sx in R1; apply R1).
      destruct (Nat.eqb_spec (length (d_gshape y)) 0); [lia|]. destruct (Nat.leb_spec (length (d_gshape y)) s); [lia|].
      exists x, (to_split dflt y (Some s)), None, c1. split; [auto|]. split; [auto|]. split; [apply K; intros k [= <-]; auto|auto].
    + exists x, (to_split dflt y None), None, c1. split; [auto|]. split; [auto|]. split; [apply K; discriminate|auto].
Qed.

Lemma allclose_ok (close : A -> A -> bool) : d_gshape x = d_gshape y -> close_cond ->
  exists b, allclose dflt close u1 u2 = Ok b /\ (b = true <-> same_elements close (d_gshape x) (d_gshape y) G1 G2).
Proof.
  intros EG HC. destruct (sanitize_close_ok EG HC) as (z1 & z2 & sp & c & E & Q1 & Q2 & LZ). unfold allclose. rewrite E. cbn [bind fst snd].
  destruct (zip_represents G1 G2 _ sp c _ _ Q1 Q2) as (_ & _ & HS).
  destruct (collect close (combine (d_locals z1) (d_locals z2)) (fun q idx => close (adat (fst q) idx) (adat (snd q) idx)) (fun q => ash (fst q))) as (ls & El & _ & _ & B).
  - intros q Hq. apply close_same. auto.
  - rewrite El. cbn [bind]. eexists. split; [reflexivity|]. rewrite B. rewrite (every_pair close G1 G2 _ sp c _ _ Q1 Q2 ltac:(lia)). unfold same_elements. tauto.
Qed.

(** scalars: 0-dimensional arrays *)
Lemma allclose_scalar_right (close : A -> A -> bool) : d_gshape y = [] ->
  exists b, allclose dflt close u1 u2 = Ok b /\ (b = true <-> forall idx, in_bounds (d_gshape x) idx -> close (G1 idx) (G2 []) = true).
Proof.
  intros EG. assert (Sy : d_split y = None).
  { unfold rep in R2. destruct (d_split y) as [t|] eqn:Sy; [|auto]. destruct R2 as (_ & _ & H & _). rewrite EG in H. simpl in H. lia. }
  assert (E : exists z2, sanitize_close dflt u1 u2 = Ok (x, z2) /\ length (d_locals z2) = P /\ forall t, In t (d_locals z2) -> agrees t [] G2).
  { assert (HY : forall t, In t (d_locals y) -> agrees t [] G2) by (unfold rep in R2; rewrite Sy, EG in R2; apply R2).
    unfold sanitize_close. fold x y. replace (distributed y) with false by (unfold distributed; now rewrite Sy). rewrite EG. cbn [length Nat.ltb Nat.leb andb negb]. rewrite andb_false_r, Sy.
    destruct (d_split x) as [s|] eqn:Sx; cbn [oeqb Nat.eqb]; exists y; auto. }
  destruct E as (z2 & E & L2 & HY). unfold allclose. rewrite E. cbn [bind fst snd].
  destruct (collect close (combine (d_locals x) (d_locals z2)) (fun q idx => close (adat (fst q) idx) (adat (snd q) [])) (fun q => ash (fst q))) as (ls & El & _ & _ & B).
  - intros [a b] Hq. apply close_scalar. apply (HY b). eapply in_combine_r; eauto.
  - rewrite El. cbn [bind]. eexists. split; [reflexivity|]. rewrite B. rewrite <- (every_element G1 _ _ c1 _ (fun a => close a (G2 [])) R1 HP). split.
    + intros H t Ht idx Hi. apply In_nth_error in Ht as [r Er]. destruct (nth_error (d_locals z2) r) as [t2|] eqn:E2.
      2:{ apply nth_error_None in E2. assert (r < length (d_locals x))%nat by (apply nth_error_Some; congruence). unfold P in *. lia. }
      assert (Hq : In (t, t2) (combine (d_locals x) (d_locals z2))).
      { clear - Er E2. revert r Er E2. generalize (d_locals x) (d_locals z2). induction l as [|a l IH]; intros [|b m] [|r] E1 E2; try discriminate; cbn in *; [injection E1 as ->; injection E2 as ->; now left|right; eauto]. }
      specialize (H _ Hq idx Hi). cbn [fst snd] in H. destruct (HY t2) as [_ D2]; [eapply in_combine_r; eauto|]. rewrite <- (D2 []); [auto|constructor].
    + intros H [a b] Hq idx Hi. cbn [fst snd] in *. destruct (HY b) as [_ D2]; [eapply in_combine_r; eauto|]. rewrite D2 by constructor. apply (H a); [eapply in_combine_l; eauto|auto].
Qed.

Lemma isclose_replicated_ok (close : A -> A -> bool) gathered : d_gshape x = d_gshape y -> P = 1%nat \/ (d_split x = None /\ d_split y = None) ->
  exists z, isclose dflt close gathered u1 u2 = Ok z /\ d_gshape z = d_gshape x /\ d_split z = None /\ rep z c1 (fun idx => close (G1 idx) (G2 idx)).
Proof.
  intros EG HN. assert (HC : close_cond) by (unfold close_cond; destruct HN as [HN|[E1 E2]]; [destruct (d_split x), (d_split y); auto|rewrite E1; auto]).
  destruct (sanitize_close_ok EG HC) as (z1 & z2 & sp & c & E & Q1 & Q2 & LZ). unfold isclose. rewrite E. cbn [bind fst snd].
  destruct (zip_represents G1 G2 _ sp c _ _ Q1 Q2) as (_ & LC & HS).
  destruct (collect close (combine (d_locals z1) (d_locals z2)) (fun q idx => close (adat (fst q) idx) (adat (snd q) idx)) (fun q => ash (fst q))) as (ls & El & LL & N & _).
  { intros q Hq. apply close_same. auto. }
  rewrite El. cbn [bind].
  assert (DZ : distributed z1 = false).
  { destruct HN as [HN|[E1 E2]]; [unfold distributed; destruct (d_split z1); auto; rewrite LZ, HN; reflexivity|].
    unfold sanitize_close in E. fold x y in E. unfold distributed in E. rewrite E1, E2 in E. cbn in E. injection E as <- <-. unfold distributed. now rewrite E1. }
  rewrite DZ. assert (W : forall t, In t (d_locals z1) -> agrees t (d_gshape x) G1).
  { intros t Ht. destruct HN as [HN|[E1 E2]]; [eapply one_rank_whole; eauto; lia|].
    unfold sanitize_close in E. fold x y in E. unfold distributed in E. rewrite E1, E2 in E. cbn in E. injection E as <- <-. unfold rep in R1. rewrite E1 in R1. apply R1. auto. }
  assert (W2 : forall t, In t (d_locals z2) -> agrees t (d_gshape x) G2).
  { intros t Ht. destruct HN as [HN|[E1 E2]]; [eapply one_rank_whole; eauto; rewrite combine_length in LC; destruct Q2 as (-> & _); destruct Q1 as (<- & _); lia|].
    unfold sanitize_close in E. fold x y in E. unfold distributed in E. rewrite E1, E2 in E. cbn in E. injection E as <- <-. unfold rep in R2. rewrite E2, <- EG in R2. apply R2. auto. }
  assert (V : forall t, In t ls -> agrees t (d_gshape x) (fun idx => close (G1 idx) (G2 idx))).
  { intros t Ht. apply In_nth_error in Ht as [r Er]. destruct (nth_error (combine (d_locals z1) (d_locals z2)) r) as [q|] eqn:Eq.
    2:{ apply nth_error_None in Eq. assert (r < length ls)%nat by (apply nth_error_Some; congruence). lia. }
    destruct (N r q t Eq Er) as [S0 D]. apply nth_error_combine in Eq as [Q1' Q2']. destruct (W _ (nth_error_In _ _ Q1')) as [Sa Da]. destruct (W2 _ (nth_error_In _ _ Q2')) as [Sb Db].
    rewrite Sa in *. split; [auto|]. intros idx Hi. rewrite D, Da, Db by auto. reflexivity. }
  assert (EF : ash (first_arr true (mk_dnd ls [] None)) = d_gshape x).
  { unfold first_arr. cbn [d_locals]. destruct ls as [|t ls]; [simpl in LL; lia|]. cbn [nth]. apply V. now left. }
  eexists. split; [reflexivity|]. cbn [d_gshape d_split]. split; [exact EF|]. split; [reflexivity|]. unfold rep. cbn [d_gshape d_split d_locals]. rewrite EF.
  split; [rewrite LL, LC, LZ; apply R1|]. split; [apply R1|]. exact V.
Qed.
End C.

(** what isclose builds on a split operand: every rank's tensor has the whole shape *)
Lemma whole_everywhere (z : dnd bool) s : (1 < length (d_locals z))%nat -> d_split z = Some s -> (forall t, In t (d_locals z) -> ash t = d_gshape z) -> nth s (d_gshape z) 0 <> 0 ->
  ~ exists cnts G, rep z cnts G.
Proof.
  intros HP Sz HA Hn (cnts & G & R). unfold rep in R. rewrite Sz in R. pose proof (local_counts _ _ _ _ _ R) as C. destruct R as (L & _ & Hs & Hc & Hsum & _).
  destruct (d_locals z) as [|t1 [|t2 ls]] eqn:El; try (simpl in HP; lia).
  cbn [map] in C. rewrite (HA t1), (HA t2) in C by (cbn; auto). subst cnts.
  set (rest := map (fun t => nth s (ash t) 0) ls) in *. set (n := nth s (d_gshape z) 0) in *. inversion Hc as [|? ? Ha Hc']; subst. inversion Hc' as [|? ? Hb Hc'']; subst.
  change (n + (n + zsum rest) = n) in Hsum.
  assert (0 <= zsum rest). { clear - Hc''. induction Hc''; [simpl; lia|]. change (0 <= x + zsum l). lia. } lia.
Qed.
