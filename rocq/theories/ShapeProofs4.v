(** squeeze, moveaxis, swapaxes, flatten. *)
From Verif Require Import Base ShapeSpec BaseLemmas LayoutModel LayoutProofs NdSpec TensorSpec TensorLemmas NdLemmas OpsModel OpsProofs2 OpsProofs3 OpsProofs4 OpsProofs5 OpsProofs6 RedistModel RedistProofs ShapeModel ShapeProofs ShapeProofs2 ShapeProofs3.
From Coq Require Import Permutation Sorted.
Open Scope Z_scope.

(** * gathering *)
Lemma owner_spec cnts x : Forall (fun c => 0 <= c) cnts -> 0 <= x < zsum cnts ->
  let (r, y) := owner cnts x in
  (r < length cnts)%nat /\ zsum (firstn r cnts) + y = x /\ 0 <= y < nth r cnts 0.
Proof.
  intros H. revert x; induction H as [|c l Hc H IH]; intros x Hx; [simpl in Hx; lia|]. cbn [owner].
  destruct (Z.ltb_spec x c).
  - simpl. lia.
  - specialize (IH (x - c)). cbn [zsum fold_right] in Hx. fold (zsum l) in Hx.
    destruct (owner l (x - c)) as [r y]. cbn [length firstn nth].
    change (zsum (c :: firstn r l)) with (c + zsum (firstn r l)). lia.
Qed.
Lemma local_counts {A} (G : list Z -> A) gsh s cnts ls : represents G gsh (Some s) cnts ls ->
  map (fun t => nth s (ash t) 0) ls = cnts.
Proof.
  intros (Hlen & Hn & Hs & Hc & Hsum & HR). apply (@nth_ext2 _ _ _ 0); [now rewrite map_length|].
  intros r Hr. rewrite map_length in Hr. destruct (nth_error ls r) as [t|] eqn:E; [|apply nth_error_None in E; lia].
  erewrite nth_error_nth; [|rewrite nth_error_map, E; reflexivity].
  destruct (HR r t E) as [-> _]. now rewrite upd_same.
Qed.
Lemma gather_agrees {A} (G : list Z -> A) gsh s cnts ls d : represents G gsh (Some s) cnts ls ->
  agrees (gather gsh s ls d) gsh G.
Proof.
  intros HR. pose proof (local_counts _ _ _ _ _ HR) as EC. destruct HR as (Hlen & Hn & Hs & Hc & Hsum & HR).
  split; [reflexivity|]. intros idx Hidx. unfold gather. cbn [adat]. rewrite EC.
  assert (Hx : 0 <= nth s idx 0 < zsum cnts) by (rewrite Hsum; apply in_bounds_nth in Hidx as [_ H]; auto).
  pose proof (owner_spec cnts _ Hc Hx) as HO. destruct (owner cnts (nth s idx 0)) as [r y].
  destruct HO as (Hr & Hsumy & Hy).
  destruct (nth_error ls r) as [t|] eqn:E; [|apply nth_error_None in E; lia].
  destruct (HR r t E) as [S0 D0]. pose proof (in_bounds_length _ _ Hidx) as L. rewrite D0.
  - unfold move_axis_idx. f_equal. rewrite upd_same by lia. rewrite upd_upd.
    replace (y + zsum (firstn r cnts)) with (nth s idx 0) by lia. apply upd_self.
  - apply in_bounds_upd_shape; auto. rewrite upd_length. split; auto. rewrite upd_same by lia. split; auto.
    intros k Hk Hne. rewrite upd_other by auto. apply in_bounds_nth in Hidx as [_ H]; auto.
Qed.
Lemma resplit_none_represents {A} (G : list Z -> A) (x : dnd A) cnts d :
  represents G (d_gshape x) (d_split x) cnts (d_locals x) ->
  let x' := resplit_none d x in
  d_gshape x' = d_gshape x /\ d_split x' = None /\ represents G (d_gshape x) None cnts (d_locals x').
Proof.
  intros HR. unfold resplit_none. destruct (d_split x) as [s|] eqn:E; cbn [d_gshape d_split d_locals]; [|rewrite E; auto].
  split; [auto|split; [auto|]]. pose proof (gather_agrees _ _ _ _ _ d HR) as Ag. destruct HR as (Hlen & Hn & _).
  split; [now rewrite map_length|split; [auto|]]. intros t Ht. apply in_map_iff in Ht as (t0 & <- & _). exact Ag.
Qed.

(** * squeeze *)
Lemma ins_drop i axes sh idx : in_bounds (fill_from i axes 1 sh) idx -> ins_from i axes (length sh) (drop_from i axes idx) = idx.
Proof.
  revert i idx; induction sh as [|n sh IH]; intros i idx H; cbn [fill_from length ins_from] in *.
  - inversion H. reflexivity.
  - inversion H as [|? z ? idx' Hz Hi]; subst. cbn [drop_from]. destruct (memb i axes) eqn:E.
    + rewrite IH by auto. f_equal. lia.
    + cbn [hd tl]. now rewrite IH by auto.
Qed.
Lemma fill_ones axes sh : (forall a, In a axes -> nth a sh 0 = 1) -> fill_axes axes 1 sh = sh.
Proof.
  intros H. apply (@nth_ext2 _ _ _ 0); [apply fill_axes_length|]. intros k Hk. rewrite fill_axes_length in Hk.
  rewrite fill_axes_nth by auto. destruct (memb k axes) eqn:E; auto. apply memb_in in E. symmetry. auto.
Qed.
Lemma drop_nonneg axes sh : Forall (fun n => 0 <= n) sh -> Forall (fun n => 0 <= n) (drop_axes axes sh).
Proof. apply (proj_sh_nonneg Drop). Qed.

Lemma squeeze_represents {A} (d : A) (G : list Z -> A) gsh split cnts ls axes :
  represents G gsh split cnts ls -> NoDup axes -> (forall a, In a axes -> nth a gsh 0 = 1) ->
  match split with Some s => ~ In s axes | None => True end ->
  exists ls', all_ok (map (fun t => reshape d t (losedim (ash t) axes)) ls) = Ok ls' /\
   represents (fun idx' => G (ins_from 0 axes (length gsh) idx')) (drop_axes axes gsh)
     (option_map (fun s => (s - length (filter (fun d => (d <? s)%nat) axes))%nat) split) cnts ls'.
Proof.
  intros (Hlen & Hn & HR) ND H1 Hs0.
  assert (Hl : forall t, In t ls -> (forall a, In a axes -> nth a (ash t) 0 = 1) /\ length (ash t) = length gsh).
  { intros t Ht. destruct split as [s|].
    - destruct HR as (Hs & _ & _ & HR). apply In_nth_error in Ht as (r & Er). destruct (HR r t Er) as [-> _].
      split; [|apply upd_length]. intros a Ha. rewrite upd_other; auto. intros ->. contradiction.
    - destruct (HR t Ht) as [-> _]. auto. }
  destruct (all_ok_Q (fun t => reshape d t (losedim (ash t) axes))
     (fun t t' => agrees t' (drop_axes axes (ash t)) (fun idx => adat t (ins_from 0 axes (length gsh) idx))) ls) as (ls' & E & F).
  { intros t Ht. destruct (Hl t Ht) as [Ho Hlt]. rewrite losedim_drop.
    destruct (reshape_drop A d axes (ash t) t (adat t)) as (t' & E & Ag).
    { split; [now rewrite fill_ones|auto]. }
    rewrite Hlt in Ag. eauto. }
  exists ls'. split; auto. split; [rewrite <- (Forall2_len _ _ _ F); auto|split; [now apply drop_nonneg|]].
  destruct split as [s|]; cbn [option_map].
  - destruct HR as (Hs & Hc & Hsum & HR). rewrite count_below by auto. 
    set (s' := (s - length (filter (fun j => memb j axes) (seq 0 s)))%nat).
    assert (P4 : (s' < length (drop_axes axes gsh))%nat) by (apply pos_lt; auto).
    split; [auto|split; [auto|split]].
    + unfold s', drop_axes. rewrite drop_from_nth by auto. auto.
    + intros r t' Et'. destruct (Forall2_nth_error _ _ _ F r t' Et') as (t & Et & S1 & D1).
      destruct (HR r t Et) as [S0 D0]. rewrite S0 in S1, D1.
      assert (P3 : drop_axes axes (upd gsh s (nth r cnts 0)) = upd (drop_axes axes gsh) s' (nth r cnts 0)) by (apply drop_from_upd; auto).
      split; [now rewrite <- P3|]. rewrite <- P3. intros idx Hidx. rewrite D1 by auto.
      assert (Fl : fill_axes axes 1 (upd gsh s (nth r cnts 0)) = upd gsh s (nth r cnts 0)).
      { apply fill_ones. intros a Ha. rewrite upd_other; auto. intros ->. contradiction. }
      assert (Hib : in_bounds (upd gsh s (nth r cnts 0)) (ins_from 0 axes (length gsh) idx)).
      { rewrite <- Fl. rewrite <- (upd_length gsh s (nth r cnts 0)). apply ins_bounds. exact Hidx. }
      rewrite D0 by auto. f_equal.
      assert (Hr : (r < length cnts)%nat) by (rewrite <- Hlen; apply nth_error_Some; congruence).
      assert (Hmb : in_bounds gsh (move_axis_idx s (zsum (firstn r cnts)) (ins_from 0 axes (length gsh) idx))) by (apply move_in_bounds; auto).
      rewrite <- (ins_drop 0 axes gsh (move_axis_idx s (zsum (firstn r cnts)) (ins_from 0 axes (length gsh) idx))).
      2:{ change (fill_from 0 axes 1 gsh) with (fill_axes axes 1 gsh). now rewrite fill_ones. }
      f_equal. unfold move_axis_idx.
      pose proof (in_bounds_length _ _ Hib) as Lib. rewrite upd_length in Lib.
      rewrite drop_from_upd by (auto; lia). fold s'.
      assert (Di : drop_from 0 axes (ins_from 0 axes (length gsh) idx) = idx).
      { rewrite <- (upd_length gsh s (nth r cnts 0)). apply drop_ins. exact Hidx. }
      rewrite Di. f_equal. f_equal. 
      rewrite <- Di at 2. symmetry. apply drop_from_nth; auto. lia.
  - intros t' Ht'. destruct (Forall2_In_r _ _ _ F t' Ht') as (t & Et & S1 & D1).
    destruct (HR t Et) as [S0 D0]. rewrite S0 in S1, D1. split; auto. intros idx Hidx. rewrite D1 by auto.
    apply D0. rewrite <- (fill_ones axes gsh) at 1 by auto. now apply ins_bounds.
Qed.

(** the normalised axes of a call to squeeze *)
Lemma squeeze_ok {A} (d : A) (x : dnd A) (G : list Z -> A) cnts axis axes :
  (0 < length (d_gshape x))%nat ->
  represents G (d_gshape x) (d_split x) cnts (d_locals x) ->
  squeeze_axes (d_gshape x) axis axes -> NoDup axes ->
  exists y x', squeeze d x axis = Ok (y, x') /\
    d_gshape y = drop_axes axes (d_gshape x) /\
    (exists G', represents G' (d_gshape y) (d_split y) cnts (d_locals y) /\
       forall idx, in_bounds (d_gshape x) idx -> G' (drop_axes axes idx) = G idx) /\
    match d_split x with
    | None => d_split y = None
    | Some s => (In s axes -> d_split y = None) /\
        (~ In s axes -> exists s', d_split y = Some s' /\ nth_error (drop_axes axes (seq 0 (length (d_gshape x)))) s' = Some s)
    end /\
    (* the input still denotes the same global array *)
    d_gshape x' = d_gshape x /\ represents G (d_gshape x') (d_split x') cnts (d_locals x').
Proof.
  intros Hpos HR Hax ND. set (n := length (d_gshape x)) in *.
  unfold squeeze. fold n.
  assert (E : exists a, sanitize_axis n axis = Ok a /\
     match a with
     | AxNone => Ok (filter (fun i => nth i (d_gshape x) 0 =? 1) (seq 0 n))
     | AxInt z => if nth (Z.to_nat z) (d_gshape x) 0 =? 1 then Ok [Z.to_nat z] else Err ValueError
     | AxTuple l => if forallb (fun z => nth (Z.to_nat z) (d_gshape x) 0 =? 1) l then Ok (map Z.to_nat l) else Err ValueError
     | AxOther => Err TypeError end = Ok axes).
  { unfold sanitize_axis. destruct (Nat.eqb_spec n 0); [lia|]. destruct axis as [|a|l|]; cbn in Hax; try contradiction.
    - exists AxNone. split; auto. now rewrite Hax.
    - fold n in Hax. destruct Hax as (Hb & -> & H1). exists (AxInt (Z.of_nat (norm n a))). split.
      + unfold norm. destruct ((0 <=? a) && (a <? Z.of_nat n)) eqn:E1.
        * destruct (Z.ltb_spec a 0); [lia|]. do 2 f_equal. lia.
        * destruct (Z.ltb_spec a 0); [|lia].
          replace ((a + Z.of_nat n <? 0) || (Z.of_nat n <=? a + Z.of_nat n)) with false by lia. do 2 f_equal. lia.
      + rewrite Nat2Z.id, H1. reflexivity.
    - fold n in Hax. destruct Hax as (Hb & ->). exists (AxTuple (map (fun a => Z.of_nat (norm n a)) l)). split.
      + assert (E1 : map (fun d => if d <? 0 then d + Z.of_nat n else d) l = map (fun a => Z.of_nat (norm n a)) l).
        { apply map_ext_in. intros a Ha. destruct (Hb a Ha) as [Hb' _]. unfold norm. destruct (Z.ltb_spec a 0); lia. }
        rewrite E1. destruct (existsb _ _) eqn:E2; auto. exfalso. apply existsb_exists in E2 as (z & Hz & E2).
        apply in_map_iff in Hz as (a & <- & Ha). destruct (Hb a Ha) as [Hb' _]. unfold norm in E2. destruct (Z.ltb_spec a 0); lia.
      + assert (E2 : forallb (fun z => nth (Z.to_nat z) (d_gshape x) 0 =? 1) (map (fun a => Z.of_nat (norm n a)) l) = true).
        { apply forallb_forall. intros z Hz. apply in_map_iff in Hz as (a & <- & Ha). destruct (Hb a Ha) as [_ H1].
          rewrite Nat2Z.id. lia. }
        rewrite E2, map_map. f_equal. apply map_ext. intros; apply Nat2Z.id. }
  destruct E as (a & Ea & Eax). rewrite Ea. cbn [bind]. rewrite Eax. cbn [bind].
  assert (H1 : forall a, In a axes -> nth a (d_gshape x) 0 = 1).
  { destruct axis as [|z|l|]; cbn in Hax; try contradiction.
    - rewrite Hax. intros k Hk. apply filter_In in Hk as [_ Hk]. lia.
    - destruct Hax as (_ & -> & H1). intros k [<-|[]]. exact H1.
    - destruct Hax as (Hb & ->). intros k Hk. apply in_map_iff in Hk as (z & <- & Hz). apply Hb; auto. }
  set (x' := match d_split x with Some s => if mem_nat s axes then resplit_none d x else x | None => x end).
  assert (Hx' : d_gshape x' = d_gshape x /\ d_split x' = match d_split x with Some s => if mem_nat s axes then None else Some s | None => None end
     /\ represents G (d_gshape x) (d_split x') cnts (d_locals x')).
  { unfold x'. destruct (d_split x) as [s|] eqn:Es.
    - destruct (mem_nat s axes); [|rewrite Es; auto]. rewrite <- Es in HR.
      destruct (resplit_none_represents G x cnts d HR) as (X1 & X2 & X3). rewrite X2. auto.
    - rewrite Es. auto. }
  destruct Hx' as (X1 & X2 & X3).
  destruct (squeeze_represents d G (d_gshape x) (d_split x') cnts (d_locals x') axes X3 ND H1) as (ls' & El & Rl).
  { rewrite X2. destruct (d_split x) as [s|]; auto. destruct (mem_nat s axes) eqn:Em; auto. now apply mem_nat_nin. }
  rewrite El. cbn [bind]. eexists; eexists; split; [reflexivity|]. cbn [d_gshape d_split d_locals].
  split; [rewrite X1; apply losedim_drop|split; [|split; [|split; [auto|rewrite X1; auto]]]].
  - exists (fun idx' => G (ins_from 0 axes (length (d_gshape x)) idx')). split.
    + rewrite X1, losedim_drop. unfold option_map in Rl. destruct (d_split x'); exact Rl.
    + intros idx Hidx. f_equal. apply ins_drop. change (in_bounds (fill_axes axes 1 (d_gshape x)) idx). now rewrite fill_ones.
  - destruct (d_split x) as [s|] eqn:Es; [|now rewrite X2]. rewrite X2. split.
    + intros Hin. apply mem_nat_in in Hin. now rewrite Hin.
    + intros Hn. rewrite (proj2 (mem_nat_nin s axes) Hn). eexists; split; [reflexivity|].
      apply surviving_axis; auto. destruct HR as (_ & _ & H & _). exact H.
Qed.
