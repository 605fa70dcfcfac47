(** C83: tile. *)
From Verif Require Import Base BaseLemmas LayoutModel LayoutProofs NdSpec TensorSpec TensorLemmas NdLemmas OpsModel OpsProofs4 OpsProofs5 RedistModel ShapeSpec ShapeModel ShapeProps ShapeProofs6 BinModel BinProofs BinProofs2 SlabLemmas RollModel ReshapeModel ReshapeProofs ReshapeProps RepeatSpec RepeatModel RepeatProofs TileModel TileProofs TileProofs2.
Open Scope Z_scope.

(** after the padding of [reps], L4252-4403 *)
Definition tile_body {A} (dflt : A) (x1 x' : dnd A) (reps : list Z) (junk : nat -> nat -> list Z -> A) : res (dnd A * dnd A) :=
  if existsb (fun k => k <? 0) reps then Err RuntimeError
  else
    match d_split x1 with
    | None => Ok (local_tile x1 reps, x')
    | Some s =>
        if negb (1 <? length (d_locals x1))%nat || (nth s reps 0 =? 1) then Ok (local_tile x1 reps, x')
        else
          let axes := swap s (map Z.of_nat (seq 0 (length (d_gshape x1)))) 0 in
          let reps1 := swap s reps 0 in
          do x2 <- (if Nat.eqb s 0 then Ok x1 else transpose x1 (Some axes));
          let t := tile_split dflt x2 (nth 0 reps1 0) junk in
          let t := local_tile t (upd reps1 0 1) in
          do y <- (if Nat.eqb s 0 then Ok t else transpose t (Some axes));
          Ok (y, x')
    end.
Lemma upd_upd_times n R gsh (reps : list Z) : (0 < length gsh)%nat -> length gsh = length reps -> n = nth 0 gsh 0 -> R = nth 0 reps 0 -> times (upd gsh 0 (n * R)) (upd reps 0 1) = times gsh reps.
Proof. intros Hs L -> ->. destruct gsh, reps; cbn in *; try lia. unfold times. cbn. f_equal. lia. Qed.

(** work along axis 0: repetition over the split axis, then locally *)
Lemma tile_rows {A} (dflt : A) (x : dnd A) G cnts reps junk :
  represents G (d_gshape x) (Some 0%nat) cnts (d_locals x) -> (0 < length cnts)%nat -> length reps = length (d_gshape x) -> Forall (fun k => 0 <= k) reps ->
  (0 < nth 0 cnts 0 \/ nth 0 (d_gshape x) 0 = 0) ->
  let t := local_tile (tile_split dflt x (nth 0 reps 0) junk) (upd reps 0 1) in
  d_gshape t = times (d_gshape x) reps /\ d_split t = Some 0%nat /\
  represents (fun idx => G (modulo_idx idx (d_gshape x))) (times (d_gshape x) reps) (Some 0%nat) (zcounts (nth 0 (times (d_gshape x) reps) 0) (length cnts)) (d_locals t).
Proof.
  intros HR HP LR Fr H0 t. pose proof HR as (_ & Hn & Hs & _). set (n := nth 0 (d_gshape x) 0) in *. set (R := nth 0 reps 0) in *.
  assert (R0 : 0 <= R) by (rewrite Forall_forall in Fr; apply Fr, nth_In; lia).
  assert (N0 : 0 <= n) by (rewrite Forall_forall in Hn; apply Hn, nth_In; lia).
  assert (E1 : times (upd (d_gshape x) 0 (n * R)) (upd reps 0 1) = times (d_gshape x) reps) by (apply upd_upd_times; auto).
  split; [exact E1|]. split; [reflexivity|]. rewrite times_nth by auto. fold n R.
  assert (T := tile_split_ok dflt x G cnts R junk HR HP R0 H0). fold n in T.
  assert (T2 := local_tile_ok _ _ _ _ _ (upd reps 0 1) T ltac:(rewrite !upd_length; auto) ltac:(apply OpsProofs5.Forall_upd; auto; lia) ltac:(intros s E; injection E as <-; apply upd_same; lia)).
  rewrite E1 in T2. destruct T2 as (X1 & X2 & X3). split; [exact X1|]. split; [auto|]. destruct X3 as (X4 & X5 & X6 & X7). split; [auto|]. split; [auto|]. split; [auto|].
  intros r u Hu. eapply agrees_ext; [exact (X7 r u Hu)|]. intros idx Hi. cbn beta. f_equal.
  assert (Hr : (r < length cnts)%nat) by (destruct (zcounts_ok (n * R) (length cnts) HP ltac:(nia)) as (Z1 & _); rewrite <- Z1; rewrite <- X1; apply nth_error_Some; intros X; unfold t, local_tile in Hu; cbn [d_locals] in Hu; rewrite X in Hu; discriminate Hu).
  apply in_bounds_nth in Hi as [L Hi]. rewrite upd_length, times_length in * by auto. assert (Hi0 := Hi 0%nat Hs). rewrite upd_same in Hi0 by (rewrite times_length; auto).
  assert (ZL : zsum (firstn r (zcounts (n * R) (length cnts))) + nth r (zcounts (n * R) (length cnts)) 0 <= n * R).
  { destruct (zcounts_ok (n * R) (length cnts) HP ltac:(nia)) as (Z1 & Z2 & Z3). rewrite <- Z3 at 3. apply zsum_le; auto. lia. }
  assert (Z0 : 0 <= zsum (firstn r (zcounts (n * R) (length cnts)))) by (destruct (zcounts_ok (n * R) (length cnts) HP ltac:(nia)) as (Z1 & Z2 & Z3); apply zs_nonneg, Forall_firstn'; auto).
  set (z := zsum (firstn r (zcounts (n * R) (length cnts)))) in *. unfold move_axis_idx. destruct idx as [|i idx]; cbn [length] in L; [lia|]. destruct (d_gshape x) as [|g gsh]; [cbn in Hs; lia|].
  cbn [nth upd modulo_idx combine map fst snd] in *. f_equal. unfold n in *. rewrite (Z.mod_small (i + z)) by lia. reflexivity.
Qed.

Lemma tile_core {A} (dflt : A) (x x' : dnd A) G cnts reps junk :
  rep x cnts G -> (d_split x <> None -> (0 < length cnts)%nat) -> length reps = length (d_gshape x) -> Forall (fun k => 0 <= k) reps ->
  (forall s, d_split x = Some s -> nth s reps 0 = 1 \/ 0 < nth 0 cnts 0 \/ nth s (d_gshape x) 0 = 0) ->
  exists y G' cnts', tile_body dflt x x' reps junk = Ok (y, x') /\ d_gshape y = times (d_gshape x) reps /\ d_split y = d_split x /\ rep y cnts' G' /\
    (forall idx, in_bounds (d_gshape y) idx -> G' idx = G (modulo_idx idx (d_gshape x))) /\
    (forall s, d_split y = Some s -> nth s reps 0 = 1 /\ cnts' = cnts \/ cnts' = zcounts (nth s (d_gshape y) 0) (length cnts)).
Proof.
  intros HR HP LR Fr H0. unfold tile_body. replace (existsb (fun k => k <? 0) reps) with false.
  2:{ symmetry. apply not_true_is_false. intros X. apply existsb_exists in X as (k & I & E). rewrite Forall_forall in Fr. specialize (Fr k I). lia. }
  unfold rep in HR. pose proof (proj1 HR) as HL. destruct (d_split x) as [s|] eqn:ES.
  - specialize (HP ltac:(discriminate)). destruct (negb (1 <? length (d_locals x))%nat || (nth s reps 0 =? 1)) eqn:EC.
    + destruct (Z.eqb_spec (nth s reps 0) 1) as [E1|N1].
      * exists (local_tile x reps), (fun idx => G (modulo_idx idx (d_gshape x))), cnts. split; [auto|]. split; [auto|]. split; [cbn; auto|].
        split; [unfold rep, local_tile; cbn [d_gshape d_split d_locals]; rewrite ES; apply local_tile_ok; auto; intros k Ek; injection Ek as <-; auto|]. split; [auto|].
        intros k Ek. cbn in Ek. rewrite ES in Ek. injection Ek as <-. auto.
      * rewrite orb_false_r in EC. assert (L1 : length cnts = 1%nat) by (rewrite HL in EC; destruct (Nat.ltb_spec 1 (length cnts)); cbn in EC; [discriminate|lia]).
        exists (local_tile x reps), (fun idx => G (modulo_idx idx (d_gshape x))), [nth s (times (d_gshape x) reps) 0]. split; [auto|]. split; [auto|]. split; [cbn; auto|].
        split; [unfold rep, local_tile; cbn [d_gshape d_split d_locals]; rewrite ES; apply (local_tile_single G _ s cnts); auto|]. split; [auto|].
        intros k Ek. cbn in Ek. rewrite ES in Ek. injection Ek as <-. right. rewrite L1. unfold local_tile. cbn [d_gshape].
        assert (0 <= nth s (times (d_gshape x) reps) 0). { pose proof HR as (_ & Hn & Hs & _). pose proof (times_nonneg _ _ (eq_sym LR) Hn Fr) as TN. rewrite Forall_forall in TN. apply TN, nth_In. rewrite times_length; auto. }
        unfold zcounts, counts_of. cbn [seq map]. rewrite Nat.div_1_r, Nat.mod_1_r. cbn [Nat.ltb Nat.leb]. f_equal. lia.
    + apply orb_false_iff in EC as [_ EC]. pose proof HR as (_ & Hn & Hs & Hc & Hsum & _).
      destruct (H0 s eq_refl) as [C|C]; [lia|]. clear H0.
      destruct (Nat.eqb_spec s 0) as [->|Ns].
      * cbn [bind]. replace (swap 0 reps 0) with reps by (destruct reps; [cbn in LR; lia|reflexivity]).
        destruct (tile_rows dflt x G cnts reps junk HR HP LR Fr C) as (T1 & T2 & T3). set (t := local_tile _ _) in *.
        exists t, (fun idx => G (modulo_idx idx (d_gshape x))), (zcounts (nth 0 (times (d_gshape x) reps) 0) (length cnts)).
        split; [auto|]. split; [auto|]. split; [auto|]. split; [unfold rep; rewrite T1, T2; auto|]. split; [auto|]. intros k Ek. right. rewrite T2 in Ek. injection Ek as <-. now rewrite T1.
      * destruct (swap_transposed x G cnts s ltac:(rewrite ES; exact HR) Hs) as (x2 & G2 & E2 & S2 & P2 & R2 & I2). rewrite E2. cbn [bind].
        rewrite ES in P2. cbn [option_map] in P2. replace (s =? 0)%nat with false in P2 by (symmetry; apply Nat.eqb_neq; auto). rewrite Nat.eqb_refl in P2. rewrite P2 in R2.
        set (reps1 := swap s reps 0). assert (L1 : length reps1 = length (d_gshape x2)) by (rewrite S2; unfold reps1; rewrite swap_eq, !swap_length; auto).
        assert (F1 : Forall (fun k => 0 <= k) reps1).
        { unfold reps1, swap. rewrite Forall_forall in Fr. repeat (apply OpsProofs5.Forall_upd); [apply Forall_forall; auto|apply Fr, nth_In; lia|apply Fr, nth_In; lia]. }
        assert (C2 : 0 < nth 0 cnts 0 \/ nth 0 (d_gshape x2) 0 = 0) by (rewrite S2, swap_nth by lia; cbn; auto).
        destruct (tile_rows dflt x2 G2 cnts reps1 junk R2 HP L1 F1 C2) as (T1 & T2 & T3). set (t := local_tile _ _) in *.
        assert (LT : length (d_gshape t) = length (d_gshape x)) by (rewrite T1, times_length by auto; rewrite S2; apply swap_length).
        destruct (swap_transposed t _ _ s ltac:(rewrite T1, T2; exact T3) ltac:(lia)) as (y & Gy & Ey & Sy & Py & Ry & Iy).
        rewrite LT in Ey. rewrite Ey. cbn [bind].
        assert (SY : d_gshape y = times (d_gshape x) reps).
        { rewrite Sy, T1, S2. unfold reps1. rewrite swap_eq, <- swap_times by (auto; lia). apply swap_swap. rewrite times_length; auto. }
        rewrite T2 in Py. cbn [option_map Nat.eqb] in Py.
        exists y, Gy, (zcounts (nth 0 (times (d_gshape x2) reps1) 0) (length cnts)). split; [auto|]. split; [auto|]. split; [auto|]. split; [unfold rep; auto|]. split.
        { intros idx Hi. rewrite SY in Hi. assert (LI : length idx = length (d_gshape x)) by (apply in_bounds_length in Hi; rewrite times_length in Hi; auto).
          rewrite <- (swap_swap s idx) at 1 by lia. rewrite Iy.
          2:{ rewrite T1, S2. unfold reps1. rewrite swap_eq, <- swap_times by (auto; lia). apply swap_bounds; [rewrite times_length; auto|auto]. }
          rewrite S2, <- swap_modulo by (auto; lia). apply I2. apply (modulo_bounds _ reps); auto. }
        intros k Ek. right. rewrite Py in Ek. injection Ek as <-. rewrite SY, times_nth by auto. f_equal. rewrite times_nth by auto. unfold reps1. rewrite S2, swap_eq, !swap_nth by lia. reflexivity.
  - exists (local_tile x reps), (fun idx => G (modulo_idx idx (d_gshape x))), cnts. split; [auto|]. split; [auto|]. split; [cbn; auto|].
    split; [unfold rep, local_tile; cbn [d_gshape d_split d_locals]; rewrite ES; apply local_tile_ok; auto; discriminate|]. split; [auto|].
    intros k Ek. cbn in Ek. congruence.
Qed.

Lemma row_major_ones a gsh : row_major (repeat 1 a ++ gsh) = map (app (repeat 0 a)) (row_major gsh).
Proof.
  induction a as [|a IH]; cbn [repeat app]; [now rewrite map_id|]. cbn [row_major]. rewrite zr_1. cbn [flat_map]. rewrite app_nil_r, IH, map_map. reflexivity.
Qed.
Lemma map_inv_eq {A B C} (f : A -> C) (g : A -> B) (h : B -> C) l : map f l = map h (map g l) -> forall x, In x l -> f x = h (g x).
Proof. rewrite map_map. induction l as [|y l IH]; cbn; intros E x []; injection E as E1 E2; subst; auto. Qed.
Lemma zprod_ones a l : zprod (repeat 1 a ++ l) = zprod l.
Proof. induction a; cbn [repeat app]; auto. change (zprod (1 :: repeat 1 a ++ l)) with (1 * zprod (repeat 1 a ++ l)). lia. Qed.
Lemma filter_all' {B} (f : B -> bool) l : (forall x, In x l -> f x = true) -> filter f l = l.
Proof. intros H. now apply filter_all_iff. Qed.

(** ht.tile(x, reps): shapes and repetitions are brought to the same length d with ones in
    front; the extents are multiplied, and the element at idx is the one of x at idx modulo
    the extents.  The split axis is the same (counted from the end); the result is balanced,
    or keeps the layout of x when nothing is repeated along the split axis.  For every layout
    in which the first process holds something along the split axis (or there is nothing to
    hold), and whatever the memory of the result contained. *)
Theorem C83_tile_partial : forall (A : Type) (dflt : A) (x : dnd A) (G : list Z -> A) (cnts reps : list Z) (junk : nat -> nat -> list Z -> A),
  rep x cnts G -> (0 < length cnts)%nat -> Forall (fun k => 0 <= k) reps ->
  let dim := length (d_gshape x) in let d := Nat.max dim (length reps) in
  let sh := ones d (d_gshape x) in let rs := ones d reps in
  (forall s, d_split x = Some s -> nth (s + (d - dim)) rs 0 = 1 \/ 0 < nth 0 cnts 0 \/ nth s (d_gshape x) 0 = 0 \/ (dim < length reps)%nat) ->
  exists y x' G' cnts', tile dflt x reps junk = Ok (y, x') /\
    d_gshape y = times sh rs /\ d_split y = option_map (fun s => (s + (d - dim))%nat) (d_split x) /\ rep y cnts' G' /\
    (forall idx, in_bounds (times sh rs) idx -> G' idx = G (skipn (d - dim) (modulo_idx idx sh))) /\
    (forall s, d_split y = Some s -> nth s rs 0 = 1 /\ cnts' = cnts \/ cnts' = zcounts (nth s (d_gshape y) 0) (length cnts)) /\
    d_gshape x' = d_gshape x /\ exists cnts'', rep x' cnts'' G.
Proof.
  intros A dflt x G cnts reps junk HR HP Fr dim d sh rs HC. unfold tile. fold dim. destruct (Nat.ltb_spec dim (length reps)) as [L|L].
  - assert (Ed : d = length reps) by (unfold d; lia). set (added := (length reps - dim)%nat).
    assert (Esh : sh = repeat 1 added ++ d_gshape x) by (unfold sh, ones; rewrite Ed; reflexivity).
    assert (Ers : rs = reps) by (unfold rs, ones; rewrite Ed, Nat.sub_diag; reflexivity).
    pose proof HR as HR0. unfold rep in HR0. pose proof (proj1 (proj2 HR0)) as Hn.
    assert (POS : forall k, In k (repeat 1 added ++ d_gshape x) -> 0 <= k).
    { intros k Hk. apply in_app_or in Hk as [Hk|Hk]; [apply repeat_spec in Hk; lia|]. rewrite Forall_forall in Hn. auto. }
    assert (NP : np_shape (d_gshape x) (repeat 1 added ++ d_gshape x) = Ok (repeat 1 added ++ d_gshape x)).
    { unfold np_shape. replace (existsb (fun k => k <? -1) (repeat 1 added ++ d_gshape x)) with false.
      2:{ symmetry. apply not_true_is_false. intros X. apply existsb_exists in X as (k & I & E). specialize (POS k I). lia. }
      replace (filter (fun k => k =? -1) (repeat 1 added ++ d_gshape x)) with (@nil Z).
      2:{ symmetry. apply filter_nil_iff. intros k I. specialize (POS k I). lia. }
      rewrite filter_all' by (intros k I; specialize (POS k I); lia). rewrite zprod_ones, Z.eqb_refl. reflexivity. }
    assert (NE : repeat 1 added ++ d_gshape x <> []) by (unfold added; destruct (length reps - dim)%nat eqn:E; [lia|discriminate]).
    assert (LS : length (repeat 1 added ++ d_gshape x) = length reps) by (rewrite app_length, repeat_length; fold dim; unfold added; lia).
    set (ns := match d_split x with None => AxNone | Some s => AxInt (Z.of_nat (s + added)) end).
    assert (NS : match ns with AxNone => True | AxInt a => valid_axis (length (repeat 1 added ++ d_gshape x)) a \/ repeat 1 added ++ d_gshape x = [] | _ => False end).
    { unfold ns. destruct (d_split x) as [s|] eqn:ES; auto. left. destruct HR0 as (_ & _ & Hs & _). unfold valid_axis. rewrite LS. fold dim in Hs. unfold added. lia. }
    destruct (C36_reshape_partial A dflt x G cnts _ _ ns HR HP NP NS ltac:(auto)) as (x1 & x' & c1 & c2 & G1 & E & _ & _ & S1 & P1 & R1 & M1 & B1 & X1 & X2 & X3).
    rewrite E. cbn [bind].
    assert (P1' : d_split x1 = option_map (fun s => (s + added)%nat) (d_split x)).
    { rewrite P1. destruct (Nat.eqb_spec (length (repeat 1 added ++ d_gshape x)) 0) as [Z0|_]; [apply length_zero_iff_nil in Z0; congruence|]. unfold ns. destruct (d_split x) as [s|]; [|reflexivity]. cbn [option_map]. unfold norm. replace (Z.of_nat (s + added) <? 0) with false by lia. now rewrite Nat2Z.id. }
    assert (L1 : d_split x1 <> None -> length c1 = length cnts).
    { intros N1. destruct (d_split x1) as [k|] eqn:EK; [|congruence]. rewrite (B1 k eq_refl). now rewrite map_length, counts_of_length. }
    assert (C1 : forall s, d_split x1 = Some s -> nth s reps 0 = 1 \/ 0 < nth 0 c1 0 \/ nth s (d_gshape x1) 0 = 0).
    { intros s Es. right. rewrite (B1 s Es), S1. set (e := nth s (repeat 1 added ++ d_gshape x) 0).
      destruct (Z_le_gt_dec e 0) as [Le|Ge].
      - right. assert (0 <= e); [|lia]. unfold e. destruct (le_lt_dec (length (repeat 1 added ++ d_gshape x)) s); [rewrite nth_overflow by auto; lia|]. apply POS, nth_In. auto.
      - left. change 0 with (Z.of_nat 0) at 2. rewrite map_nth, counts_of_nth by auto. rewrite clen_val.
        assert (Hq := Nat.div_mod (Z.to_nat e) (length cnts) ltac:(lia)). revert Hq. generalize (Z.to_nat e / length cnts)%nat (Z.to_nat e mod length cnts)%nat. intros q m Hq.
        destruct (Nat.ltb_spec 0 m) as [|Hm]; [lia|]. destruct q; lia. }
    change (exists y x'0 G' cnts', tile_body dflt x1 x' reps junk = Ok (y, x'0) /\
      d_gshape y = times sh rs /\ d_split y = option_map (fun s => (s + (d - dim))%nat) (d_split x) /\ rep y cnts' G' /\
      (forall idx, in_bounds (times sh rs) idx -> G' idx = G (skipn (d - dim) (modulo_idx idx sh))) /\
      (forall s, d_split y = Some s -> nth s rs 0 = 1 /\ cnts' = cnts \/ cnts' = zcounts (nth s (d_gshape y) 0) (length cnts)) /\
      d_gshape x'0 = d_gshape x /\ exists cnts'', rep x'0 cnts'' G).
    destruct (tile_core dflt x1 x' G1 c1 reps junk R1 ltac:(intros N1; rewrite (L1 N1); auto) ltac:(rewrite S1; auto) Fr C1) as (y & G' & c' & T1 & T2 & T3 & T4 & T5 & T6).
    exists y, x', G', c'. rewrite Ers, Esh. rewrite S1 in T2, T5. replace (d - dim)%nat with added by (unfold added; lia).
    split; [auto|]. split; [auto|]. split; [congruence|]. split; [auto|]. split.
    { intros idx Hi. rewrite T5 by (rewrite T2; auto). rewrite row_major_ones in M1.
      assert (Bm := modulo_bounds _ reps idx LS ltac:(apply Forall_forall; exact POS) Hi). apply in_row_major in Bm. rewrite row_major_ones in Bm. apply in_map_iff in Bm as (i0 & E0 & I0).
      rewrite <- E0. rewrite skipn_app, skipn_all2, repeat_length, Nat.sub_diag by (rewrite repeat_length; lia). cbn [app skipn].
      symmetry. apply (map_inv_eq G (app (repeat 0 added)) G1 (row_major (d_gshape x))); auto. }
    split. { intros s Es. right. destruct (T6 s Es) as [[Q1 Q2]|Q]; [|rewrite Q, L1; congruence]. rewrite Q2. rewrite (B1 s) by congruence. rewrite T2, times_nth by auto. rewrite Q1, Z.mul_1_r. reflexivity. }
    split; [auto|]. eauto.
  - assert (Ed : d = dim) by (unfold d; lia). cbn [bind].
    assert (Esh : sh = d_gshape x) by (unfold sh, ones; rewrite Ed; fold dim; rewrite Nat.sub_diag; reflexivity).
    assert (Ers : rs = repeat 1 (dim - length reps) ++ reps) by (unfold rs, ones; rewrite Ed; reflexivity).
    rewrite <- Ers. 
    change (exists y x'0 G' cnts', tile_body dflt x x rs junk = Ok (y, x'0) /\
      d_gshape y = times sh rs /\ d_split y = option_map (fun s => (s + (d - dim))%nat) (d_split x) /\ rep y cnts' G' /\
      (forall idx, in_bounds (times sh rs) idx -> G' idx = G (skipn (d - dim) (modulo_idx idx sh))) /\
      (forall s, d_split y = Some s -> nth s rs 0 = 1 /\ cnts' = cnts \/ cnts' = zcounts (nth s (d_gshape y) 0) (length cnts)) /\
      d_gshape x'0 = d_gshape x /\ exists cnts'', rep x'0 cnts'' G).
    assert (LR : length rs = length (d_gshape x)) by (rewrite Ers, app_length, repeat_length; fold dim; lia).
    assert (Frs : Forall (fun k => 0 <= k) rs) by (rewrite Ers; apply Forall_app; split; [apply Forall_forall; intros k Hk; apply repeat_spec in Hk; lia|auto]).
    rewrite Ed in HC. rewrite Ed. rewrite Nat.sub_diag in HC |- *.
    destruct (tile_core dflt x x G cnts rs junk HR ltac:(auto) LR Frs) as (y & G' & c' & T1 & T2 & T3 & T4 & T5 & T6).
    { intros s Es. specialize (HC s Es). rewrite Nat.add_0_r in HC. destruct HC as [|[|[|]]]; auto. lia. }
    exists y, x, G', c'. rewrite Esh. split; [auto|]. split; [auto|]. split; [rewrite T3; destruct (d_split x); cbn; f_equal; lia|]. split; [auto|]. split; [intros idx Hi; cbn [skipn]; apply T5; rewrite T2; auto|].
    split; [auto|]. split; [auto|]. eauto.
Qed.
Print Assumptions C83_tile_partial.
