(** reshape: proofs. *)
From Verif Require Import Base BaseLemmas LayoutModel LayoutProofs TensorSpec NdSpec TensorLemmas NdLemmas OpsModel OpsProofs2 OpsProofs3 OpsProofs4 RedistModel RedistProofs ShapeSpec ShapeModel ShapeProofs ShapeProofs3 ShapeProofs4 ShapeProofs5 ShapeProofs6 BinModel BinProofs BinProofs2 SlabLemmas RollModel RollProofs3 ReshapeModel.
Open Scope Z_scope.

(** * the requested shape *)
Lemma zprod_app a b : zprod (a ++ b) = zprod a * zprod b.
Proof. induction a as [|x a IH]; cbn [app zprod]; [lia|]. rewrite IH. lia. Qed.
Lemma np_shape_sound gsh shape sh : np_shape gsh shape = Ok sh ->
  zprod sh = zprod gsh /\ Forall2 (fun k e => k = -1 \/ e = k) shape sh /\ (Forall (fun n => 0 <= n) gsh -> Forall (fun n => 0 <= n) sh).
Proof.
  unfold np_shape. set (n := zprod gsh). destruct (existsb (fun k => k <? -1) shape) eqn:E; [discriminate|].
  assert (NN : forall k, In k shape -> -1 <= k).
  { intros k Hk. assert (existsb (fun k => k <? -1) shape = true -> False) by congruence. destruct (Z.ltb_spec k (-1)); [|lia].
    exfalso. apply H. apply existsb_exists. exists k. split; auto. apply Z.ltb_lt; auto. }
  clear E. set (known := zprod (filter (fun k => negb (k =? -1)) shape)).
  destruct (filter (fun k => k =? -1) shape) as [|u [|]] eqn:EU; try discriminate.
  - rewrite filter_nil_iff in EU. destruct (Z.eqb_spec known n) as [EK|]; [|discriminate]. intros H; injection H as <-.
    assert (F : filter (fun k => negb (k =? -1)) shape = shape) by (apply filter_all_iff; intros x Hx; now rewrite (EU x Hx)).
    unfold known in EK. rewrite F in EK. split; [auto|]. split.
    + clear. induction shape; constructor; auto.
    + intros _. apply Forall_forall. intros x Hx. specialize (NN x Hx). specialize (EU x Hx). apply Z.eqb_neq in EU. lia.
  - destruct ((known =? 0) || negb (n mod known =? 0)) eqn:EC; [discriminate|]. intros H; injection H as <-.
    apply orb_false_iff in EC as [K0 K1]. apply negb_false_iff, Z.eqb_eq in K1. apply Z.eqb_neq in K0.
    assert (KP : 0 < known).
    { assert (0 <= known); [|lia]. apply zprod_nonneg, Forall_forall. intros x Hx. apply filter_In in Hx as [Hx E]. specialize (NN x Hx).
      apply negb_true_iff, Z.eqb_neq in E. lia. }
    split; [|split].
    + assert (P : zprod (map (fun k => if k =? -1 then n / known else k) shape) = (n / known) * known).
      { generalize (n / known) as q. intros q. unfold known. clear - EU. revert u EU. induction shape as [|k shape IH]; intros u EU; [discriminate|].
        cbn [filter map] in *. destruct (Z.eqb_spec k (-1)) as [->|N]; cbn [negb] in *.
        - injection EU as _ EU. cbn [zprod]. f_equal. rewrite filter_nil_iff in EU.
          rewrite (proj2 (filter_all_iff _ _)) by (intros x Hx; now rewrite (EU x Hx)).
          f_equal. transitivity (map (fun x : Z => x) shape); [|apply map_id]. apply map_ext_in. intros x Hx. now rewrite (EU x Hx).
        - cbn [zprod]. rewrite (IH u EU). lia. }
      rewrite P. pose proof (Z.div_mod n known K0) as DM. clear - DM K1. fold n. nia.
    + generalize (n / known) as q. intros q. clear. induction shape as [|k t IH]; cbn [map]; [constructor|]. constructor; [|exact IH]. destruct (Z.eqb_spec k (-1)); auto.
    + intros G. assert (N0 : 0 <= n) by now apply zprod_nonneg. apply Forall_forall. intros x Hx. apply in_map_iff in Hx as (k & <- & Hk).
      specialize (NN k Hk). destruct (Z.eqb_spec k (-1)); [apply Z.div_pos; lia|lia].
Qed.
Lemma np_shape_exact gsh shape : Forall (fun n => 0 <= n) shape -> zprod shape = zprod gsh -> np_shape gsh shape = Ok shape.
Proof.
  intros F E. unfold np_shape. rewrite Forall_forall in F.
  replace (existsb (fun k => k <? -1) shape) with false.
  2:{ symmetry. apply not_true_iff_false. intros H. apply existsb_exists in H as (k & Hk & H). specialize (F k Hk). lia. }
  rewrite (proj2 (filter_nil_iff _ _)) by (intros x Hx; specialize (F x Hx); apply Z.eqb_neq; lia).
  rewrite (proj2 (filter_all_iff _ _)) by (intros x Hx; specialize (F x Hx); apply negb_true_iff, Z.eqb_neq; lia).
  rewrite E, Z.eqb_refl. reflexivity.
Qed.
Lemma np_shape_err gsh shape e : np_shape gsh shape = Err e -> e = ValueError.
Proof.
  unfold np_shape. destruct (existsb _ _); [congruence|]. destruct (filter (fun k => k =? -1) shape) as [|? [|]].
  - destruct (_ =? _); congruence.
  - destruct (_ || _); congruence.
  - congruence.
Qed.

(** * elements in row-major order *)
Definition unflat {A} (dflt : A) (sh : list Z) (l : list A) (idx : list Z) : A := nth (Z.to_nat (dot idx (cstrides sh))) l dflt.
Lemma unflat_row_major {A} (dflt : A) sh l : Forall (fun n => 0 <= n) sh -> Z.of_nat (length l) = zprod sh ->
  map (unflat dflt sh l) (row_major sh) = l.
Proof.
  intros F L. unfold unflat. rewrite <- (map_map (fun idx => dot idx (cstrides sh)) (fun z => nth (Z.to_nat z) l dflt)).
  rewrite cstrides_offsets by auto. unfold zr. rewrite map_map. rewrite <- L, Nat2Z.id.
  rewrite <- (map_nth_seq l dflt) at 2. apply map_ext. intros i. now rewrite Nat2Z.id.
Qed.

Section Blocks.
Context {A : Type} (dflt : A).
Variables (n0 : Z) (rest : list Z) (P : nat) (d : dist A).
Let sh := n0 :: rest.
Let cnts := zcounts n0 P.
Hypothesis Hsh : Forall (fun n => 0 <= n) sh.
Hypothesis HP : (0 < P)%nat.
Hypothesis HL : lens d = map (fun r => Z.to_nat (zprod (chunk_shape sh 0 r P))) (seq 0 P).

Lemma chunk_shape_0 r : (r < P)%nat -> chunk_shape sh 0 r P = nth r cnts 0 :: rest.
Proof.
  intros Hr. unfold chunk_shape, sh. cbn [nth upd]. f_equal. unfold cnts, zcounts.
  now rewrite (proj2 (proj2 (counts_Z (Z.to_nat n0) P HP) r Hr)).
Qed.
Lemma lens_0 r : (r < P)%nat -> Z.of_nat (nth r (lens d) 0%nat) = nth r cnts 0 * zprod rest.
Proof.
  intros Hr. rewrite HL. rewrite (@nth_map_seq _ (fun r => Z.to_nat (zprod (chunk_shape sh 0 r P)))) by auto.
  rewrite chunk_shape_0 by auto. cbn [zprod]. pose proof (Forall_inv Hsh) as H1. pose proof (Forall_inv_tail Hsh) as H2.
  destruct (zcounts_ok n0 P HP H1) as (L & F & _). fold cnts in L, F.
  assert (0 <= nth r cnts 0) by (rewrite Forall_forall in F; apply F, nth_In; lia). pose proof (zprod_nonneg rest H2). rewrite Z2Nat.id by nia. reflexivity.
Qed.
Lemma psum_0' r : (r <= P)%nat -> Z.of_nat (psum (lens d) r) = zsum (firstn r cnts) * zprod rest.
Proof.
  induction r as [|r IH]; intros Hr; [reflexivity|].
  assert (LL : length (lens d) = P) by (rewrite HL, map_length, seq_length; auto).
  pose proof (Forall_inv Hsh) as H1. pose proof (Forall_inv_tail Hsh) as H2. destruct (zcounts_ok n0 P HP H1) as (L & F & _). fold cnts in L, F.
  rewrite psum_S by lia. rewrite Nat2Z.inj_add, IH, lens_0 by lia. rewrite zsum_firstn_S by lia. lia.
Qed.
Lemma blocks_sum : Z.of_nat (list_sum (lens d)) = zprod sh.
Proof.
  assert (LL : length (lens d) = P) by (rewrite HL, map_length, seq_length; auto).
  pose proof (Forall_inv Hsh) as H1. pose proof (Forall_inv_tail Hsh) as H2. destruct (zcounts_ok n0 P HP H1) as (L & F & S). fold cnts in L, F, S.
  rewrite <- (psum_all (lens d) (k:=P)) by lia. rewrite psum_0' by lia. rewrite firstn_all2 by lia. rewrite S. reflexivity.
Qed.
Lemma blocks_represent : exists ls, all_ok (map (fun r => of_flat dflt (chunk_shape sh 0 r P) (nth r d [])) (seq 0 P)) = Ok ls /\
  represents (unflat dflt sh (glob d)) sh (Some 0%nat) cnts ls.
Proof.
  assert (LL : length (lens d) = P) by (rewrite HL, map_length, seq_length; auto).
  pose proof (Forall_inv Hsh) as H1. pose proof (Forall_inv_tail Hsh) as H2. destruct (zcounts_ok n0 P HP H1) as (L & F & SM). fold cnts in L, F, SM.
  destruct (all_ok_Qn (fun r => of_flat dflt (chunk_shape sh 0 r P) (nth r d []))
     (fun r t => agrees t (upd sh 0 (nth r cnts 0)) (fun idx => unflat dflt sh (glob d) (move_axis_idx 0 (zsum (firstn r cnts)) idx))) (seq 0 P))
    as (ls & E & Len & Q).
  - intros r x Hx. assert (Hr : (r < P)%nat) by (rewrite <- (seq_length P 0); apply nth_error_Some; congruence).
    rewrite (nth_error_nth' _ 0%nat) in Hx by (rewrite seq_length; auto). rewrite seq_nth in Hx by auto. injection Hx as <-.
    cbn [Nat.add]. unfold of_flat. rewrite chunk_shape_0 by auto. cbn [zprod]. rewrite <- lens_nth, lens_0 by auto. rewrite Z.eqb_refl.
    eexists. split; [reflexivity|]. split; [reflexivity|]. intros idx Hi. cbn [upd sh] in Hi. cbn [adat].
    pose proof (dot_bounds _ _ Hi) as DB. cbn [zprod] in DB. rewrite <- lens_0 in DB by auto. rewrite lens_nth in DB.
    rewrite <- glob_nth by lia. unfold unflat. f_equal.
    destruct idx as [|i t]; [inversion Hi|]. unfold move_axis_idx, sh. cbn [nth upd cstrides dot] in *.
    apply Nat2Z.inj. rewrite Nat2Z.inj_add, psum_0' by lia. rewrite !Z2Nat.id; [lia| |lia].
    pose proof (zsum_le cnts r F ltac:(lia)) as ZL. assert (Hi12 : 0 <= i < nth r cnts 0 /\ in_bounds rest t) by (inversion Hi; auto). destruct Hi12 as [Hi1 Hi2]. pose proof (zprod_nonneg rest H2). pose proof (dot_bounds _ _ Hi2). nia.
  - exists ls. split; [auto|]. split; [rewrite Len, seq_length; auto|]. split; [auto|]. split; [cbn; lia|]. split; [auto|]. split; [auto|].
    exact Q.
Qed.
End Blocks.

Lemma resplit_any_ok {A} (dflt : A) (x : dnd A) (G : list Z -> A) cnts s b :
  represents G (d_gshape x) (Some s) cnts (d_locals x) -> d_split x = Some s -> (0 < length cnts)%nat ->
  (forall k, b = Some k -> (k < length (d_gshape x))%nat) ->
  let y := resplit_any dflt x b in
  d_gshape y = d_gshape x /\ d_split y = b /\ length (d_locals y) = length cnts /\
  exists cnts', represents G (d_gshape x) b cnts' (d_locals y) /\ length cnts' = length cnts /\
    (b = Some s -> cnts' = cnts) /\
    forall k, b = Some k -> k <> s -> cnts' = zcounts (nth k (d_gshape x) 0) (length cnts).
Proof.
  intros HR Es HP Hb y. unfold y, resplit_any. rewrite Es. pose proof HR as (HL & _). rewrite <- Es in HR. destruct b as [k|].
  - destruct (Nat.eqb_spec s k) as [->|N].
    + rewrite Es in *. split; [auto|]. split; [auto|]. split; [auto|]. exists cnts. split; [auto|]. split; [auto|]. split; [auto|]. intros ? E; injection E as <-; congruence.
    + destruct (resplit_to_represents dflt G x cnts k HR ltac:(congruence) (Hb k eq_refl) ltac:(lia)) as (E1 & E2 & E3 & R).
      split; [auto|]. split; [auto|]. split; [lia|]. eexists. split; [exact R|]. split; [unfold counts_of; rewrite !map_length, seq_length; auto|].
      split; [intros E; injection E as ->; congruence|]. intros k' E _. injection E as <-. unfold zcounts. now rewrite HL.
  - destruct (resplit_none_represents G x cnts dflt HR) as (E1 & E2 & R).
    split; [auto|]. split; [auto|]. split; [destruct R as (L & _); auto|]. exists cnts. split; [exact R|]. split; [auto|]. split; [congruence|]. intros; discriminate.
Qed.

Lemma flat_all {A} (t : arr A) sh (G : list Z -> A) : agrees t sh G -> flat t = map G (row_major sh).
Proof. intros [S D]. unfold flat. rewrite S. apply map_map_ext. intros i Hi. apply D. now apply in_row_major. Qed.
Lemma forallb_lens a b : length a = length b -> forallb (fun p : nat * nat => Nat.eqb (fst p) (snd p)) (combine a b) = true -> a = b.
Proof. revert b. induction a as [|x a IH]; intros [|y b] L H; cbn in *; try lia; auto. apply andb_true_iff in H as [E H]. apply Nat.eqb_eq in E. subst. f_equal. apply IH; auto. Qed.

(** the split of the result *)
Definition out_split (gsh sh : list Z) (split : option nat) (new_split : axis_arg) : option nat :=
  match new_split with
  | AxInt a => match sh with [] => None | _ => Some (norm (length sh) a) end
  | _ => match split with
         | None => None
         | Some s => match sh with [] => None | _ => if Nat.eqb (length sh) (length gsh) then Some s else Some 0%nat end
         end
  end.

Lemma sanitize_ns (sh : list Z) a : valid_axis (length sh) a \/ sh = [] -> exists b, sanitize_axis (length sh) (AxInt a) = Ok b /\
  (match b with AxNone => Ok None | AxInt k => Ok (Some (Z.to_nat k)) | _ => Err TypeError end) =
  @Ok (option nat) (match sh with [] => None | _ => Some (norm (length sh) a) end).
Proof.
  intros [V| ->]; [|exists AxNone; split; reflexivity].
  destruct sh as [|z sh']; [unfold valid_axis in V; cbn in V; lia|]. set (sh := z :: sh') in *.
  unfold valid_axis in V. unfold sanitize_axis. destruct (Nat.eqb_spec (length sh) 0) as [E|_]; [discriminate|]. unfold norm.
  destruct ((0 <=? a) && (a <? Z.of_nat (length sh))) eqn:E; [exists (AxInt a); split; auto; destruct (Z.ltb_spec a 0); [lia|auto]|].
  destruct (Z.ltb_spec a 0); [|lia].
  replace ((a + Z.of_nat (length sh) <? 0) || (Z.of_nat (length sh) <=? a + Z.of_nat (length sh))) with false by (symmetry; lia). eauto.
Qed.

Lemma reshape_ok {A} (dflt : A) (x : dnd A) (G : list Z -> A) cnts shape sh ns :
  represents G (d_gshape x) (d_split x) cnts (d_locals x) -> (0 < length cnts)%nat ->
  np_shape (d_gshape x) shape = Ok sh ->
  match ns with AxNone => True | AxInt a => valid_axis (length sh) a \/ sh = [] | _ => False end ->
  (d_split x = None \/ sh <> [] \/ length cnts = 1%nat) ->
  exists y x' cnts' cnts'' G', reshape dflt x shape ns = Ok (y, x') /\
    d_gshape y = sh /\ d_split y = out_split (d_gshape x) sh (d_split x) ns /\ 
    represents G' sh (d_split y) cnts' (d_locals y) /\ length cnts' = length cnts /\
    (forall k, d_split y = Some k -> cnts' = zcounts (nth k sh 0) (length cnts)) /\
    map G' (row_major sh) = map G (row_major (d_gshape x)) /\
    d_gshape x' = d_gshape x /\ d_split x' = option_map (fun _ => 0%nat) (d_split x) /\
    represents G (d_gshape x) (d_split x') cnts'' (d_locals x').
Proof.
  intros HR HP EN HNS HS. destruct (np_shape_sound _ _ _ EN) as (EZ & _ & FN).
  assert (Fg : Forall (fun n => 0 <= n) (d_gshape x)) by apply HR. specialize (FN Fg).
  assert (LP : length (d_locals x) = length cnts) by apply HR.
  assert (LF : Z.of_nat (length (map G (row_major (d_gshape x)))) = zprod sh) by (rewrite map_length, row_major_length; auto).
  unfold reshape. rewrite EN. cbn [bind].
  (* new split *)
  assert (NSK : exists b, sanitize_axis (length sh) (match ns with AxNone => match d_split x with Some s => if Nat.eqb (length sh) (length (d_gshape x)) then AxInt (Z.of_nat s) else AxInt 0 | None => AxNone end | a => a end) = Ok b /\
     (match b with AxNone => Ok None | AxInt k => Ok (Some (Z.to_nat k)) | _ => Err TypeError end) = @Ok (option nat) (out_split (d_gshape x) sh (d_split x) ns) /\
     forall k, out_split (d_gshape x) sh (d_split x) ns = Some k -> (k < length sh)%nat).
  { destruct ns as [|a|l|]; try contradiction.
    - unfold out_split. destruct (d_split x) as [s|] eqn:Es.
      + destruct sh as [|z sh']; [exists AxNone; split; [destruct (_ =? _)%nat; reflexivity|]; split; [reflexivity|intros; discriminate]|]. set (sh := z :: sh') in *.
        destruct (Nat.eqb_spec (length sh) (length (d_gshape x))) as [EL|NL].
        * assert (Hs : (s < length (d_gshape x))%nat) by apply HR.
          destruct (sanitize_ns sh (Z.of_nat s)) as (b & E1 & E2); [left; unfold valid_axis; lia|]. exists b. split; [auto|]. split.
          -- rewrite E2. unfold sh at 1. f_equal. f_equal. unfold norm. destruct (Z.ltb_spec (Z.of_nat s) 0); lia.
          -- intros k E; injection E as <-; lia.
        * destruct (sanitize_ns sh 0) as (b & E1 & E2); [left; unfold valid_axis; cbn; lia|]. exists b. split; [auto|]. split; [rewrite E2; reflexivity|].
          intros k E; injection E as <-; cbn; lia.
      + exists AxNone. split; [unfold sanitize_axis; destruct (_ =? 0)%nat; reflexivity|]. split; [reflexivity|intros; discriminate].
    - destruct (sanitize_ns sh a HNS) as (b & E1 & E2). exists b. split; [auto|]. split; [exact E2|].
      unfold out_split. intros k E. destruct sh as [|z sh']; [discriminate|]. injection E as <-. destruct HNS as [V|]; [now apply norm_lt|discriminate]. }
  destruct NSK as (b & E1 & E2 & HK). rewrite E1. cbn [bind]. rewrite E2. cbn [bind]. clear E1 E2 b.
  set (os := out_split (d_gshape x) sh (d_split x) ns) in *.
  set (fl := map G (row_major (d_gshape x))) in *.
  assert (WHOLE : forall ls, (forall t, In t ls -> agrees t (d_gshape x) G) ->
     exists zs, all_ok (map (fun t => of_flat dflt sh (flat t)) ls) = Ok zs /\ length zs = length ls /\ forall z, In z zs -> agrees z sh (unflat dflt sh fl)).
  { intros ls Hls. destruct (all_ok_Qn (fun t => of_flat dflt sh (flat t)) (fun _ z => agrees z sh (unflat dflt sh fl)) ls) as (zs & E & L & Q).
    - intros r t Ht. apply nth_error_In in Ht. rewrite (flat_all t _ G) by auto. fold fl. unfold of_flat. rewrite LF, Z.eqb_refl.
      eexists. split; [reflexivity|]. split; [reflexivity|]. intros; reflexivity.
    - exists zs. split; [auto|]. split; [auto|]. intros z Hz. apply In_nth_error in Hz as (r & Hz). eauto. }
  destruct (d_split x) as [s|] eqn:Es.
  - assert (X0 : let x0 := resplit_any dflt x (Some 0%nat) in d_gshape x0 = d_gshape x /\ d_split x0 = Some 0%nat /\ length (d_locals x0) = length cnts /\
       exists c0, represents G (d_gshape x) (Some 0%nat) c0 (d_locals x0) /\ length c0 = length cnts).
    { destruct (resplit_any_ok dflt x G cnts s (Some 0%nat) HR Es HP) as (A1 & A2 & A3 & c0 & R & L & _).
      - intros k E; injection E as <-. assert (s < length (d_gshape x))%nat by apply HR. lia.
      - cbv zeta. eauto 10. }
    cbv zeta in X0. destruct X0 as (A1 & A2 & A3 & c0 & R0 & Lc0). set (x0 := resplit_any dflt x (Some 0%nat)) in *. rewrite A2.
    destruct (Nat.ltb_spec 1 (length (d_locals x))) as [HP1|HP1].
    + destruct HS as [HS|[HS|HS]]; [discriminate| |lia]. rewrite LP in *. set (P := length cnts) in *.
      destruct sh as [|n0 rest] eqn:Esh; [congruence|]. rewrite <- Esh in *.
      assert (FB : glob (map flat (d_locals x0)) = fl).
      { destruct R0 as (Hlen & Hn & H0 & Hc & Hsum & HR'). unfold fl. destruct (d_gshape x) as [|m0 mrest]; [simpl in H0; lia|].
        simpl in Hsum. subst m0. apply flat_blocks; auto. }
      set (target := map (fun r => Z.to_nat (zprod (chunk_shape sh 0 r P))) (seq 0 P)).
      assert (LT : length target = P) by (unfold target; now rewrite map_length, seq_length).
      assert (ST : Z.of_nat (list_sum target) = zprod sh).
      { rewrite Esh. rewrite <- (blocks_sum n0 rest P (map (fun k => repeat dflt k) target)); [| now rewrite <- Esh | lia |].
        - unfold lens. rewrite map_map. f_equal. f_equal. rewrite <- (map_id target) at 1. apply map_ext. intros; now rewrite repeat_length.
        - unfold lens. rewrite map_map. transitivity target; [|unfold target; now rewrite Esh]. rewrite <- (map_id target) at 2. apply map_ext. intros; now rewrite repeat_length. }
      assert (RD : exists d, (if forallb (fun p : nat * nat => Nat.eqb (fst p) (snd p)) (combine target (lens (map flat (d_locals x0)))) then Ok (map flat (d_locals x0))
                 else redistribute P (map flat (d_locals x0)) (Some target)) = Ok d /\ glob d = fl /\ lens d = target).
      { destruct (forallb _ _) eqn:EF.
        - eexists. split; [reflexivity|]. split; [auto|]. symmetry. apply forallb_lens; auto. rewrite LT, lens_length, map_length; lia.
        - destruct (@redistribute_ok_lemma _ (map flat (d_locals x0)) target) as (d & E & EG & EL).
          + rewrite LT, map_length. lia.
          + rewrite FB. unfold fl in *. lia.
          + rewrite map_length, A3 in E. rewrite E. exists d. split; [auto|]. split; [congruence|auto]. }
      destruct RD as (d & -> & EG & EL). cbn [bind].
      assert (Fsh : Forall (fun n => 0 <= n) (n0 :: rest)) by (rewrite <- Esh; auto).
      assert (LD : lens d = map (fun r => Z.to_nat (zprod (chunk_shape (n0 :: rest) 0 r P))) (seq 0 P)) by (rewrite EL; unfold target; now rewrite Esh).
      destruct (blocks_represent dflt n0 rest P d Fsh ltac:(lia) LD) as (ls & EA & R). rewrite <- Esh in EA, R. rewrite EA. cbn [bind].
      assert (E0 : nth 0 sh 0 = n0) by (rewrite Esh; reflexivity).
      assert (LZ : length (zcounts n0 P) = P) by (unfold zcounts, counts_of; now rewrite !map_length, seq_length).
      destruct (resplit_any_ok dflt (mk_dnd ls sh (Some 0%nat)) (unflat dflt sh (glob d)) (zcounts n0 P) 0 os) as (B1 & B2 & B3 & c' & R' & L' & C0 & CK); auto.
      { rewrite LZ. lia. }
      cbn [d_gshape d_split d_locals] in *.
      exists (resplit_any dflt (mk_dnd ls sh (Some 0%nat)) os), x0, c', c0, (unflat dflt sh (glob d)).
      split; [reflexivity|]. split; [auto|]. split; [auto|]. rewrite B2. split; [auto|]. split; [lia|]. split; [|split; [|split; [|split]]]; auto.
      * intros k Ek. destruct (Nat.eq_dec k 0) as [->|N]; [rewrite C0 by auto; rewrite E0; auto|]. rewrite (CK k Ek N). now rewrite LZ.
      * rewrite EG. apply unflat_row_major; auto.
      * rewrite A2. auto.
    + assert (L1 : length (d_locals x0) = 1%nat) by lia.
      assert (R0' : represents G (d_gshape x) (Some 0%nat) c0 (d_locals x0)) by auto.
      destruct (WHOLE (d_locals x0)) as (zs & EZs & Lz & Az); [intros t Ht; eapply one_rank_whole; eauto|].
      rewrite EZs. cbn [bind]. 
      exists (mk_dnd zs sh os), x0, (match os with Some k => zcounts (nth k sh 0) (length cnts) | None => cnts end), c0, (unflat dflt sh fl).
      cbn [d_gshape d_split d_locals]. split; [reflexivity|]. split; [auto|]. split; [auto|].
      assert (LC1 : length cnts = 1%nat) by lia. destruct zs as [|z [|]]; cbn in Lz; try lia.
      split; [|split; [|split; [|split; [|split; [|split]]]]]; auto.
      * destruct os as [k|] eqn:Eos.
        -- specialize (HK k eq_refl). assert (Nk : 0 <= nth k sh 0) by (rewrite Forall_forall in FN; apply FN, nth_In; auto).
           destruct (zcounts_ok (nth k sh 0) (length cnts) HP Nk) as (Z1 & Z2 & Z3).
           split; [cbn; lia|]. split; [auto|]. split; [auto|]. split; [auto|]. split; [auto|].
           intros r t Ht. destruct r as [|r]; [|destruct r; discriminate]. injection Ht as <-. destruct (Az z (or_introl eq_refl)) as [S1 D1].
           destruct (zcounts (nth k sh 0) (length cnts)) as [|c [|]]; cbn in Z1; try lia. unfold zsum in Z3. cbn in Z3. cbn [nth].
           replace c with (nth k sh 0) by lia. split; [rewrite upd_self; auto|]. intros idx Hi. rewrite upd_self in Hi. rewrite D1 by auto.
           f_equal. unfold move_axis_idx. cbn. rewrite Z.add_0_r. now rewrite upd_self.
        -- split; [cbn; lia|]. split; [auto|]. intros t [<-|[]]; apply Az; cbn; auto.
      * destruct os; auto. unfold zcounts, counts_of. now rewrite !map_length, seq_length.
      * intros k Ek. rewrite Ek. auto.
      * apply unflat_row_major; auto.
      * rewrite A2. auto.
  - rewrite Es. destruct HR as (_ & _ & HR). destruct (WHOLE (d_locals x) HR) as (zs & EZs & Lz & Az).
    destruct os as [k|] eqn:Eos.
    + rewrite EZs. cbn [bind]. specialize (HK k eq_refl).
      assert (Nk : 0 <= nth k sh 0) by (rewrite Forall_forall in FN; apply FN, nth_In; auto).
      destruct (zcounts_ok (nth k sh 0) (length cnts) HP Nk) as (Z1 & Z2 & Z3). rewrite LP in *. set (P := length cnts) in *.
      destruct (counts_Z (Z.to_nat (nth k sh 0)) P HP) as [_ CR].
      destruct (Nat.ltb_spec 1 P) as [HP1|HP1].
      * eexists (mk_dnd _ sh (Some k)), x, (zcounts (nth k sh 0) P), cnts, (unflat dflt sh fl). split; [reflexivity|]. cbn [d_gshape d_split d_locals].
        split; [auto|]. split; [auto|]. split; [|split; [|split; [|split; [|split; [|split]]]]]; auto.
        -- split; [rewrite map_length, combine_length, seq_length; lia|]. split; [auto|]. split; [auto|]. split; [auto|]. split; [auto|].
           intros r t Ht. rewrite nth_error_map in Ht. destruct (nth_error (combine (seq 0 P) zs) r) as [p|] eqn:Ep; [|discriminate]. injection Ht as <-.
           apply nth_error_combine in Ep as [Ep1 Ep2]. assert (Hr : (r < P)%nat) by (rewrite <- (seq_length P 0); apply nth_error_Some; congruence).
           rewrite (nth_error_nth' _ 0%nat) in Ep1 by (rewrite seq_length; auto). rewrite seq_nth in Ep1 by auto. injection Ep1 as Ep1. cbn in Ep1. rewrite <- Ep1.
           destruct (CR r Hr) as [C1 C2]. destruct (Az _ (nth_error_In _ _ Ep2)) as [S1 D1].
           split; [unfold chunk_shape; cbn [ash]; unfold zcounts; now rewrite C2|]. intros idx Hi. cbn [adat]. unfold chunk_start. rewrite <- C1. fold (zcounts (nth k sh 0) P).
           apply D1. apply move_in_bounds; auto. rewrite Z1. auto.
        -- intros j Ej; injection Ej as <-; auto.
        -- apply unflat_row_major; auto.
        -- rewrite Es. split; [auto|]. split; auto.
      * eexists (mk_dnd zs sh (Some k)), x, (zcounts (nth k sh 0) P), cnts, (unflat dflt sh fl). split; [reflexivity|]. cbn [d_gshape d_split d_locals].
        split; [auto|]. split; [auto|]. split; [|split; [|split; [|split; [|split; [|split]]]]]; auto.
        -- destruct zs as [|z [|]]; cbn in Lz; try lia.
           split; [cbn; lia|]. split; [auto|]. split; [auto|]. split; [auto|]. split; [auto|].
           intros r t Ht. destruct r as [|r]; [|destruct r; discriminate]. injection Ht as <-. destruct (Az z (or_introl eq_refl)) as [S1 D1].
           destruct (zcounts (nth k sh 0) P) as [|c [|]]; cbn in Z1; try lia. unfold zsum in Z3. cbn in Z3. cbn [nth].
           replace c with (nth k sh 0) by lia. split; [rewrite upd_self; auto|]. intros idx Hi. rewrite upd_self in Hi. rewrite D1 by auto.
           f_equal. unfold move_axis_idx. cbn. rewrite Z.add_0_r. now rewrite upd_self.
        -- intros j Ej; injection Ej as <-; auto.
        -- apply unflat_row_major; auto.
        -- rewrite Es. split; [auto|]. split; auto.
    + rewrite EZs. cbn [bind]. eexists (mk_dnd zs sh None), x, cnts, cnts, (unflat dflt sh fl). split; [reflexivity|]. cbn [d_gshape d_split d_locals].
      split; [auto|]. split; [auto|]. split; [|split; [|split; [|split; [|split; [|split]]]]]; auto.
      * split; [lia|]. split; auto.
      * intros; discriminate.
      * apply unflat_row_major; auto.
      * rewrite Es. split; [auto|]. split; auto.
Qed.
