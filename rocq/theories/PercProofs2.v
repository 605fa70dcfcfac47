(** Interpolation between floors and ceils; the value of perc_core. *)
From Coq Require Import QArith Qround Permutation Sorted Lqa.
From Verif Require Import Base ShapeSpec BaseLemmas LayoutModel LayoutProofs NdSpec TensorSpec TensorLemmas NdLemmas OpsModel OpsProofs2 OpsProofs3 OpsProofs4 OpsProofs5 OpsProofs6 RedistModel RedistProofs IndexModel IndexProofs ShapeModel ShapeProofs ShapeProofs2 ShapeProofs3 ShapeProofs4 ShapeProps SortModel SortNd SortSpec SortProps HaloModel BinModel FactoryModel PercSpec PercModel PercFloat PercProofs.
Open Scope Z_scope.

Lemma redist_like_ok c f GC GF cc cf : rep c cc GC -> rep f cf GF -> d_gshape c = d_gshape f -> d_split c = d_split f -> length cc = length cf ->
  d_gshape (redist_like 0%Q c f) = d_gshape f /\ d_split (redist_like 0%Q c f) = d_split f /\ rep (redist_like 0%Q c f) (match d_split f with Some _ => cf | None => cc end) GC.
Proof.
  intros RC RF EG ES EL. unfold redist_like. rewrite ES. destruct (d_split f) as [s|] eqn:E; [|auto].
  unfold rep in RC, RF. rewrite ES in RC. rewrite E in RF. pose proof (gather_agrees _ _ _ _ _ 0%Q RC) as AG. rewrite (local_counts _ _ _ _ _ RF).
  destruct RF as (A & B & C1 & C2 & C3 & C4). cbn [d_gshape d_split]. split; [auto|]. split; [auto|]. unfold rep. cbn [d_gshape d_split d_locals]. rewrite EG in *.
  split; [rewrite map_length, combine_length, seq_length; lia|]. split; [auto|]. split; [auto|]. split; [auto|]. split; [auto|].
  intros r t Ht. rewrite nth_error_map in Ht. destruct (nth_error (combine (seq 0 (length cf)) cf) r) as [[r' m]|] eqn:Er; [|discriminate]. injection Ht as <-. cbn [fst snd].
  assert (Lr : (r < length cf)%nat). { assert (X : (r < length (combine (seq 0 (length cf)) cf))%nat) by (apply nth_error_Some; congruence). rewrite combine_length, seq_length in X. lia. }
  apply nth_error_nth with (d := (0%nat, 0)) in Er. rewrite combine_nth in Er by now rewrite seq_length. rewrite seq_nth in Er by auto. injection Er as <- <-. cbn [Nat.add].
  split; [reflexivity|]. intros i Hi. cbn [adat]. apply AG. apply move_in_bounds; auto.
Qed.

Lemma mix_local f c GF GC cf cc fr : rep f cf GF -> rep c cc GC -> d_gshape c = d_gshape f -> d_split c = d_split f -> length cc = length cf ->
  (d_split f <> None -> cc = cf) ->
  let cn := match d_split f with Some s => map (fun t => nth s (ash t) 0) (d_locals f) | None => [] end in
  let at_global r i := match d_split f with Some s => move_axis_idx s (zsum (firstn r cn)) i | None => i end in
  rep (mk_dnd (map (fun p => let '(r, (a, b)) := p in
            mk_arr (ash a) (fun i => adat a i + (adat b i - adat a i) * fr (at_global r i))%Q)
          (combine (seq 0 (length (d_locals f))) (combine (d_locals f) (d_locals c)))) (d_gshape f) (d_split f)) cf
    (fun i => GF i + (GC i - GF i) * fr i)%Q.
Proof.
  intros RF RC EG ES EL EC cn ag. unfold rep in *. cbn [d_gshape d_split d_locals]. rewrite EG, ES in RC. destruct RF as (A & B & C). destruct RC as (A' & B' & C').
  assert (N : forall r (t : arr Q), nth_error (map (fun p => let '(r, (a, b)) := p in mk_arr (ash a) (fun i => adat a i + (adat b i - adat a i) * fr (ag r i))%Q) (combine (seq 0 (length (d_locals f))) (combine (d_locals f) (d_locals c)))) r = Some t ->
    exists a b, nth_error (d_locals f) r = Some a /\ nth_error (d_locals c) r = Some b /\ t = mk_arr (ash a) (fun i => adat a i + (adat b i - adat a i) * fr (ag r i))%Q).
  { intros r t Ht. rewrite nth_error_map in Ht. destruct (nth_error (combine _ _) r) as [[r' [a b]]|] eqn:Er; [|discriminate]. injection Ht as <-.
    assert (Lr : (r < length (d_locals f))%nat). { assert (X : (r < length (combine (seq 0 (length (d_locals f))) (combine (d_locals f) (d_locals c))))%nat) by (apply nth_error_Some; congruence). rewrite !combine_length, seq_length in X. lia. }
    assert (Lc : length (d_locals f) = length (d_locals c)) by lia.
    apply nth_error_nth with (d := (0%nat, (a, b))) in Er. rewrite combine_nth in Er by (rewrite seq_length, combine_length; lia). rewrite seq_nth in Er by auto. rewrite combine_nth in Er by auto. injection Er as <- Ea Eb.
    exists a, b. split; [transitivity (Some (nth r (d_locals f) a)); [apply nth_error_nth'; auto|congruence]|]. split; [transitivity (Some (nth r (d_locals c) b)); [apply nth_error_nth'; lia|congruence]|auto]. }
  split; [rewrite map_length, !combine_length, seq_length; lia|]. split; [auto|]. destruct (d_split f) as [s|] eqn:E.
  - rewrite (EC ltac:(discriminate)) in *. destruct C as (C1 & C2 & C3 & C4). destruct C' as (_ & _ & _ & C4').
    assert (EN : cn = cf). { unfold cn. apply (local_counts GF (d_gshape f) s cf). split; auto. }
    split; [auto|]. split; [auto|]. split; [auto|]. intros r t Ht. destruct (N r t Ht) as (a & b & Ha & Hb & ->). destruct (C4 r a Ha) as [P1 P2]. destruct (C4' r b Hb) as [Q1 Q2].
    split; [exact P1|]. intros i Hi. cbn [adat]. rewrite (P2 i Hi), (Q2 i Hi). unfold ag. now rewrite EN.
  - intros t Ht. apply In_nth_error in Ht as (r & Ht). destruct (N r t Ht) as (a & b & Ha & Hb & ->). apply nth_error_In in Ha, Hb. destruct (C a Ha) as [P1 P2]. destruct (C' b Hb) as [Q1 Q2].
    split; [exact P1|]. intros i Hi. cbn [adat]. now rewrite (P2 i Hi), (Q2 i Hi).
Qed.

Lemma mix_ok gather_all f c GF GC cf cc fr : rep f cf GF -> rep c cc GC -> d_gshape c = d_gshape f -> d_split c = d_split f -> length cc = length cf ->
  let y := mix 0%Q gather_all f c fr in
  d_gshape y = d_gshape f /\ d_split y = (if gather_all then None else d_split f) /\ rep y cf (fun i => GF i + (GC i - GF i) * fr i)%Q.
Proof.
  intros RF RC EG ES EL y. unfold y, mix. destruct gather_all.
  - destruct (resplit_none_represents GF f cf 0%Q RF) as (F1 & F2 & F3). destruct (resplit_none_represents GC c cc 0%Q RC) as (C1 & C2 & C3).
    cbn [d_gshape d_split]. split; [auto|]. split; [auto|]. apply (mix_local _ _ _ _ _ cc); unfold rep; congruence.
  - destruct (redist_like_ok c f GC GF cc cf RC RF EG ES EL) as (C1 & C2 & C3).
    cbn [d_gshape d_split]. split; [auto|]. split; [auto|]. apply (mix_local _ _ _ _ _ _ fr RF C3 C1 C2); destruct (d_split f); auto; congruence.
Qed.

(** the order of Q *)
Lemma Qltb_weak : weak_order Qltb.
Proof.
  unfold weak_order, Qltb. split; intros.
  - apply Bool.negb_true_iff in H. apply Bool.negb_false_iff. apply Qle_bool_iff. assert (~ (y <= x)%Q) by (rewrite <- Qle_bool_iff; congruence). lra.
  - apply Bool.negb_false_iff in H, H0. apply Qle_bool_iff in H, H0. apply Bool.negb_false_iff. apply Qle_bool_iff. lra.
Qed.

(** along axis 0, sorting gives a sorted version of every lane *)
Lemma lane0 {B} (F : list Z -> B) n k i : lane F 0 n (k :: i) = map (fun j => F (j :: i)) (zr n).
Proof. reflexivity. Qed.

Lemma floor_in {n} h : (0 <= h <= inject_Z (n - 1))%Q -> 0 <= Qfloor h < n.
Proof. intros [A B]. apply Qfloor_resp_le in A, B. rewrite Qfloor_Z in B. change 0%Q with (inject_Z 0) in A. rewrite Qfloor_Z in A. lia. Qed.
Lemma ceil_in {n} h : (0 <= h <= inject_Z (n - 1))%Q -> 0 <= Qceiling h < n.
Proof. intros [A B]. apply Qceiling_resp_le in A, B. rewrite Qceiling_Z in B. change 0%Q with (inject_Z 0) in A. rewrite Qceiling_Z in A. lia. Qed.
Lemma rne_in {n} h : (0 <= h <= inject_Z (n - 1))%Q -> 0 <= rne h < n.
Proof. intros [A B]. apply rne_le in B. change 0%Q with (inject_Z 0) in A. apply rne_ge in A. lia. Qed.

Section Core.
Variables (rnd cv : Q -> Q) (ts : bool -> list Q -> list nat) (cast : Z -> Z).
Variables (x : dnd Q) (G : list Z -> Q) (cnts : list Z) (n : Z) (rest : list Z).
Hypothesis HTS : sorts 0%Q Qltb ts.
Hypothesis HR : rep x cnts G.
Hypothesis HS : d_gshape x = n :: rest.
Hypothesis HP : (0 < length cnts)%nat.
Hypothesis Hn : 0 < n <= 2 ^ 31.
Hypothesis HL : d_split x = Some 0%nat -> (1 < length cnts)%nat -> cnts = zcounts n (length cnts) /\ forall i, 0 <= i < n -> cast i = i.
Hypothesis HM : forall a b, (a <= b)%Q -> (cv a <= cv b)%Q.

(** the converted data along axis 0 *)
Definition data (i : list Z) : list Q := map (fun j => cv (G (j :: i))) (zr n).

Lemma data_length i : length (data i) = Z.to_nat n.
Proof. unfold data. now rewrite map_length, length_zr. Qed.

Lemma sorted_data : exists s S, (do y <- sort_nd 0%Q Qltb ts cast x 0 false; Ok (map_dnd (fun v => cv (fst v)) y)) = Ok s /\
  d_gshape s = n :: rest /\ d_split s = d_split x /\ rep s cnts S /\
  forall i, in_bounds rest i -> sorted_version (data i) (map (fun j => S (j :: i)) (zr n)).
Proof.
  destruct (C37_sort Q 0%Q Qltb ts cast x G cnts 0 false) as (y & H & E & Y1 & Y2 & Y3 & Y4); auto.
  { apply Qltb_weak. }
  { rewrite HS. cbn. lia. }
  { rewrite HS. cbn. lia. }
  { rewrite HS. cbn [nth]. intros A B. destruct (HL A B). split; auto. split; [lia|auto]. }
  change (Z.of_nat 0) with 0 in E. rewrite E. cbn [bind]. eexists _, (fun i => cv (fst (H i))). split; [reflexivity|]. cbn [map_dnd d_gshape d_split]. split; [congruence|]. split; [auto|]. split.
  - unfold rep in *. cbn [map_dnd d_gshape d_split d_locals]. destruct Y3 as (A & B & C). split; [now rewrite map_length|]. split; [auto|]. destruct (d_split y) as [s|].
    + destruct C as (C1 & C2 & C3 & C4). split; [auto|]. split; [auto|]. split; [auto|]. intros r t Ht. rewrite nth_error_map in Ht. destruct (nth_error (d_locals y) r) as [u|] eqn:Eu; [|discriminate]. injection Ht as <-.
      destruct (C4 r u Eu) as [D1 D2]. split; [exact D1|]. intros i Hi. cbn [adat]. now rewrite (D2 i Hi).
    + intros t Ht. apply in_map_iff in Ht as (u & <- & Hu). destruct (C u Hu) as [D1 D2]. split; [exact D1|]. intros i Hi. cbn [adat]. now rewrite (D2 i Hi).
  - intros i Hi. rewrite HS in Y4. destruct (Y4 (0 :: i)) as (O1 & O2 & _); [apply cons_bounds; auto; lia|]. cbn [nth] in O1, O2. rewrite lane0 in O1, O2. rewrite map_map in O1, O2.
    assert (EQ : forall j, In j (zr n) -> fst (H (j :: i)) = G (snd (H (j :: i)) :: i)).
    { intros j Hj. apply in_zr in Hj. destruct (Y4 (j :: i)) as (_ & _ & O3); [apply cons_bounds; auto|]. exact O3. }
    split.
    + unfold data. transitivity (map (fun j => cv (G (j :: i))) (map (fun j => snd (H (j :: i))) (zr n))).
      * rewrite map_map. erewrite map_ext_in; [apply Permutation_refl|]. intros j Hj. cbn beta. now rewrite (EQ j Hj).
      * apply Permutation_map. exact O2.
    + unfold in_order in O1. clear - O1 HM. induction (zr n) as [|j l IH]; [constructor|]. cbn [map] in *. inversion O1 as [|? ? S1 F1]; subst. constructor; [auto|].
      rewrite Forall_forall in *. intros v Hv. apply in_map_iff in Hv as (k & <- & Hk). apply HM. assert (X := F1 (fst (H (k :: i))) (in_map _ _ _ Hk)). unfold Qltb in X. apply Bool.negb_false_iff in X. now apply Qle_bool_iff.
Qed.

Lemma at_lane (S : list Z -> Q) i k : 0 <= k < n -> at_pos (map (fun j => S (j :: i)) (zr n)) k = S (k :: i).
Proof.
  intros Hk. unfold at_pos. rewrite (nth_indep _ _ (S (0 :: i))) by (rewrite map_length, length_zr; lia). rewrite (map_nth (fun j => S (j :: i))). unfold zr. change 0 with (Z.of_nat 0) at 1. rewrite map_nth, seq_nth by lia. cbn. now rewrite Z2Nat.id by lia.
Qed.

(** the value at the (rounded) position of q *)
Definition value_at (m : interp) (q : Q) (i : list Z) (v : Q) : Prop :=
  exists s, sorted_version (data i) s /\
    match m with
    | Midpoint => exists h, (rnd ((1 # 2) * rnd (inject_Z (Qfloor (raw_index rnd q n)) + inject_Z (Qceiling (raw_index rnd q n)))) == h)%Q /\ interp_at Linear s h v
    | _ => interp_at m s (raw_index rnd q n) v
    end.
(** the rounded positions lie inside the data *)
Definition inside (m : interp) (q : Q) : Prop :=
  let h := raw_index rnd q n in
  let ok := fun h => (0 <= h <= inject_Z (n - 1))%Q in
  ok h /\ match m with Midpoint => ok (rnd ((1 # 2) * rnd (inject_Z (Qfloor h) + inject_Z (Qceiling h))))%Q | _ => True end.

Theorem core_scalar m q ga : inside m q ->
  exists y c H, perc_core rnd cv ts cast m (QS q) ga x = Ok y /\ length c = length cnts /\ d_gshape y = rest /\
    d_split y = (match m with Linear | Midpoint => if ga then None else split1 (d_split x) | _ => split1 (d_split x) end) /\ rep y c H /\
    forall i, in_bounds rest i -> value_at m q i (H i).
Proof.
  intros HI. unfold perc_core. rewrite HS. cbn [nth]. destruct sorted_data as (s & S & E & S1 & S2 & S3 & S4).
  destruct (sort_nd 0%Q Qltb ts cast x 0 false) as [y0|e]; [|discriminate]. cbn [bind] in *. injection E as ->.
  assert (INT : forall k, 0 <= k < n -> exists y c, get_int 0%Q s k = Ok y /\ length c = length cnts /\ d_gshape y = rest /\ d_split y = split1 (d_split x) /\ rep y c (fun i => S (k :: i))).
  { intros k Hk. destruct (get_int_ok s S cnts n rest S3 S1 HP k Hk) as (y & c & E1 & E2 & E3 & E4 & E5 & _). exists y, c. rewrite S2 in E4. auto. }
  assert (FLT : forall h, (0 <= h <= inject_Z (n - 1))%Q -> exists y c H, (do f <- get_int 0%Q s (Qfloor h); do c <- get_int 0%Q s (Qceiling h); Ok (mix 0%Q ga f c (fun _ => frac h))) = Ok y /\ length c = length cnts /\
     d_gshape y = rest /\ d_split y = (if ga then None else split1 (d_split x)) /\ rep y c H /\ forall i, in_bounds rest i -> interp_at Linear (map (fun j => S (j :: i)) (zr n)) h (H i)).
  { intros h Hh. destruct (INT _ (floor_in h Hh)) as (f & cf & -> & F1 & F2 & F3 & F4). destruct (INT _ (ceil_in h Hh)) as (c & cc & -> & C1 & C2 & C3 & C4). cbn [bind].
    destruct (mix_ok ga f c _ _ cf cc (fun _ => frac h) F4 C4 ltac:(congruence) ltac:(congruence) ltac:(congruence)) as (M1 & M2 & M3). eexists _, cf, _. split; [reflexivity|]. split; [auto|]. split; [congruence|]. split; [rewrite M2, F3; auto|]. split; [exact M3|].
    intros i Hi. cbn [interp_at]. rewrite !at_lane by (auto using floor_in, ceil_in). reflexivity. }
  destruct HI as [H1 H2].
  destruct m; cbn [perc_index].
  - destruct (FLT _ H1) as (y & c & H & E1 & E2 & E3 & E4 & E5 & E6). exists y, c, H. split; [auto|]. split; [auto|]. split; [auto|]. split; [auto|]. split; [auto|]. intros i Hi. exists (map (fun j => S (j :: i)) (zr n)). split; [auto|]. now apply E6.
  - destruct (INT _ (floor_in _ H1)) as (y & c & E1 & E2 & E3 & E4 & E5). eexists y, c, _. split; [auto|]. split; [auto|]. split; [auto|]. split; [auto|]. split; [exact E5|]. intros i Hi. exists (map (fun j => S (j :: i)) (zr n)). split; [auto|]. cbn [interp_at]. rewrite at_lane by (auto using floor_in). reflexivity.
  - destruct (INT _ (ceil_in _ H1)) as (y & c & E1 & E2 & E3 & E4 & E5). eexists y, c, _. split; [auto|]. split; [auto|]. split; [auto|]. split; [auto|]. split; [exact E5|]. intros i Hi. exists (map (fun j => S (j :: i)) (zr n)). split; [auto|]. cbn [interp_at]. rewrite at_lane by (auto using ceil_in). reflexivity.
  - destruct (FLT _ H2) as (y & c & H & E1 & E2 & E3 & E4 & E5 & E6). exists y, c, H. split; [auto|]. split; [auto|]. split; [auto|]. split; [auto|]. split; [auto|]. intros i Hi. exists (map (fun j => S (j :: i)) (zr n)). split; [auto|]. eexists. split; [reflexivity|]. now apply E6.
  - destruct (INT _ (rne_in _ H1)) as (y & c & E1 & E2 & E3 & E4 & E5). eexists y, c, _. split; [auto|]. split; [auto|]. split; [auto|]. split; [auto|]. split; [exact E5|]. intros i Hi. exists (map (fun j => S (j :: i)) (zr n)). split; [auto|]. cbn [interp_at]. exists (rne (raw_index rnd q n)). destruct (rne_near (raw_index rnd q n)). split; [auto|]. split; [auto|]. rewrite at_lane by (auto using rne_in). reflexivity.
Qed.

(** rounding is monotone; needed for the order of the keys *)
Hypothesis RM : forall a b, (0 <= a <= b)%Q -> (0 <= rnd a <= rnd b)%Q.
Lemma raw_mono a b : (0 <= a <= b)%Q -> (raw_index rnd a n <= raw_index rnd b n)%Q.
Proof.
  intros H. unfold raw_index. assert (A1 := RM _ _ H).
  assert (A2 : (0 <= rnd a / inject_Z 100 <= rnd b / inject_Z 100)%Q).
  { unfold Qdiv. change (/ inject_Z 100)%Q with (1 # 100)%Q. lra. }
  assert (A3 := RM _ _ A2). assert (N0 : (0 <= inject_Z (n - 1))%Q) by (change 0%Q with (inject_Z 0); rewrite <- Zle_Qle; lia).
  assert (A4 := RM _ _ (conj N0 (Qle_refl _))). apply RM. split; nra.
Qed.
Lemma rne_mono a b : (a <= b)%Q -> rne a <= rne b.
Proof.
  intros H. destruct (Z_le_gt_dec (rne a) (rne b)) as [|L]; [auto|exfalso].
  destruct (rne_near a) as [A1 A2]. destruct (rne_near b) as [B1 B2].
  assert (X : (inject_Z (rne b) + 1 <= inject_Z (rne a))%Q). { change 1%Q with (inject_Z 1). rewrite <- inject_Z_plus. rewrite <- Zle_Qle. lia. }
  assert (E : (a == b)%Q) by lra. assert (rne a = rne b); [|lia]. unfold rne. rewrite (Qfloor_comp _ _ E).
  assert (E2 : (a - inject_Z (Qfloor b) == b - inject_Z (Qfloor b))%Q) by (now rewrite E). rewrite (Qcompare_comp _ _ E2 (1 # 2) (1 # 2) (Qeq_refl _)). reflexivity.
Qed.
Lemma sorted_map {A B} (R : A -> A -> Prop) (R' : B -> B -> Prop) (f : A -> B) l : (forall a b, In a l -> In b l -> R a b -> R' (f a) (f b)) -> StronglySorted R l -> StronglySorted R' (map f l).
Proof.
  intros H HS'. induction HS' as [|a l S1 IH F]; [constructor|]. cbn [map]. constructor.
  - apply IH. intros; apply H; cbn; auto.
  - rewrite Forall_forall in *. intros v Hv. apply in_map_iff in Hv as (b & <- & Hb). apply H; cbn; auto.
Qed.

Theorem core_list m qs ga : (forall q, In q qs -> (0 <= q)%Q /\ inside m q) ->
  (d_split x = Some 0%nat -> (1 < length cnts)%nat -> StronglySorted Qle qs /\ (1 < length qs)%nat) ->
  exists y c H, perc_core rnd cv ts cast m (QL qs) ga x = Ok y /\ length c = length cnts /\ d_gshape y = Z.of_nat (length qs) :: rest /\
    d_split y = (match m with Linear | Midpoint => if ga then None else d_split x | _ => d_split x end) /\ rep y c H /\
    forall k i, 0 <= k < Z.of_nat (length qs) -> in_bounds rest i -> value_at m (nth (Z.to_nat k) qs 0%Q) i (H (k :: i)).
Proof.
  intros HI HO. unfold perc_core. rewrite HS. cbn [nth]. destruct sorted_data as (s & S & E & S1 & S2 & S3 & S4).
  destruct (sort_nd 0%Q Qltb ts cast x 0 false) as [y0|e]; [|discriminate]. cbn [bind] in *. injection E as ->.
  assert (LST : forall (g : Q -> Z), (forall q, In q qs -> 0 <= g q < n) -> (forall a b, In a qs -> In b qs -> (a <= b)%Q -> g a <= g b) ->
     exists y c, get_list 0%Q s (map g qs) = Ok y /\ length c = length cnts /\ d_gshape y = Z.of_nat (length qs) :: rest /\ d_split y = d_split x /\ rep y c (fun i => S (nth (Z.to_nat (nth 0 i 0)) (map g qs) 0 :: tl i))).
  { intros g Hg Mg. destruct (get_list_ok s S cnts n rest S3 S1 HP (map g qs)) as (y & c & E1 & E2 & E3 & E4 & E5 & _).
    - apply Forall_forall. intros k Hk. apply in_map_iff in Hk as (q & <- & Hq). auto.
    - rewrite S2. intros D1 D2. destruct (HO D1 D2) as [O1 O2]. rewrite map_length. split; [|auto]. apply (sorted_map Qle Z.le); auto.
    - exists y, c. rewrite map_length in E3. rewrite S2 in E4. auto. }
  assert (NTH : forall (g : Q -> Z) k, 0 <= k < Z.of_nat (length qs) -> nth (Z.to_nat k) (map g qs) 0 = g (nth (Z.to_nat k) qs 0%Q)).
  { intros g k Hk. rewrite (nth_indep _ 0 (g 0%Q)) by (rewrite map_length; lia). apply map_nth. }
  assert (IN : forall k, 0 <= k < Z.of_nat (length qs) -> In (nth (Z.to_nat k) qs 0%Q) qs) by (intros k Hk; apply nth_In; lia).
  assert (FLT : forall hf : Q -> Q, (forall q, In q qs -> (0 <= hf q <= inject_Z (n - 1))%Q) -> (forall a b, In a qs -> In b qs -> (a <= b)%Q -> (hf a <= hf b)%Q) -> exists y c H,
     (do f <- get_list 0%Q s (map Qfloor (map hf qs)); do c <- get_list 0%Q s (map Qceiling (map hf qs)); Ok (mix 0%Q ga f c (fun i => frac (nth (Z.to_nat (nth 0 i 0)) (map hf qs) 0%Q)))) = Ok y /\ length c = length cnts /\
     d_gshape y = Z.of_nat (length qs) :: rest /\ d_split y = (if ga then None else d_split x) /\ rep y c H /\
     forall k i, 0 <= k < Z.of_nat (length qs) -> in_bounds rest i -> interp_at Linear (map (fun j => S (j :: i)) (zr n)) (hf (nth (Z.to_nat k) qs 0%Q)) (H (k :: i))).
  { intros hf Hh Mh. rewrite !map_map. destruct (LST (fun q => Qfloor (hf q))) as (f & cf & -> & F1 & F2 & F3 & F4); [intros; apply floor_in; auto|intros; apply Qfloor_resp_le; auto|].
    destruct (LST (fun q => Qceiling (hf q))) as (c & cc & -> & C1 & C2 & C3 & C4); [intros; apply ceil_in; auto|intros; apply Qceiling_resp_le; auto|]. cbn [bind].
    destruct (mix_ok ga f c _ _ cf cc (fun i => frac (nth (Z.to_nat (nth 0 i 0)) (map hf qs) 0%Q)) F4 C4 ltac:(congruence) ltac:(congruence) ltac:(congruence)) as (M1 & M2 & M3).
    eexists _, cf, _. split; [reflexivity|]. split; [auto|]. split; [congruence|]. split; [rewrite M2, F3; auto|]. split; [exact M3|].
    intros k i Hk Hi. cbn [interp_at nth tl]. rewrite !NTH by auto. cbn beta. assert (B := Hh _ (IN k Hk)).
    rewrite (nth_indep (map hf qs) 0%Q (hf 0%Q)) by (rewrite map_length; lia). rewrite (map_nth hf). rewrite !at_lane by (auto using floor_in, ceil_in). reflexivity. }
  assert (RI : forall q, In q qs -> (0 <= raw_index rnd q n <= inject_Z (n - 1))%Q) by (intros q Hq; apply (HI q Hq)).
  assert (RMo : forall a b, In a qs -> In b qs -> (a <= b)%Q -> (raw_index rnd a n <= raw_index rnd b n)%Q) by (intros a b Ha Hb L; apply raw_mono; split; [apply (HI a Ha)|auto]).
  destruct m; cbn [perc_index]; cbv zeta; match goal with |- context [map ?g (map ?f qs)] => rewrite (map_map f g) end.
  - destruct (FLT (fun q => raw_index rnd q n) RI RMo) as (y & c & H & E1 & E2 & E3 & E4 & E5 & E6). exists y, c, H. split; [auto|]. split; [auto|]. split; [auto|]. split; [auto|]. split; [auto|]. intros k i Hk Hi. exists (map (fun j => S (j :: i)) (zr n)). split; [auto|]. now apply E6.
  - rewrite ?map_map. destruct (LST (fun q => Qfloor (raw_index rnd q n))) as (y & c & E1 & E2 & E3 & E4 & E5); [intros; apply floor_in; auto|intros; apply Qfloor_resp_le; auto|]. eexists y, c, _. split; [exact E1|]. split; [auto|]. split; [auto|]. split; [auto|]. split; [exact E5|].
    intros k i Hk Hi. exists (map (fun j => S (j :: i)) (zr n)). split; [auto|]. cbn [interp_at nth tl]. rewrite NTH by auto. cbn beta. rewrite at_lane by (apply floor_in; auto). reflexivity.
  - rewrite ?map_map. destruct (LST (fun q => Qceiling (raw_index rnd q n))) as (y & c & E1 & E2 & E3 & E4 & E5); [intros; apply ceil_in; auto|intros; apply Qceiling_resp_le; auto|]. eexists y, c, _. split; [exact E1|]. split; [auto|]. split; [auto|]. split; [auto|]. split; [exact E5|].
    intros k i Hk Hi. exists (map (fun j => S (j :: i)) (zr n)). split; [auto|]. cbn [interp_at nth tl]. rewrite NTH by auto. cbn beta. rewrite at_lane by (apply ceil_in; auto). reflexivity.
  - destruct (FLT (fun q => rnd ((1 # 2) * rnd (inject_Z (Qfloor (raw_index rnd q n)) + inject_Z (Qceiling (raw_index rnd q n)))))%Q) as (y & c & H & E1 & E2 & E3 & E4 & E5 & E6).
    + intros q Hq. apply (HI q Hq).
    + intros a b Ha Hb L. assert (R0 := RMo a b Ha Hb L). assert (F := Qfloor_resp_le _ _ R0). assert (C := Qceiling_resp_le _ _ R0). rewrite Zle_Qle in F, C.
      assert (F0 := floor_in _ (RI a Ha)). assert (C0 := ceil_in _ (RI a Ha)). assert (Z0 : forall z, 0 <= z -> (0 <= inject_Z z)%Q) by (intros z Hz; change 0%Q with (inject_Z 0); now rewrite <- Zle_Qle).
      assert (P1 := Z0 _ (proj1 F0)). assert (P2 := Z0 _ (proj1 C0)).
      assert (Q1 := RM (inject_Z (Qfloor (raw_index rnd a n)) + inject_Z (Qceiling (raw_index rnd a n))) (inject_Z (Qfloor (raw_index rnd b n)) + inject_Z (Qceiling (raw_index rnd b n))) ltac:(lra)).
      apply RM. lra.
    + exists y, c, H. split; [auto|]. split; [auto|]. split; [auto|]. split; [auto|]. split; [auto|]. intros k i Hk Hi. exists (map (fun j => S (j :: i)) (zr n)). split; [auto|]. eexists. split; [reflexivity|]. now apply E6.
  - rewrite ?map_map. destruct (LST (fun q => rne (raw_index rnd q n))) as (y & c & E1 & E2 & E3 & E4 & E5); [intros; apply rne_in; auto|intros; apply rne_mono; auto|]. eexists y, c, _. split; [exact E1|]. split; [auto|]. split; [auto|]. split; [auto|]. split; [exact E5|].
    intros k i Hk Hi. exists (map (fun j => S (j :: i)) (zr n)). split; [auto|]. cbn [interp_at nth tl]. rewrite NTH by auto. cbn beta. exists (rne (raw_index rnd (nth (Z.to_nat k) qs 0%Q) n)). destruct (rne_near (raw_index rnd (nth (Z.to_nat k) qs 0%Q) n)). split; [auto|]. split; [auto|]. rewrite at_lane by (apply rne_in; auto). reflexivity.
Qed.
End Core.
