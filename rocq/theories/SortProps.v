From Coq Require Import Permutation Sorted.
From Verif Require Import Base BaseLemmas LayoutModel LayoutProofs NdSpec TensorSpec NdLemmas TensorLemmas OpsModel OpsProofs4 RedistModel HaloModel ShapeModel ShapeSpec ShapeProofs ShapeProofs4 ShapeProps BinModel BinProofs2 FactoryModel FactoryProps ConcatModel ConcatProps DiagModel DiagProps RollProps SplitModel SplitProps SortModel SortSpec SortNd SortProofs SortProofs2 SortProofs3 SortProofs4.
Open Scope Z_scope.

Lemma wrap32_id z : 0 <= z < 2 ^ 31 -> wrap32 z = z.
Proof. intros H. unfold wrap32. rewrite Z.mod_small; lia. Qed.
Lemma upd_upd_ax {A} (l : list A) k u v : upd (upd l k u) k v = upd l k v.
Proof. apply upd_upd_same. Qed.
Lemma lane_upd {B} (F : list Z -> B) ax n idx v : lane F ax n (upd idx ax v) = lane F ax n idx.
Proof. unfold lane. apply map_ext. intros i. now rewrite upd_upd_ax. Qed.
Lemma lane_length {B} (F : list Z -> B) ax n idx : length (lane F ax n idx) = Z.to_nat n.
Proof. unfold lane, zr. now rewrite !map_length, seq_length. Qed.
Lemma lane_of_upd {V} ax (t : arr V) idx v : lane_of ax t (upd idx ax v) = lane_of ax t idx.
Proof. unfold lane_of. apply map_ext. intros i. now rewrite upd_upd_ax. Qed.
Lemma map_zr {B} (f : Z -> B) n : map f (zr n) = map (fun k => f (Z.of_nat k)) (seq 0 (Z.to_nat n)).
Proof. unfold zr. now rewrite map_map. Qed.
Lemma lane_nth {B} (F : list Z -> B) ax n idx k d : (k < Z.to_nat n)%nat -> nth k (lane F ax n idx) d = F (upd idx ax (Z.of_nat k)).
Proof. intros H. unfold lane. rewrite map_zr. now apply (nth_map_seq_d (fun k => F (upd idx ax (Z.of_nat k)))). Qed.

Lemma psum_zsum r : forall l, Z.of_nat (psum l r) = zsum (firstn r (map Z.of_nat l)).
Proof. unfold psum. induction r as [|r IH]; intros [|a l]; try reflexivity. cbn [firstn map list_sum fold_right]. change (zsum (Z.of_nat a :: firstn r (map Z.of_nat l))) with (Z.of_nat a + zsum (firstn r (map Z.of_nat l))). rewrite <- IH. rewrite <- Nat2Z.inj_add. reflexivity. Qed.

Section SortThm.
Context {V : Type} (dv : V) (lt : V -> V -> bool) (ts : bool -> list V -> list nat) (cast : Z -> Z) (desc : bool).
Hypothesis HW : weak_order lt.
Hypothesis HS : sorts dv lt ts.

(** * sorting locally *)
Definition TS (F : list Z -> V) (ax : nat) (n : Z) (idx : list Z) : V * Z :=
  let l := lane F ax n idx in let k := nth (Z.to_nat (nth ax idx 0)) (ts desc l) 0%nat in (nth k l dv, wrap32 (Z.of_nat k)).
Lemma torch_sort_ok ax (t : arr V) sh F : agrees t sh F -> (ax < length sh)%nat -> agrees (i32 (torch_sort dv ts ax desc t)) sh (TS F ax (nth ax sh 0)).
Proof.
  intros [E D] HA. split; [exact E|]. intros idx Hi. unfold i32, torch_sort, TS. cbn [adat ash fst snd].
  assert (EL : lane_of ax t idx = lane F ax (nth ax sh 0) idx). { unfold lane_of, lane. rewrite E. apply map_ext_in. intros i Hi'. apply in_zr in Hi'. apply D. apply in_bounds_upd; auto. }
  now rewrite EL.
Qed.
Lemma TS_lane G ax n idx : (ax < length idx)%nat -> lane (TS G ax n) ax n idx = map (fun k => (nth k (lane G ax n idx) dv, wrap32 (Z.of_nat k))) (ts desc (lane G ax n idx)).
Proof.
  intros H. set (l := lane G ax n idx). destruct (HS desc l) as [HPm _]. assert (LT := Permutation_length HPm). rewrite seq_length in LT. unfold l in LT at 2. rewrite lane_length in LT.
  unfold lane at 1. rewrite map_zr. rewrite <- (map_nth_seq (ts desc l) 0%nat) at 1. rewrite map_map, LT. apply map_ext_in. intros k Hk. unfold TS. rewrite lane_upd. fold l. rewrite upd_same by auto. now rewrite Nat2Z.id.
Qed.
Lemma TS_sorted G ax sh : (ax < length sh)%nat -> nth ax sh 0 <= 2 ^ 31 -> sorted_along lt desc ax sh G (TS G ax (nth ax sh 0)).
Proof.
  intros HA HB idx Hi. set (n := nth ax sh 0). intros n'. subst n'. assert (LI := in_bounds_length _ _ Hi). set (l := lane G ax n idx). destruct (HS desc l) as [HPm HO]. assert (Ll : length l = Z.to_nat n) by apply lane_length. rewrite Ll in HPm.
  assert (BN := proj2 (proj1 (in_bounds_nth _ _) Hi) ax HA). fold n in BN.
  rewrite TS_lane by lia. fold l. rewrite !map_map. cbn [fst snd]. split; [exact HO|]. split.
  - rewrite (Permutation_map _ HPm). unfold zr. erewrite map_ext_in; [apply Permutation_refl|]. intros k Hk. apply in_seq in Hk. apply wrap32_id. lia.
  - unfold TS. fold l. set (k := nth (Z.to_nat (nth ax idx 0)) (ts desc l) 0%nat). cbn [fst snd].
    assert (Hk : (k < Z.to_nat n)%nat). { assert (In k (ts desc l)) by (apply nth_In; rewrite (Permutation_length HPm), seq_length; lia). apply (Permutation_in k HPm) in H. apply in_seq in H. lia. }
    rewrite wrap32_id by lia. unfold l. now apply lane_nth.
Qed.

(** * sorting along the split axis *)
Section Dist.
Variables (x : dnd V) (G : list Z -> V) (cnts : list Z) (s : nat).
Let n := nth s (d_gshape x) 0.
Let P := length (d_locals x).
Hypothesis HR : represents G (d_gshape x) (Some s) cnts (d_locals x).
Hypothesis HP : (1 < P)%nat.
Hypothesis HC : cnts = zcounts n P.
Hypothesis HN : 0 < n.
Hypothesis HK : forall i, 0 <= i < n -> cast i = i.
Hypothesis HB : n <= 2 ^ 31.
Notation cnt r := (nth r cnts 0).
Notation off r := (zsum (firstn r cnts)).

Let lanes idx := sort_lane dv lt ts cast desc n (map (fun t => lane_of s t idx) (d_locals x)).
Lemma lane_r idx r t : in_bounds (d_gshape x) idx -> nth_error (d_locals x) r = Some t -> lane_of s t idx = map (fun i => G (upd idx s (off r + i))) (zr (cnt r)).
Proof.
  intros Hi Ht. destruct HR as (HLc & Hn & Hs & Hc & Hsum & HRr). destruct (HRr r t Ht) as [E D]. unfold lane_of. rewrite E, upd_same by auto. apply map_ext_in. intros i Hi'. apply in_zr in Hi'.
  assert (LI := in_bounds_length _ _ Hi). rewrite D.
  - unfold move_axis_idx. rewrite upd_same by lia. rewrite upd_upd_ax. f_equal. f_equal. lia.
  - apply in_bounds_upd_shape; auto. rewrite upd_length. split; [auto|]. rewrite upd_same by lia. split; [auto|]. intros k Hk Nk. rewrite upd_other by auto. apply in_bounds_nth in Hi as [_ Hi]. auto.
Qed.
Lemma lane_cat : forall (ls : list (list V)) (f : Z -> V) cs o, (forall c, In c cs -> 0 <= c) -> length ls = length cs ->
  (forall r, (r < length ls)%nat -> nth r ls [] = map (fun i => f (o + zsum (firstn r cs) + i)) (zr (nth r cs 0))) -> concat ls = map (fun i => f (o + i)) (zr (zsum cs)).
Proof.
  intros ls f. induction ls as [|l ls IH]; intros [|c cs] o Hc HL H; try discriminate; [reflexivity|]. cbn [concat].
  assert (H0 := H 0%nat ltac:(cbn; lia)). cbn [nth firstn] in H0. change (zsum []) with 0 in H0. rewrite Z.add_0_r in H0. rewrite H0.
  assert (CS : 0 <= zsum cs) by (apply zsum_nonneg; apply Forall_forall; intros; apply Hc; right; auto).
  rewrite (IH cs (o + c)); [|intros; apply Hc; right; auto|cbn in HL; lia|].
  - change (zsum (c :: cs)) with (c + zsum cs). rewrite zr_app by (auto; apply Hc; left; auto). rewrite map_app. f_equal. rewrite map_map. apply map_ext. intros i. f_equal. lia.
  - intros r Hr. specialize (H (S r) ltac:(cbn; lia)). cbn [nth] in H. rewrite H. apply map_ext. intros i. f_equal. change (firstn (S r) (c :: cs)) with (c :: firstn r cs). change (zsum (c :: firstn r cs)) with (c + zsum (firstn r cs)). lia.
Qed.
Lemma lane_glob idx : in_bounds (d_gshape x) idx -> lens (map (fun t => lane_of s t idx) (d_locals x)) = counts_of (Z.to_nat n) P /\ concat (map (fun t => lane_of s t idx) (d_locals x)) = lane G s n idx.
Proof.
  intros Hi. pose proof HR as (HLc & Hn & Hs & Hc & Hsum & HRr). set (ls := map (fun t => lane_of s t idx) (d_locals x)).
  assert (LL : length ls = P) by (unfold ls; now rewrite map_length).
  assert (NR : forall r, (r < P)%nat -> nth r ls [] = map (fun i => G (upd idx s (off r + i))) (zr (cnt r))).
  { intros r Hr. destruct (nth_error (d_locals x) r) as [t|] eqn:Et; [|apply nth_error_None in Et; unfold P in Hr; lia]. unfold ls. erewrite nth_error_nth; [|rewrite nth_error_map, Et; reflexivity]. apply lane_r; auto. }
  split.
  - apply (@nth_ext2 _ _ _ 0%nat); [unfold lens; rewrite map_length, LL, counts_of_length; auto|]. intros r Hr. rewrite lens_length, LL in Hr. rewrite lens_nth, NR by auto. unfold zr. rewrite !map_length, seq_length. rewrite HC. unfold zcounts. change 0 with (Z.of_nat 0). rewrite map_nth. apply Nat2Z.id.
  - rewrite (lane_cat ls (fun i => G (upd idx s i)) cnts 0); [|intros c Hc'; rewrite Forall_forall in Hc; auto|unfold P in LL; lia|].
    + unfold lane. fold n in Hsum. rewrite Hsum. apply map_ext. intros i. reflexivity.
    + intros r Hr. rewrite LL in Hr. rewrite NR by auto. reflexivity.
Qed.

Definition SD (idx : list Z) : V * Z := match lanes idx with Ok out => let v := nth (Z.to_nat (nth s idx 0)) (concat out) (dv, 0) in (fst v, wrap32 (snd v)) | Err _ => (dv, 0) end.
Lemma lanes_ok idx : in_bounds (d_gshape x) idx -> exists out, lanes idx = Ok out /\ lens out = counts_of (Z.to_nat n) P /\ in_order lt desc (map fst (concat out)) /\
  Permutation (concat out) (map (fun g => (nth g (lane G s n idx) dv, Z.of_nat g)) (seq 0 (Z.to_nat n))).
Proof.
  intros Hi. destruct (lane_glob idx Hi) as [E1 E2]. unfold lanes.
  destruct (sort_lane_ok dv lt ts cast desc (Z.to_nat n) P (map (fun t => lane_of s t idx) (d_locals x)) HW HS ltac:(lia) HP E1 ltac:(intros; apply HK; lia)) as (out & A & B & C & D).
  exists out. rewrite E2 in D. rewrite (Z2Nat.id n) in A by lia. auto.
Qed.
Lemma lanes_upd idx v : lanes (upd idx s v) = lanes idx.
Proof. unfold lanes. f_equal. apply map_ext. intros t. apply lane_of_upd. Qed.
Lemma lanes_upd' idx v : (s < length idx)%nat -> lanes idx = lanes (upd idx s v).
Proof. intros; now rewrite lanes_upd. Qed.
Lemma SD_lane idx out : in_bounds (d_gshape x) idx -> lanes idx = Ok out -> length (concat out) = Z.to_nat n -> lane SD s n idx = map (fun v => (fst v, wrap32 (snd v))) (concat out).
Proof.
  intros Hi E L. pose proof HR as (_ & _ & Hs & _). assert (LI := in_bounds_length _ _ Hi). unfold lane. rewrite map_zr. rewrite <- (map_nth_seq (concat out) (dv, 0)) at 1. rewrite map_map, L. apply map_ext. intros k. unfold SD. rewrite lanes_upd, E. rewrite upd_same by lia. now rewrite Nat2Z.id.
Qed.
Lemma SD_sorted : sorted_along lt desc s (d_gshape x) G SD.
Proof.
  intros idx Hi n'. subst n'. fold n. pose proof HR as (_ & _ & Hs & _). destruct (lanes_ok idx Hi) as (out & E & EL & HO & HPm).
  assert (L : length (concat out) = Z.to_nat n) by (rewrite (Permutation_length HPm), map_length, seq_length; auto).
  rewrite (SD_lane idx out Hi E L). rewrite !map_map. cbn [fst snd]. split; [exact HO|].
  assert (IN : forall v, In v (concat out) -> exists g, (g < Z.to_nat n)%nat /\ v = (nth g (lane G s n idx) dv, Z.of_nat g)).
  { intros v Hv. apply (Permutation_in v HPm) in Hv. apply in_map_iff in Hv as (g & <- & Hg). apply in_seq in Hg. exists g. split; [lia|auto]. }
  split.
  - rewrite (map_ext_in _ snd) by (intros v Hv; destruct (IN v Hv) as (g & Hg & ->); cbn [snd]; apply wrap32_id; lia).
    rewrite (Permutation_map snd HPm). rewrite map_map. cbn [snd]. unfold zr. apply Permutation_refl.
  - unfold SD. rewrite E. assert (BN := proj2 (proj1 (in_bounds_nth _ _) Hi) s Hs). fold n in BN.
    destruct (IN (nth (Z.to_nat (nth s idx 0)) (concat out) (dv, 0)) ltac:(apply nth_In; lia)) as (g & Hg & EV). rewrite EV. cbn [fst snd]. rewrite wrap32_id by lia. now apply lane_nth.
Qed.
Lemma sort_split_ok : exists ls, sort_split dv lt ts cast s desc x = Ok ls /\ represents SD (d_gshape x) (Some s) cnts (map i32 ls).
Proof.
  pose proof HR as (HLc & Hn & Hs & Hc & Hsum & HRr). unfold sort_split. fold n.
  set (g := fun idx => match lanes idx with Ok o => o | Err _ => [] end).
  assert (E : all_ok (map (fun idx => sort_lane dv lt ts cast desc n (map (fun t => lane_of s t idx) (d_locals x))) (row_major (upd (d_gshape x) s 1))) = Ok (map g (row_major (upd (d_gshape x) s 1)))).
  { apply OpsProofs2.all_ok_map. intros idx Hi. apply in_row_major in Hi. fold (lanes idx). assert (LI := in_bounds_length _ _ Hi). rewrite upd_length in LI.
    destruct (lanes_ok (upd idx s 0)) as (out & EO & _); [apply in_bounds_nth; apply in_bounds_upd_shape in Hi as (_ & _ & Hi); auto; rewrite upd_length; split; [auto|]; intros k Hk; destruct (Nat.eq_dec k s) as [->|Nk]; [rewrite upd_same by lia; fold n; lia|rewrite upd_other by auto; auto]|].
    rewrite lanes_upd in EO. unfold g. now rewrite EO. }
  rewrite E. cbn [bind]. eexists. split; [reflexivity|]. split; [rewrite !map_length, ranked_length; auto|]. split; [auto|]. split; [auto|]. split; [auto|]. split; [auto|].
  intros r u Hu. rewrite map_map in Hu. rewrite nth_error_map in Hu. destruct (nth_error (ranked (d_locals x)) r) as [[r' t]|] eqn:Ep; [|discriminate]. injection Hu as <-. apply ranked_nth in Ep as (P1 & P2 & P3). cbn [fst snd] in *. subst r'.
  destruct (HRr r t P2) as [ET DT]. split; [exact ET|]. intros idx Hi. unfold i32. cbn [adat fst snd]. assert (LI := in_bounds_length _ _ Hi). rewrite upd_length in LI.
  assert (Hi' := Hi). apply in_bounds_upd_shape in Hi' as (_ & B1 & B2); [|auto]. fold (lanes idx). unfold SD, move_axis_idx. rewrite lanes_upd. rewrite upd_same by lia.
  assert (HRn : (r < length cnts)%nat) by (rewrite <- HLc; apply nth_error_Some; congruence).
  assert (OB : 0 <= off r /\ off r + cnt r <= n). { split; [apply zsum_nonneg, Forall_firstn', Hc|]. rewrite <- zsum_firstn_S by auto. unfold n. rewrite <- Hsum. apply zsum_firstn_le; auto. }
  assert (Hg : in_bounds (d_gshape x) (upd idx s 0)). { apply in_bounds_nth. rewrite upd_length. split; [auto|]. intros k Hk; destruct (Nat.eq_dec k s) as [->|Nk]; [rewrite upd_same by lia; fold n; lia|rewrite upd_other by auto; auto]. }
  destruct (lanes_ok _ Hg) as (out & EO & EL & _). rewrite lanes_upd in EO. rewrite EO.
  assert (EQ : nth (Z.to_nat (nth s idx 0)) (nth r out []) (dv, 0) = nth (Z.to_nat (nth s idx 0 + off r)) (concat out) (dv, 0)).
  { assert (PS : Z.of_nat (psum (lens out) r) = off r).
    { rewrite EL, HC. unfold zcounts. apply psum_zsum. }
    rewrite <- (glob_nth out r (dv, 0) (k := Z.to_nat (nth s idx 0))).
    - unfold glob. f_equal. lia.
    - rewrite <- lens_nth, EL. assert (EC : cnt r = Z.of_nat (nth r (counts_of (Z.to_nat n) P) 0%nat)) by (rewrite HC; exact (map_nth Z.of_nat (counts_of (Z.to_nat n) P) 0%nat r)). lia. }
  now rewrite EQ.
Qed.
End Dist.
End SortThm.

(** ht.sort(x, axis, descending) for a non-negative axis.  [lt] compares elements (a strict
    weak order: no NaN), [ts] is torch.sort's choice of indices, [cast] stores an index in
    the element type of x; the indices are returned as int32.  Sorting along the split axis
    needs the canonical layout and a non-empty axis; along other axes any layout will do. *)
Theorem C37_sort : forall (V : Type) (dv : V) (lt : V -> V -> bool) (ts : bool -> list V -> list nat) (cast : Z -> Z)
    (x : dnd V) (G : list Z -> V) (cnts : list Z) (axis : nat) (desc : bool),
  let n := nth axis (d_gshape x) 0 in
  weak_order lt -> sorts dv lt ts ->
  rep x cnts G -> (0 < length cnts)%nat -> (axis < length (d_gshape x))%nat -> n <= 2 ^ 31 ->
  (d_split x = Some axis -> (1 < length cnts)%nat ->
     cnts = zcounts n (length cnts) /\ 0 < n /\ forall i, 0 <= i < n -> cast i = i) ->
  exists y H, sort_nd dv lt ts cast x (Z.of_nat axis) desc = Ok y /\
    d_gshape y = d_gshape x /\ d_split y = d_split x /\ rep y cnts H /\
    sorted_along lt desc axis (d_gshape x) G H.
Proof.
  intros V dv lt ts cast x G cnts axis desc n HW HS HR HP HA HB HD. unfold sort_nd.
  assert (VA : valid_axis (length (d_gshape x)) (Z.of_nat axis)) by (unfold valid_axis; lia).
  destruct (sanitize_int _ _ VA) as (az & -> & _). cbn [bind]. assert (EN : norm (length (d_gshape x)) (Z.of_nat axis) = axis) by (unfold norm; replace (Z.of_nat axis <? 0) with false by lia; apply Nat2Z.id). rewrite EN.
  destruct (d_split x) as [s|] eqn:Es.
  - assert (HRr := HR). unfold rep in HRr. rewrite Es in HRr. pose proof HRr as (LC & NN & Hsx & CN & SM & Q).
    destruct ((1 <? length (d_locals x))%nat && (Z.of_nat axis =? Z.of_nat s)) eqn:EC.
    + assert (axis = s) by lia. subst s. destruct HD as (D1 & D2 & D3); [auto|lia|]. rewrite <- LC in D1.
      destruct (sort_split_ok dv lt ts cast desc HW HS x G cnts axis HRr ltac:(lia) D1 D2 D3) as (ls & -> & RR). cbn [bind].
      destruct (C55_array_is_split _ _ _ _ _ _ RR ltac:(rewrite (proj1 RR); lia)) as (y & bal & -> & Y1 & Y2 & Y3 & Y4 & _). cbn [bind fst].
      exists y, (SD dv lt ts cast desc x axis). split; [auto|]. split; [auto|]. split; [auto|]. split; [auto|]. apply (SD_sorted dv lt ts cast desc HW HS x G cnts axis); auto. lia.
    + cbn [bind]. set (us := map i32 (map (torch_sort dv ts axis desc) (d_locals x))).
      assert (RR : represents (TS dv ts desc G axis n) (d_gshape x) (Some s) cnts us).
      { split; [unfold us; rewrite !map_length; auto|]. split; [auto|]. split; [auto|]. split; [auto|]. split; [auto|]. intros r u Hu. unfold us in Hu. rewrite map_map, nth_error_map in Hu.
        destruct (nth_error (d_locals x) r) as [t|] eqn:Et; [|discriminate]. injection Hu as <-. assert (AG := Q r t Et). assert (Hr : (r < length (d_locals x))%nat) by (apply nth_error_Some; congruence).
        destruct (torch_sort_ok dv ts desc axis t _ _ AG ltac:(now rewrite upd_length)) as [S1 D1]. split; [exact S1|]. intros idx Hi. rewrite (D1 idx Hi). assert (LI := in_bounds_length _ _ Hi). rewrite upd_length in LI.
        destruct (Nat.eq_dec axis s) as [->|N].
        - assert (L1 : length (d_locals x) = 1%nat) by lia. assert (r = 0%nat) by lia. subst r. destruct cnts as [|c [|]]; cbn in LC; try lia. cbn [nth firstn]. change (zsum []) with 0. rewrite upd_same by auto. change (zsum [c]) with (c + 0) in SM. fold n in SM. rewrite Z.add_0_r in SM. subst c.
          assert (M0 : forall j, (s < length j)%nat -> move_axis_idx s 0 j = j) by (intros j Hj; unfold move_axis_idx; rewrite Z.add_0_r; now apply upd_same_list).
          rewrite (M0 idx) by lia. unfold TS. replace (lane (fun i => G (move_axis_idx s 0 i)) s n idx) with (lane G s n idx); [auto|]. unfold lane. apply map_ext. intros i. rewrite M0; [auto|rewrite upd_length; lia].
        - rewrite upd_other by auto. fold n. unfold TS. replace (lane (fun i => G (move_axis_idx s (zsum (firstn r cnts)) i)) axis n idx) with (lane G axis n (move_axis_idx s (zsum (firstn r cnts)) idx)).
          + replace (nth axis (move_axis_idx s (zsum (firstn r cnts)) idx) 0) with (nth axis idx 0); [auto|]. unfold move_axis_idx. now rewrite upd_other by auto.
          + unfold lane. apply map_ext. intros i. f_equal. unfold move_axis_idx. rewrite upd_other by auto. apply (@nth_ext2 _ _ _ 0); [now rewrite !upd_length|]. intros k Hk. rewrite !upd_length in Hk.
            destruct (Nat.eq_dec k s) as [->|]; [rewrite upd_other by auto; now rewrite !upd_same by (rewrite ?upd_length; lia)|]. destruct (Nat.eq_dec k axis) as [->|]; [rewrite upd_same by (rewrite upd_length; lia); rewrite upd_other by auto; now rewrite upd_same by lia|now rewrite !upd_other by auto]. }
      destruct (C55_array_is_split _ _ _ _ _ _ RR ltac:(rewrite (proj1 RR); lia)) as (y & bal & -> & Y1 & Y2 & Y3 & Y4 & _). cbn [bind fst].
      exists y, (TS dv ts desc G axis n). split; [auto|]. split; [auto|]. split; [auto|]. split; [auto|]. apply TS_sorted; auto.
  - cbn [bind]. assert (HRr := HR). unfold rep in HRr. rewrite Es in HRr. destruct HRr as (LC & NN & Q). eexists _, (TS dv ts desc G axis n). split; [reflexivity|]. cbn [d_gshape d_split]. split; [auto|]. split; [auto|]. split; [|apply TS_sorted; auto].
    unfold rep. cbn [d_gshape d_split d_locals]. split; [rewrite !map_length; auto|]. split; [auto|]. intros u Hu. rewrite map_map in Hu. apply in_map_iff in Hu as (t & <- & Ht). apply torch_sort_ok; auto.
Qed.

