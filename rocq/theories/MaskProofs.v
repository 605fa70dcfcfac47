(** Lemmas for C91. *)
From Coq Require Import Permutation Sorted.
From Verif Require Import Base BaseLemmas LayoutModel LayoutProofs NdSpec TensorSpec TensorLemmas NdLemmas OpsModel OpsProofs2 OpsProofs4 RedistModel RedistProofs ShapeSpec ShapeModel ShapeProofs ShapeProofs2 ShapeProofs3 ShapeProofs4 BinModel BinProofs BinProofs2 ShapeProps ReshapeModel ReshapeProofs FactoryModel FactoryProps ConcatProps DiagSpec DiagModel DiagProps NonzeroProps TraceModel TraceProofs MaskSpec MaskModel.
Open Scope Z_scope.

Lemma mask_rows_ok (m : dnd bool) cm M : rep m cm M -> length (mask_rows m) = length (d_locals m) /\
  forall r, (r < length (d_locals m))%nat -> nth r (mask_rows m) [] = selected (d_gshape m) M.
Proof.
  intros HR. unfold mask_rows. set (z := match d_split m with Some _ => _ | None => _ end).
  assert (Z0 : d_gshape z = d_gshape m /\ d_split z = None /\ length (d_locals z) = length (d_locals m) /\ rep z cm M).
  { unfold z. destruct (d_split m) as [s|] eqn:E.
    - destruct (resplit_none_represents M m cm false HR) as (E1 & E2 & E3). split; [auto|]. split; [auto|]. split; [|unfold rep; rewrite E1, E2; exact E3].
      destruct HR as [L _]. destruct E3 as [L3 _]. congruence.
    - auto. }
  destruct Z0 as (Eg & Es & EL & Rz). split; [unfold nonzero_rows; now rewrite map_length, ranked_length|].
  intros r Hr. assert (IR : is_rep (length (d_locals z)) z M).
  { split; [auto|]. unfold rep in *. rewrite Es in *. destruct Rz as (A1 & A2 & A3). split; [cbn [balanced_counts]; now rewrite repeat_length|]. split; [auto|exact A3]. }
  rewrite (C40_nonzero_replicated bool (fun b => b) z _ M IR Es (nth r (nonzero_rows (fun b => b) z) [])); [unfold nonzero_spec, selected; now rewrite Eg|].
  apply nth_In. unfold nonzero_rows. rewrite map_length, ranked_length. lia.
Qed.

Lemma sel_in gsh M k : In k (selected gsh M) <-> in_bounds gsh k /\ M k = true.
Proof. unfold selected. now rewrite filter_In, in_row_major. Qed.
Lemma sel_NoDup gsh M : NoDup (selected gsh M).
Proof. apply NoDup_filter, NoDup_row_major. Qed.
Lemma coords_ok_sel gsh M : coords_ok gsh (selected gsh M) = true.
Proof.
  unfold coords_ok. apply forallb_forall. intros k Hk. apply sel_in in Hk as [Hk _]. unfold in_bounds in Hk. induction Hk as [|n i gs ks Hi _ IH]; [reflexivity|]. cbn [combine forallb fst snd]. rewrite IH, (proj2 (Z.ltb_lt _ _)) by lia. reflexivity.
Qed.

(** the coordinates each rank owns *)
Definition owned (s : nat) (cnts : list Z) (ks : list (list Z)) (r : nat) : list (list Z) :=
  filter (in_range s (zsum (firstn r cnts)) (zsum (firstn r cnts) + nth r cnts 0)) ks.
Definition by_owner (s : nat) (cnts : list Z) (ks : list (list Z)) : list (list Z) := concat (map (owned s cnts ks) (seq 0 (length cnts))).

Lemma in_range_iff s lo hi k : in_range s lo hi k = true <-> lo <= nth s k 0 < hi.
Proof. unfold in_range. rewrite andb_true_iff, Z.leb_le, Z.ltb_lt. reflexivity. Qed.
Lemma by_owner_perm s cnts ks : Forall (fun c => 0 <= c) cnts -> NoDup ks -> (forall k, In k ks -> 0 <= nth s k 0 < zsum cnts) -> Permutation (by_owner s cnts ks) ks.
Proof.
  intros C ND B. unfold by_owner. apply NoDup_Permutation; auto.
  - apply (NoDup_concat_seg _ (fun k => nth s k 0) (fun r => zsum (firstn r cnts))).
    + intros r l Hr. rewrite nth_error_map in Hr. destruct (nth_error (seq 0 (length cnts)) r) as [r'|] eqn:E; [|discriminate]. cbn in Hr. injection Hr as <-.
      assert (Hr : (r < length cnts)%nat) by (rewrite <- (seq_length (length cnts) 0); apply nth_error_Some; congruence). rewrite nth_error_nth' with (d := 0%nat) in E by now rewrite seq_length. rewrite seq_nth in E by auto. injection E as <-.
      split; [apply NoDup_filter; auto|]. intros k Hk. apply filter_In in Hk as [_ Hk]. apply in_range_iff in Hk. cbn [Nat.add] in Hk. rewrite zsum_firstn_S by auto. exact Hk.
    + intros r Hr. apply zsum_firstn_mono; auto.
  - intros k. rewrite in_concat. split.
    + intros (l & Hl & Hk). apply in_map_iff in Hl as (r & <- & _). apply filter_In in Hk. tauto.
    + intros Hk. destruct (owner cnts C _ (B k Hk)) as (r & R1 & R2). exists (owned s cnts ks r). split; [apply in_map, in_seq; lia|]. apply filter_In. split; [auto|]. now apply in_range_iff.
Qed.

(** along axis 0 the selection is already ordered by owner *)
Notation le0 := (fun a b : list Z => nth 0 a 0 <= nth 0 b 0).
Lemma SS_app {A} (R : A -> A -> Prop) l1 l2 : StronglySorted R l1 -> StronglySorted R l2 -> (forall a b, In a l1 -> In b l2 -> R a b) -> StronglySorted R (l1 ++ l2).
Proof.
  induction 1 as [|a l S1 IH F]; intros H2 HX; [exact H2|]. cbn. constructor; [apply IH; auto; intros; apply HX; [now right|auto]|]. apply Forall_app. split; [auto|]. apply Forall_forall. intros b Hb. apply HX; [now left|auto].
Qed.
Lemma SS_filter {A} (R : A -> A -> Prop) f l : StronglySorted R l -> StronglySorted R (filter f l).
Proof.
  induction 1 as [|a l S1 IH F]; [constructor|]. cbn. destruct (f a); [|auto]. constructor; [auto|]. rewrite Forall_forall in *. intros b Hb. apply filter_In in Hb. apply F; tauto.
Qed.
Lemma sel_sorted gsh M : StronglySorted le0 (selected gsh M).
Proof.
  apply SS_filter. destruct gsh as [|n gsh]; cbn [row_major]; [repeat constructor|]. generalize (row_major gsh) as R. intros R. unfold zr. enough (HH : forall c a, StronglySorted le0 (flat_map (fun i => map (cons i) R) (map Z.of_nat (seq a c)))) by apply HH.
  induction c as [|c IH]; intros a; cbn [seq map flat_map]; [constructor|]. apply SS_app; [|apply IH|].
  - clear IH. induction R as [|x R IHR]; cbn; [constructor|]. constructor; [auto|]. apply Forall_forall. intros b Hb. apply in_map_iff in Hb as (? & <- & _). cbn. lia.
  - intros u w Hu Hw. apply in_map_iff in Hu as (? & <- & _). apply in_flat_map in Hw as (i & Hi & Hw). apply in_map_iff in Hw as (? & <- & _). apply in_map_iff in Hi as (j & <- & Hj). apply in_seq in Hj. cbn. lia.
Qed.
Lemma filter_split l a b : StronglySorted le0 l -> a <= b ->
  filter (fun k => nth 0 k 0 <? b) l = filter (fun k => nth 0 k 0 <? a) l ++ filter (in_range 0 a b) l.
Proof.
  intros SS Hab. induction SS as [|x l S1 IH F]; [reflexivity|]. cbn [filter]. unfold in_range at 1. destruct (Z.ltb_spec (nth 0 x 0) a) as [L|L].
  - rewrite (proj2 (Z.ltb_lt _ b)) by lia. rewrite (proj2 (Z.leb_gt a _)) by lia. cbn [andb]. cbn [app]. now rewrite IH.
  - assert (E0 : filter (fun k => nth 0 k 0 <? a) l = []).
    { rewrite Forall_forall in F. clear IH S1. induction l as [|y l IHl]; [reflexivity|]. cbn [filter]. rewrite (proj2 (Z.ltb_ge _ a)) by (specialize (F y (or_introl eq_refl)); cbn beta in F; lia). apply IHl. intros z Hz. apply F. now right. }
    rewrite E0 in *. cbn [app] in *. rewrite (proj2 (Z.leb_le a _)) by lia. cbn [andb]. rewrite IH. reflexivity.
Qed.
Lemma by_owner_0 cnts ks : Forall (fun c => 0 <= c) cnts -> StronglySorted le0 ks -> (forall k, In k ks -> 0 <= nth 0 k 0 < zsum cnts) -> by_owner 0 cnts ks = ks.
Proof.
  intros C SS B. assert (GEN : forall n, (n <= length cnts)%nat -> concat (map (owned 0 cnts ks) (seq 0 n)) = filter (fun k => nth 0 k 0 <? zsum (firstn n cnts)) ks).
  { induction n as [|n IH]; intros Hn.
    - cbn [seq map concat firstn]. change (zsum []) with 0. clear SS. induction ks as [|k ks IHk]; [reflexivity|]. cbn [filter]. rewrite (proj2 (Z.ltb_ge _ 0)) by (specialize (B k (or_introl eq_refl)); lia). apply IHk. intros z Hz. apply B. now right.
    - rewrite seq_S, map_app, concat_app, IH by lia. cbn [map concat Nat.add]. rewrite app_nil_r, zsum_firstn_S by lia. symmetry. apply filter_split; auto. rewrite Forall_forall in C. specialize (C (nth n cnts 0) ltac:(apply nth_In; lia)). lia. }
  unfold by_owner. rewrite GEN by lia. rewrite firstn_all. clear SS GEN. induction ks as [|k ks IHk]; [reflexivity|]. cbn [filter]. rewrite (proj2 (Z.ltb_lt _ (zsum cnts))) by (specialize (B k (or_introl eq_refl)); lia). f_equal. apply IHk. intros z Hz. apply B. now right.
Qed.

Lemma nth_concat' {A} (ls : list (list A)) d : forall r i, (r < length ls)%nat -> (i < length (nth r ls []))%nat ->
  nth (Z.to_nat (zsum (firstn r (map (fun l => Z.of_nat (length l)) ls))) + i) (concat ls) d = nth i (nth r ls []) d.
Proof.
  induction ls as [|l ls IH]; intros r i Hr Hi; [cbn in Hr; lia|]. destruct r as [|r].
  - cbn [firstn nth concat] in *. change (Z.to_nat (zsum []) + i)%nat with i. now rewrite app_nth1.
  - cbn [nth concat map firstn] in *. change (zsum (?a :: ?b)) with (a + zsum b). 
    assert (0 <= zsum (firstn r (map (fun l => Z.of_nat (length l)) ls))).
    { clear. revert ls. induction r as [|r IH]; intros [|l ls]; cbn [firstn map]; try (change (zsum []) with 0; lia). change (zsum (?a :: ?b)) with (a + zsum b). specialize (IH ls). lia. }
    rewrite app_nth2 by lia. rewrite <- (IH r i) by (auto; cbn in Hr; lia). f_equal. lia.
Qed.
Lemma zsum_lengths {A} (ls : list (list A)) : zsum (map (fun l => Z.of_nat (length l)) ls) = Z.of_nat (length (concat ls)).
Proof. induction ls as [|l ls IH]; [reflexivity|]. cbn [map concat]. change (zsum (?a :: ?b)) with (a + zsum b). rewrite IH, app_length. lia. Qed.

(** vectors assembled from per-rank coordinate lists *)
Lemma vec_represents {A} (G : list Z -> A) (ls : list (arr A)) (L : list (list (list Z))) : length ls = length L ->
  (forall r t, nth_error ls r = Some t -> agrees t [Z.of_nat (length (nth r L []))] (at_coords G (nth r L []))) ->
  represents (at_coords G (concat L)) [Z.of_nat (length (concat L))] (Some 0%nat) (map (fun l => Z.of_nat (length l)) L) ls.
Proof.
  intros HL H. split; [now rewrite map_length|]. split; [constructor; [lia|constructor]|]. split; [cbn; lia|]. split; [apply Forall_forall; intros c Hc; apply in_map_iff in Hc as (? & <- & _); lia|]. split; [cbn [nth]; apply zsum_lengths|].
  intros r t Ht. destruct (H r t Ht) as [E D]. assert (Hr : (r < length L)%nat) by (rewrite <- HL; apply nth_error_Some; congruence).
  assert (EN : nth r (map (fun l => Z.of_nat (length l)) L) 0 = Z.of_nat (length (nth r L []))) by (rewrite (nth_indep _ 0 (Z.of_nat (length (@nil (list Z))))) by (rewrite map_length; auto); apply (map_nth (fun l : list (list Z) => Z.of_nat (length l)))).
  split; [cbn [upd]; rewrite EN; auto|]. intros idx Hi. cbn [upd] in Hi. rewrite EN in Hi. rewrite D by auto. unfold at_coords, move_axis_idx. destruct idx as [|i [|]]; [inversion Hi| |inversion Hi as [|? ? ? ? ? H0]; inversion H0]. assert (Hi' : 0 <= i < Z.of_nat (length (nth r L []))) by (inversion Hi; auto). cbn [nth upd].
  f_equal. rewrite <- (nth_concat' L [] r (Z.to_nat i)) by (auto; lia). f_equal. rewrite Z.add_comm, Z2Nat.inj_add; [reflexivity| |lia].
  clear. revert L. induction r as [|r IH]; intros [|l L]; cbn [firstn map]; try (change (zsum []) with 0; lia). change (zsum (?a :: ?b)) with (a + zsum b). specialize (IH L). lia.
Qed.
Lemma nth_map_seq {B} (f : nat -> B) n r d : (r < n)%nat -> nth r (map f (seq 0 n)) d = f r.
Proof. intros H. rewrite (nth_indep _ d (f 0%nat)) by now rewrite map_length, seq_length. rewrite (map_nth f). now rewrite seq_nth. Qed.
