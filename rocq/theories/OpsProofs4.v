(** Proofs about reductions: combining ranks. *)
From Verif Require Import Base BaseLemmas LayoutModel LayoutProofs NdSpec TensorSpec TensorLemmas NdLemmas OpsModel OpsProofs2 OpsProofs3.
From Coq Require Import Permutation.
Open Scope Z_scope.

Lemma zsum_app a b : zsum (a ++ b) = zsum a + zsum b.
Proof. induction a; simpl; lia. Qed.
Lemma zsum_firstn_S l r : (r < length l)%nat -> zsum (firstn (S r) l) = zsum (firstn r l) + nth r l 0.
Proof.
  revert r; induction l as [|x l IH]; intros r Hr; simpl in Hr; [lia|].
  destruct r; [simpl; lia|].
  change (x + zsum (firstn (S r) l) = x + zsum (firstn r l) + nth r l 0). rewrite IH by lia. lia.
Qed.
Lemma zsum_nonneg l : Forall (fun c => 0 <= c) l -> 0 <= zsum l.
Proof. induction 1; simpl; lia. Qed.
Lemma Forall_firstn' {B} (P : B -> Prop) n l : Forall P l -> Forall P (firstn n l).
Proof. intros H. revert n; induction H; intros [|n]; simpl; auto. Qed.
Lemma Forall_skipn' {B} (P : B -> Prop) n l : Forall P l -> Forall P (skipn n l).
Proof. intros H. revert n; induction H; intros [|n]; simpl; auto. Qed.
Lemma zsum_firstn_mono l a b : Forall (fun c => 0 <= c) l -> (a <= b)%nat -> zsum (firstn a l) <= zsum (firstn b l).
Proof.
  intros H. revert a b; induction H as [|x l Hx H IH]; intros a b Hab; [rewrite !firstn_nil; lia|].
  destruct a, b; cbn [firstn zsum fold_right]; try lia.
  - pose proof (zsum_nonneg (firstn b l) (Forall_firstn' _ _ _ H)). unfold zsum in *. lia.
  - specialize (IH a b ltac:(lia)). unfold zsum in *. lia.
Qed.
Lemma zsum_firstn_le l r : Forall (fun c => 0 <= c) l -> zsum (firstn r l) <= zsum l.
Proof.
  intros H. rewrite <- (firstn_skipn r l) at 2. rewrite zsum_app.
  pose proof (zsum_nonneg _ (Forall_skipn' _ r _ H)). lia.
Qed.
Lemma zsum_find l x : Forall (fun c => 0 <= c) l -> 0 <= x < zsum l ->
  exists r, (r < length l)%nat /\ zsum (firstn r l) <= x < zsum (firstn r l) + nth r l 0.
Proof.
  intros H. revert x; induction H as [|c l Hc H IH]; intros x Hx; [simpl in Hx; lia|].
  destruct (Z.ltb_spec x c).
  - exists 0%nat. simpl. lia.
  - destruct (IH (x - c)) as (r & Hr & E); [simpl in Hx; fold (zsum l) in Hx; lia|].
    exists (S r). split; [simpl; lia|]. cbn [firstn zsum fold_right nth]. unfold zsum in E. lia.
Qed.
Lemma Forall_nth0 (l : list Z) k : Forall (fun c => 0 <= c) l -> 0 <= nth k l 0.
Proof. intros H. revert k; induction H; intros [|k]; simpl; auto; lia. Qed.

Lemma in_bounds_upd_shape gsh s c i : (s < length gsh)%nat ->
  in_bounds (upd gsh s c) i <-> length i = length gsh /\ 0 <= nth s i 0 < c /\
    forall k, (k < length gsh)%nat -> k <> s -> 0 <= nth k i 0 < nth k gsh 0.
Proof.
  intros Hs. rewrite in_bounds_nth, upd_length. split.
  - intros [L H]. split; auto. split.
    + specialize (H s Hs). rewrite upd_same in H by auto. auto.
    + intros k Hk Hn. specialize (H k Hk). rewrite upd_other in H by auto. auto.
  - intros (L & H0 & H). split; auto. intros k Hk. destruct (Nat.eq_dec k s) as [->|Hn].
    + rewrite upd_same by auto. auto.
    + rewrite upd_other by auto. auto.
Qed.
Lemma upd_upd {B} (l : list B) k v w : upd (upd l k v) k w = upd l k w.
Proof. revert k; induction l as [|x l IH]; intros [|k]; simpl; auto. now rewrite IH. Qed.
Lemma upd_self (l : list Z) k : upd l k (nth k l 0) = l.
Proof. revert k; induction l as [|x l IH]; intros [|k]; simpl; auto. now rewrite IH. Qed.

Section Ranks.
Variables (A : Type) (ok : A -> Prop) (op : A -> A -> A) (e : A).
Hypothesis M : comm_monoid ok op e.
Variable pr : list Z -> list Z.

Definition reduce_pr (G : list Z -> A) (sh idx' : list Z) : A :=
  big op e (map G (filter (fun i => eqb_idx (pr i) idx') (row_major sh))).

(** the split axis survives *)
Lemma reduce_pr_shift G gsh s s' c off idx' :
  (s < length gsh)%nat -> 0 <= off -> off + c <= nth s gsh 0 ->
  (forall i, in_bounds gsh i -> ok (G i)) ->
  (forall i v, length i = length gsh -> pr (upd i s v) = upd (pr i) s' v) ->
  (forall i, length i = length gsh -> nth s' (pr i) 0 = nth s i 0) ->
  (s' < length idx')%nat -> 0 <= nth s' idx' 0 < c ->
  reduce_pr (fun i => G (move_axis_idx s off i)) (upd gsh s c) idx' = reduce_pr G gsh (move_axis_idx s' off idx').
Proof.
  intros Hs Ho Hc Hok P1 P2 Ls Hi. unfold reduce_pr. rewrite <- (map_map (move_axis_idx s off) G).
  apply (big_perm A ok op e M).
  2:{ rewrite Forall_map, Forall_map. apply Forall_forall. intros i Hin. apply filter_In in Hin as [Hin _].
      apply Hok. apply in_row_major, in_bounds_upd_shape in Hin as (L & H0 & H); auto. apply in_bounds_nth. unfold move_axis_idx.
      rewrite upd_length. split; auto. intros k Hk. destruct (Nat.eq_dec k s) as [->|Hn].
      - rewrite upd_same by lia. lia.
      - rewrite upd_other by auto. auto. }
  apply Permutation_map. apply NoDup_Permutation.
  - apply NoDup_map_inj_on; [|apply NoDup_filter, NoDup_row_major].
    intros x y Hx Hy E. apply filter_In in Hx as [Hx _], Hy as [Hy _].
    apply in_row_major, in_bounds_upd_shape in Hx as (Lx & _ & _), Hy as (Ly & _ & _); auto.
    unfold move_axis_idx in E. assert (E2 := f_equal (fun l => nth s l 0) E). cbn beta in E2.
    rewrite !upd_same in E2 by lia.
    apply (f_equal (fun l => upd l s (nth s x 0))) in E. rewrite !upd_upd, upd_self in E.
    replace (nth s x 0) with (nth s y 0) in E by lia. now rewrite upd_self in E.
  - apply NoDup_filter, NoDup_row_major.
  - intros j. rewrite in_map_iff. rewrite filter_In, in_row_major, eqb_idx_eq. split.
    + intros (i & <- & Hin). apply filter_In in Hin as [Hin Q]. apply eqb_idx_eq in Q.
      apply in_row_major, in_bounds_upd_shape in Hin as (L & H0 & H); auto. split.
      * apply in_bounds_nth. unfold move_axis_idx. rewrite upd_length. split; auto.
        intros k Hk. destruct (Nat.eq_dec k s) as [->|Hn].
        -- rewrite upd_same by lia. lia.
        -- rewrite upd_other by auto. auto.
      * unfold move_axis_idx at 1. rewrite P1 by auto. unfold move_axis_idx.
        rewrite <- (P2 i L), Q. reflexivity.
    + intros [Hb Q]. pose proof (in_bounds_length _ _ Hb) as L.
      assert (Ej : nth s j 0 = nth s' idx' 0 + off).
      { rewrite <- (P2 j) by auto. rewrite Q. unfold move_axis_idx. now rewrite upd_same by auto. }
      exists (move_axis_idx s (- off) j). split.
      { unfold move_axis_idx. rewrite upd_same by lia. rewrite upd_upd.
        replace (nth s j 0 + - off + off) with (nth s j 0) by lia. apply upd_self. }
      apply filter_In. split.
      * apply in_row_major, in_bounds_upd_shape; auto. unfold move_axis_idx. rewrite upd_length. split; auto.
        rewrite upd_same by lia. split; [lia|]. intros k Hk Hn. rewrite upd_other by auto. now apply in_bounds_nth.
      * apply eqb_idx_eq. unfold move_axis_idx. rewrite P1 by auto. rewrite Q. unfold move_axis_idx.
        rewrite upd_upd. rewrite Ej. replace (nth s' idx' 0 + off + - off) with (nth s' idx' 0) by lia. apply upd_self.
Qed.

(** the split axis is reduced *)
Lemma reduce_pr_ranks G gsh s cnts idx' :
  (s < length gsh)%nat -> Forall (fun c => 0 <= c) cnts -> zsum cnts = nth s gsh 0 ->
  (forall i, in_bounds gsh i -> ok (G i)) ->
  (forall i v, length i = length gsh -> pr (upd i s v) = pr i) ->
  big op e (map (fun r => reduce_pr (fun i => G (move_axis_idx s (zsum (firstn r cnts)) i)) (upd gsh s (nth r cnts 0)) idx')
                (seq 0 (length cnts)))
  = reduce_pr G gsh idx'.
Proof.
  intros Hs Hc Hsum Hok P1. unfold reduce_pr.
  set (f := fun i => eqb_idx (pr i) idx').
  set (L := fun r => map (move_axis_idx s (zsum (firstn r cnts))) (filter f (row_major (upd gsh s (nth r cnts 0))))).
  assert (Hmem : forall r j, (r < length cnts)%nat -> In j (L r) <->
     in_bounds gsh j /\ f j = true /\ zsum (firstn r cnts) <= nth s j 0 < zsum (firstn r cnts) + nth r cnts 0).
  { intros r j Hr. unfold L. rewrite in_map_iff. 
    assert (B : zsum (firstn r cnts) + nth r cnts 0 <= nth s gsh 0).
    { rewrite <- zsum_firstn_S, <- Hsum by auto. now apply zsum_firstn_le. }
    assert (B0 : 0 <= zsum (firstn r cnts)) by (apply zsum_nonneg, Forall_firstn'; auto).
    split.
    - intros (i & <- & Hin). apply filter_In in Hin as [Hin Q].
      apply in_row_major, in_bounds_upd_shape in Hin as (Li & H0 & H); auto. unfold move_axis_idx. split; [|split].
      + apply in_bounds_nth. rewrite upd_length. split; auto.
        intros k Hk. destruct (Nat.eq_dec k s) as [->|Hn].
        * rewrite upd_same by lia. lia.
        * rewrite upd_other by auto. auto.
      + unfold f. rewrite P1 by auto. exact Q.
      + rewrite upd_same by lia. lia.
    - intros (Hb & Q & Hj). pose proof (in_bounds_length _ _ Hb) as Lj.
      exists (move_axis_idx s (- zsum (firstn r cnts)) j). split.
      { unfold move_axis_idx. rewrite upd_same by lia. rewrite upd_upd.
        replace (nth s j 0 + - zsum (firstn r cnts) + zsum (firstn r cnts)) with (nth s j 0) by lia. apply upd_self. }
      apply filter_In. split.
      + apply in_row_major, in_bounds_upd_shape; auto. unfold move_axis_idx. rewrite upd_length. split; auto.
        rewrite upd_same by lia. split; [lia|]. intros k Hk Hn. rewrite upd_other by auto. now apply in_bounds_nth.
      + unfold f, move_axis_idx. rewrite P1 by auto. exact Q. }
  assert (HokL : forall r, In r (seq 0 (length cnts)) -> Forall ok (map G (L r))).
  { intros r Hr. apply in_seq in Hr. rewrite Forall_map. apply Forall_forall. intros j Hj. apply Hok.
    apply Hmem in Hj; [tauto|lia]. }
  rewrite (map_ext_in _ (fun r => big op e (map G (L r)))).
  2:{ intros r Hr. unfold L. now rewrite map_map. }
  rewrite <- (map_map (fun r => map G (L r)) (big op e)).
  rewrite <- (big_concat A ok op e M).
  2:{ rewrite Forall_map. apply Forall_forall. auto. }
  rewrite <- (map_map L (map G)), <- concat_map. rewrite <- flat_map_concat_map.
  assert (PERM : Permutation (flat_map L (seq 0 (length cnts))) (filter f (row_major gsh))).
  { apply NoDup_Permutation.
    - apply NoDup_flat_map; [apply seq_NoDup| |].
      + intros r Hr. unfold L. apply NoDup_map_inj_on; [|apply NoDup_filter, NoDup_row_major].
        intros x y Hx Hy E. apply filter_In in Hx as [Hx _], Hy as [Hy _].
        apply in_row_major, in_bounds_upd_shape in Hx as (Lx & _ & _), Hy as (Ly & _ & _); auto.
        unfold move_axis_idx in E. assert (E2 := f_equal (fun l => nth s l 0) E). cbn beta in E2.
        rewrite !upd_same in E2 by lia.
        apply (f_equal (fun l => upd l s (nth s x 0))) in E. rewrite !upd_upd, upd_self in E.
        replace (nth s x 0) with (nth s y 0) in E by lia. now rewrite upd_self in E.
      + intros r r' j Hr Hr' H1 H2. apply in_seq in Hr, Hr'.
        apply Hmem in H1 as (_ & _ & H1); [|lia]. apply Hmem in H2 as (_ & _ & H2); [|lia].
        destruct (Nat.lt_trichotomy r r') as [Hlt|[->|Hlt]]; auto; exfalso.
        * pose proof (zsum_firstn_mono cnts (S r) r' Hc ltac:(lia)) as Q. rewrite zsum_firstn_S in Q by lia. lia.
        * pose proof (zsum_firstn_mono cnts (S r') r Hc ltac:(lia)) as Q. rewrite zsum_firstn_S in Q by lia. lia.
    - apply NoDup_filter, NoDup_row_major.
    - intros j. rewrite in_flat_map, filter_In, in_row_major. split.
      + intros (r & Hr & Hj). apply in_seq in Hr. apply Hmem in Hj; [tauto|lia].
      + intros [Hb Q]. destruct (zsum_find cnts (nth s j 0) Hc) as (r & Hr & E).
        { rewrite Hsum. now apply in_bounds_nth. }
        exists r. split; [apply in_seq; lia|]. apply Hmem; auto. }
  apply (big_perm A ok op e M); [now apply Permutation_map|].
  rewrite Forall_map. apply Forall_forall. intros j Hj. apply Hok.
  apply (Permutation_in _ PERM), filter_In in Hj as [Hj _]. now apply in_row_major.
Qed.

(** a rank without elements contributes the neutral element, whether it reduces
    nothing or a tensor filled with neutral elements *)
Lemma reduce_pr_neutral sh idx' : reduce_pr (fun _ => e) sh idx' = e.
Proof. apply (big_all_e A ok op e M). rewrite Forall_map. apply Forall_forall. auto. Qed.
Lemma reduce_pr_empty G sh idx' : In 0 sh -> Forall (fun n => 0 <= n) sh -> reduce_pr G sh idx' = e.
Proof.
  intros H F. unfold reduce_pr. replace (row_major sh) with (@nil (list Z)); auto.
  pose proof (row_major_length sh F) as L. assert (zprod sh = 0).
  { clear L F. induction sh as [|x sh IH]; simpl in *; [tauto|]. destruct H as [->|H]; [lia|]. rewrite IH by auto. lia. }
  destruct (row_major sh); auto. simpl in L. lia.
Qed.
End Ranks.

Lemma drop_from_upd {B} i axes (l : list B) k v : (k < length l)%nat -> ~ In (i + k)%nat axes ->
  drop_from i axes (upd l k v) = upd (drop_from i axes l) (k - length (filter (fun j => memb j axes) (seq i k))) v.
Proof.
  revert i k; induction l as [|x l IH]; intros i k Hk Hn; simpl in Hk; [lia|].
  destruct k as [|k].
  - rewrite Nat.add_0_r in Hn. apply memb_nin in Hn. cbn [drop_from upd]. rewrite Hn. reflexivity.
  - cbn [seq filter]. rewrite <- Nat.add_succ_comm in Hn. specialize (IH (S i) k ltac:(lia) Hn).
    cbn [drop_from upd]. destruct (memb i axes) eqn:E.
    + cbn [length]. rewrite IH. f_equal.
    + assert (length (filter (fun j => memb j axes) (seq (S i) k)) <= k)%nat.
      { rewrite <- (seq_length k (S i)) at 2. apply filter_length_le'. }
      replace (S k - length (filter (fun j => memb j axes) (seq (S i) k)))%nat
        with (S (k - length (filter (fun j => memb j axes) (seq (S i) k)))) by lia.
      cbn [upd]. now rewrite IH.
Qed.
Lemma drop_from_upd_in {B} i axes (l : list B) k v : In (i + k)%nat axes ->
  drop_from i axes (upd l k v) = drop_from i axes l.
Proof.
  revert i k; induction l as [|x l IH]; intros i k Hn; [destruct k; auto|].
  destruct k as [|k].
  - rewrite Nat.add_0_r in Hn. apply memb_in in Hn. cbn [drop_from upd]. rewrite Hn. reflexivity.
  - rewrite <- Nat.add_succ_comm in Hn. cbn [drop_from upd]. now rewrite IH.
Qed.
Lemma pos_lt {B} i axes (l : list B) k : (k < length l)%nat -> ~ In (i + k)%nat axes ->
  (k - length (filter (fun j => memb j axes) (seq i k)) < length (drop_from i axes l))%nat.
Proof.
  revert i k; induction l as [|x l IH]; intros i k Hk Hn; simpl in Hk; [lia|].
  destruct k as [|k].
  - rewrite Nat.add_0_r in Hn. apply memb_nin in Hn. cbn [drop_from]. rewrite Hn. simpl. lia.
  - cbn [seq filter]. rewrite <- Nat.add_succ_comm in Hn. specialize (IH (S i) k ltac:(lia) Hn).
    cbn [drop_from]. destruct (memb i axes) eqn:E; cbn [length].
    + exact IH.
    + revert IH. generalize (length (filter (fun j => memb j axes) (seq (S i) k))), (length (drop_from (S i) axes l)). intros; lia.
Qed.
Lemma count_below axes s : NoDup axes ->
  length (filter (fun d => (d <? s)%nat) axes) = length (filter (fun j => memb j axes) (seq 0 s)).
Proof.
  intros ND. apply Permutation_length. apply NoDup_Permutation; [now apply NoDup_filter|apply NoDup_filter, seq_NoDup|].
  intros x. rewrite !filter_In, in_seq, memb_in, Nat.ltb_lt. intuition lia.
Qed.
Lemma fill_axes_upd_in axes (l : list Z) k v w : In k axes -> fill_axes axes w (upd l k v) = fill_axes axes w l.
Proof.
  intros Hk. apply (@nth_ext2 _ _ _ 0); [now rewrite !fill_axes_length, upd_length|].
  intros j Hj. rewrite fill_axes_length, upd_length in Hj. rewrite !fill_axes_nth by (rewrite ?upd_length; auto).
  destruct (memb j axes) eqn:E; auto. rewrite upd_other; auto. intros ->. apply memb_nin in E. contradiction.
Qed.
Lemma fill_axes_upd axes (l : list Z) k v w : ~ In k axes -> fill_axes axes w (upd l k v) = upd (fill_axes axes w l) k v.
Proof.
  intros Hk. apply (@nth_ext2 _ _ _ 0); [now rewrite upd_length, !fill_axes_length, upd_length|].
  intros j Hj. rewrite fill_axes_length, upd_length in Hj. rewrite fill_axes_nth by (rewrite upd_length; auto).
  destruct (Nat.eq_dec j k) as [->|Hn].
  - rewrite !upd_same by (rewrite ?fill_axes_length; auto). apply memb_nin in Hk. now rewrite Hk.
  - rewrite !upd_other by auto. rewrite fill_axes_nth by auto. reflexivity.
Qed.
