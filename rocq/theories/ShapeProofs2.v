(** Proofs about expand_dims, squeeze, moveaxis, swapaxes. *)
From Verif Require Import Base ShapeSpec BaseLemmas LayoutModel NdSpec TensorSpec TensorLemmas NdLemmas OpsModel OpsProofs2 OpsProofs3 OpsProofs4 OpsProofs5 OpsProofs6 ShapeModel ShapeProofs.
From Coq Require Import Permutation Sorted.
Open Scope Z_scope.

(** * py_insert / remove_at *)
Lemma py_insert_length {A} (l : list A) k x : length (py_insert l k x) = S (length l).
Proof. unfold py_insert. rewrite app_length. simpl. rewrite firstn_length, skipn_length. lia. Qed.
Lemma py_insert_nth {A} (l : list A) k x i d : (k <= length l)%nat ->
  nth i (py_insert l k x) d = if (i <? k)%nat then nth i l d else if (i =? k)%nat then x else nth (i - 1) l d.
Proof.
  intros Hk. unfold py_insert.
  assert (L : length (firstn k l) = k) by (rewrite firstn_length; lia).
  destruct (Nat.ltb_spec i k).
  - rewrite app_nth1 by lia. rewrite <- (firstn_skipn k l) at 2. now rewrite app_nth1 by lia.
  - rewrite app_nth2 by lia. rewrite L. destruct (Nat.eqb_spec i k) as [->|Hne].
    + now rewrite Nat.sub_diag.
    + replace (i - k)%nat with (S (i - 1 - k)) by lia. cbn [nth]. 
      rewrite <- (firstn_skipn k l) at 2. rewrite app_nth2 by lia. now rewrite L.
Qed.
Lemma remove_at_length {A} (l : list A) k : (k < length l)%nat -> length (remove_at k l) = (length l - 1)%nat.
Proof. intros. unfold remove_at. rewrite app_length, firstn_length, skipn_length. lia. Qed.
Lemma remove_at_nth {A} (l : list A) k i d : (k < length l)%nat ->
  nth i (remove_at k l) d = if (i <? k)%nat then nth i l d else nth (S i) l d.
Proof.
  intros Hk. unfold remove_at. assert (L : length (firstn k l) = k) by (rewrite firstn_length; lia).
  destruct (Nat.ltb_spec i k).
  - rewrite app_nth1 by lia. rewrite <- (firstn_skipn k l) at 2. now rewrite app_nth1 by lia.
  - rewrite app_nth2 by lia. rewrite L. rewrite <- (firstn_skipn (S k) l) at 2.
    rewrite app_nth2 by (rewrite firstn_length; lia). rewrite firstn_length. f_equal. lia.
Qed.
Lemma remove_insert {A} (l : list A) k x : (k <= length l)%nat -> remove_at k (py_insert l k x) = l.
Proof.
  intros Hk. unfold remove_at, py_insert. assert (L : length (firstn k l) = k) by (rewrite firstn_length; lia).
  rewrite firstn_app, L, Nat.sub_diag, firstn_firstn, Nat.min_id. cbn [firstn]. rewrite app_nil_r.
  rewrite skipn_app, L. rewrite skipn_all2 by lia. replace (S k - k)%nat with 1%nat by lia. cbn [skipn app].
  apply firstn_skipn.
Qed.

Lemma insert_bounds sh k idx : (k <= length sh)%nat -> in_bounds (py_insert sh k 1) idx -> in_bounds sh (remove_at k idx).
Proof.
  intros Hk H. apply in_bounds_nth in H as [L H]. rewrite py_insert_length in *. apply in_bounds_nth.
  rewrite remove_at_length by lia. split; [lia|]. intros i Hi. rewrite remove_at_nth by lia.
  destruct (Nat.ltb_spec i k).
  - specialize (H i ltac:(lia)). rewrite py_insert_nth in H by auto. destruct (Nat.ltb_spec i k); [auto|lia].
  - specialize (H (S i) ltac:(lia)). rewrite py_insert_nth in H by auto.
    destruct (Nat.ltb_spec (S i) k); [lia|]. destruct (Nat.eqb_spec (S i) k); [lia|].
    replace (S i - 1)%nat with i in H by lia. auto.
Qed.
Lemma insert_upd {A} (sh : list A) k s c v : (k <= length sh)%nat -> (s < length sh)%nat ->
  py_insert (upd sh s c) k v = upd (py_insert sh k v) (bump k s) c.
Proof.
  intros Hk Hs. apply (@nth_ext2 _ _ _ v); [now rewrite upd_length, !py_insert_length, upd_length|].
  intros i Hi. rewrite py_insert_length, upd_length in Hi. rewrite py_insert_nth by (now rewrite upd_length). unfold bump.
  destruct (Nat.leb_spec k s).
  - destruct (Nat.eq_dec i (S s)) as [->|Hne].
    + rewrite (upd_same _ _ v) by (rewrite py_insert_length; lia).
      destruct (Nat.ltb_spec (S s) k); [lia|]. destruct (Nat.eqb_spec (S s) k); [lia|].
      replace (S s - 1)%nat with s by lia. now rewrite upd_same.
    + rewrite (upd_other (py_insert sh k v)) by auto. rewrite py_insert_nth by auto.
      destruct (Nat.ltb_spec i k); [now rewrite upd_other by lia|].
      destruct (Nat.eqb_spec i k); auto. now rewrite upd_other by lia.
  - destruct (Nat.eq_dec i s) as [->|Hne].
    + rewrite (upd_same (py_insert sh k v)) by (rewrite py_insert_length; lia).
      destruct (Nat.ltb_spec s k); [|lia]. now rewrite upd_same.
    + rewrite (upd_other (py_insert sh k v)) by auto. rewrite py_insert_nth by auto.
      destruct (Nat.ltb_spec i k); [now rewrite upd_other by lia|].
      destruct (Nat.eqb_spec i k); auto. now rewrite upd_other by lia.
Qed.
Lemma remove_upd (idx : list Z) k s v : (k < length idx)%nat -> (bump k s < length idx)%nat ->
  remove_at k (upd idx (bump k s) v) = upd (remove_at k idx) s v.
Proof.
  intros Hk Hs. apply (@nth_ext2 _ _ _ 0); [rewrite upd_length, !remove_at_length; rewrite ?upd_length; auto|].
  intros i Hi. rewrite remove_at_length in Hi by (now rewrite upd_length). rewrite upd_length in Hi.
  rewrite remove_at_nth by (now rewrite upd_length). unfold bump in *.
  destruct (Nat.leb_spec k s) as [Hks|Hks], (Nat.ltb_spec i k) as [Hik|Hik], (Nat.eq_dec i s) as [->|Hne]; try lia;
   rewrite ?upd_same by (rewrite ?remove_at_length; lia); rewrite ?upd_other by lia; rewrite ?remove_at_nth by lia; auto.
  all: try (destruct (Nat.ltb_spec i k); auto; lia).
Qed.
Lemma remove_nth_bump {A} (idx : list A) k s d : (k < length idx)%nat -> nth s (remove_at k idx) d = nth (bump k s) idx d.
Proof.
  intros. rewrite remove_at_nth by auto. unfold bump.
  destruct (Nat.ltb_spec s k), (Nat.leb_spec k s); auto; lia.
Qed.

Lemma Forall_insert {A} (P : A -> Prop) l k x : Forall P l -> P x -> Forall P (py_insert l k x).
Proof. intros H Hx. unfold py_insert. apply Forall_app. split; [now apply Forall_firstn'|constructor; auto; now apply Forall_skipn']. Qed.

Lemma unsqueeze_represents {A} (G : list Z -> A) gsh split cnts ls k :
  represents G gsh split cnts ls -> (k <= length gsh)%nat ->
  exists ls', all_ok (map (fun t => unsqueeze t k) ls) = Ok ls' /\
    represents (fun idx => G (remove_at k idx)) (py_insert gsh k 1) (option_map (bump k) split) cnts ls'.
Proof.
  intros (Hlen & Hn & HR) Hk.
  assert (Hl : forall t, In t ls -> length (ash t) = length gsh).
  { intros t Ht. destruct split as [s|].
    - destruct HR as (_ & _ & _ & HR). apply In_nth_error in Ht as (r & Er). destruct (HR r t Er) as [-> _]. apply upd_length.
    - destruct (HR t Ht) as [-> _]. auto. }
  rewrite (all_ok_map _ (fun t => mk_arr (py_insert (ash t) k 1) (fun idx => adat t (remove_at k idx)))).
  2:{ intros t Ht. unfold unsqueeze. rewrite (Hl t Ht). destruct (Nat.leb_spec k (length gsh)); [auto|lia]. }
  eexists; split; [reflexivity|]. split; [now rewrite map_length|split; [apply Forall_insert; auto; lia|]].
  destruct split as [s|]; cbn [option_map].
  - destruct HR as (Hs & Hc & Hsum & HR). rewrite py_insert_length.
    assert (Hb : (bump k s < S (length gsh))%nat) by (unfold bump; destruct (k <=? s)%nat; lia).
    split; [lia|split; [auto|split]].
    + rewrite py_insert_nth by auto. unfold bump. rewrite Hsum. destruct (Nat.leb_spec k s).
      * destruct (Nat.ltb_spec (S s) k); [lia|]. destruct (Nat.eqb_spec (S s) k); [lia|]. f_equal. lia.
      * destruct (Nat.ltb_spec s k); [auto|lia].
    + intros r t Ht. rewrite nth_error_map in Ht. destruct (nth_error ls r) as [t0|] eqn:E; [|discriminate].
      injection Ht as <-. destruct (HR r t0 E) as [S0 D0]. split.
      * cbn [ash]. rewrite S0. now apply insert_upd.
      * intros idx Hidx. cbn [adat]. pose proof (in_bounds_length _ _ Hidx) as Li. rewrite upd_length, py_insert_length in Li.
        rewrite <- insert_upd in Hidx by auto. rewrite D0.
        -- unfold move_axis_idx. f_equal. rewrite remove_upd by lia. now rewrite remove_nth_bump by lia.
        -- apply insert_bounds; auto. now rewrite upd_length.
  - intros t Ht. apply in_map_iff in Ht as (t0 & <- & Ht0). destruct (HR t0 Ht0) as [S0 D0]. split.
    + cbn [ash]. now rewrite S0.
    + intros idx Hidx. cbn [adat]. apply D0. now apply insert_bounds.
Qed.

Definition ind (n : nat) (split : option nat) : list bool :=
  map (fun i => match split with Some s => Nat.eqb i s | None => false end) (seq 0 n).
Lemma insert_ind n k split : (k <= n)%nat -> match split with Some s => (s < n)%nat | None => True end ->
  py_insert (ind n split) k false = ind (S n) (option_map (bump k) split).
Proof.
  intros Hk Hs. apply (@nth_ext2 _ _ _ false).
  { unfold ind. rewrite py_insert_length, !map_length, !seq_length. auto. }
  intros i Hi. rewrite py_insert_length in Hi. unfold ind in *. rewrite map_length, seq_length in Hi.
  rewrite py_insert_nth by (rewrite map_length, seq_length; auto). rewrite (@nth_map_seq _ _ (S n)) by lia.
  destruct split as [s|]; cbn [option_map].
  - unfold bump. destruct (Nat.ltb_spec i k).
    + rewrite nth_map_seq by lia. destruct (Nat.leb_spec k s); lia.
    + destruct (Nat.eqb_spec i k).
      * subst. destruct (Nat.leb_spec k s); symmetry; apply Nat.eqb_neq; lia.
      * rewrite nth_map_seq by lia. destruct (Nat.leb_spec k s); lia.
  - destruct (Nat.ltb_spec i k); [now rewrite nth_map_seq by lia|]. destruct (Nat.eqb_spec i k); auto. now rewrite nth_map_seq by lia.
Qed.
Lemma find_ind n split : match split with Some s => (s < n)%nat | None => True end -> find_idx (fun b => b) (ind n split) = split.
Proof.
  intros Hs. destruct split as [s|].
  - apply (find_idx_uniq _ _ s true); auto.
    + unfold ind. rewrite nth_error_map. rewrite (nth_error_nth' (seq 0 n) 0%nat) by (now rewrite seq_length).
      rewrite seq_nth by auto. cbn. now rewrite Nat.eqb_refl.
    + intros q y Hq ->. unfold ind in Hq. rewrite nth_error_map in Hq. destruct (nth_error (seq 0 n) q) as [j|] eqn:E; [|discriminate].
      cbn in Hq. injection Hq as Hq. apply Nat.eqb_eq in Hq. subst j.
      assert (Hqn : (q < n)%nat) by (rewrite <- (seq_length n 0); apply nth_error_Some; congruence).
      rewrite (nth_error_nth' (seq 0 n) 0%nat) in E by (now rewrite seq_length). rewrite seq_nth in E by auto. injection E as E. lia.
  - apply find_idx_none. intros x Hx. unfold ind in Hx. apply in_map_iff in Hx as (i & <- & _). reflexivity.
Qed.

(** inserting axes one after the other at strictly increasing final positions *)
Definition fits (n : nat) (axes : list nat) : Prop := forall i, (i < length axes)%nat -> (nth i axes 0 <= n + i)%nat.
Lemma expand_fold {A} (axes : list nat) (G : list Z -> A) gsh split cnts ls :
  represents G gsh split cnts ls -> fits (length gsh) axes ->
  exists ls', fold_left expand_step axes (Ok (ind (length gsh) split, gsh, ls)) =
     Ok (ind (length gsh + length axes) (fold_left (fun s k => option_map (bump k) s) axes split),
         fold_left (fun sh k => py_insert sh k 1) axes gsh, ls') /\
   represents (fun idx => G (fold_right remove_at idx axes)) (fold_left (fun sh k => py_insert sh k 1) axes gsh)
     (fold_left (fun s k => option_map (bump k) s) axes split) cnts ls'.
Proof.
  revert G gsh split ls. induction axes as [|k axes IH]; intros G gsh split ls HR Hf.
  - exists ls. simpl. rewrite Nat.add_0_r. auto.
  - cbn [fold_left]. assert (Hk : (k <= length gsh)%nat) by (specialize (Hf 0%nat ltac:(simpl; lia)); simpl in Hf; lia).
    destruct (unsqueeze_represents G gsh split cnts ls k HR Hk) as (ls1 & E1 & R1).
    unfold expand_step at 2. cbn [bind]. rewrite E1. cbn [bind].
    rewrite insert_ind; auto.
    2:{ destruct split; auto. destruct HR as (_ & _ & H & _). auto. }
    destruct (IH _ _ _ _ R1) as (ls' & E' & R').
    { intros i Hi. rewrite py_insert_length. specialize (Hf (S i)). cbn [length nth] in Hf. specialize (Hf ltac:(lia)). lia. }
    exists ls'. rewrite py_insert_length in E'. cbn [length]. rewrite Nat.add_succ_r. split; [exact E'|exact R'].
Qed.

Lemma drop_from_snoc {A} i ks k (l : list A) : (forall j, In j ks -> (j < i + k)%nat) -> (k < length l)%nat ->
  drop_from i (ks ++ [(i + k)%nat]) l = drop_from i ks (remove_at k l).
Proof.
  revert i k; induction l as [|x l IH]; intros i k Hks Hk; simpl in Hk; [lia|].
  destruct k as [|k].
  - rewrite Nat.add_0_r in *. cbn [drop_from]. rewrite existsb_app. simpl. rewrite Nat.eqb_refl, orb_true_r.
    unfold remove_at. cbn [firstn skipn app].
    (* nothing at or beyond i is in ks *)
    assert (N : forall (l' : list A) j, (i < j)%nat -> drop_from j (ks ++ [i]) l' = l').
    { induction l' as [|y l' IH']; intros j Hj; simpl; auto. rewrite existsb_app. simpl.
      assert (memb j ks = false) as -> by (apply memb_nin; intros H; apply Hks in H; lia).
      destruct (Nat.eqb_spec j i); [lia|]. cbn. now rewrite IH' by lia. }
    assert (N2 : forall (l' : list A) j, (i <= j)%nat -> drop_from j ks l' = l').
    { induction l' as [|y l' IH']; intros j Hj; simpl; auto.
      assert (memb j ks = false) as -> by (apply memb_nin; intros H; apply Hks in H; lia). now rewrite IH' by lia. }
    rewrite N by lia. now rewrite N2 by lia.
  - unfold remove_at. cbn [firstn skipn app]. fold (remove_at k l). cbn [drop_from]. rewrite existsb_app. simpl.
    destruct (Nat.eqb_spec i (i + S k)); [lia|]. rewrite !orb_false_r.
    replace (i + S k)%nat with (S i + k)%nat by lia. rewrite IH; [|intros j Hj; apply Hks in Hj; lia|lia].
    reflexivity.
Qed.
Lemma drop_axes_snoc {A} ks k (l : list A) : (forall j, In j ks -> (j < k)%nat) -> (k < length l)%nat ->
  drop_axes (ks ++ [k]) l = drop_axes ks (remove_at k l).
Proof. apply (drop_from_snoc 0). Qed.

Lemma fold_remove_drop axes (l : list Z) n : StronglySorted lt axes -> (forall k, In k axes -> (k < n + length axes)%nat) ->
  length l = (n + length axes)%nat -> fold_right remove_at l axes = drop_axes axes l.
Proof.
  revert l n. induction axes as [|k axes IH] using rev_ind; intros l n Hs Hb Hl.
  - simpl. unfold drop_axes. generalize 0%nat as i. clear. induction l as [|x l IHl]; intros i; simpl; auto. f_equal; auto.
  - rewrite fold_right_app. cbn [fold_right]. rewrite app_length in *. cbn [length] in *.
    assert (Hs' : StronglySorted lt axes /\ forall j, In j axes -> (j < k)%nat).
    { clear - Hs. induction axes as [|a axes IH]; simpl in *; [split; [constructor|intros j []]|].
      apply StronglySorted_inv in Hs as [Hs HF]. destruct (IH Hs) as [H1 H2]. rewrite Forall_app in HF. destruct HF as [HF1 HF2].
      inversion HF2; subst. split; [constructor; auto|]. intros j [<-|Hj]; auto. }
    destruct Hs' as [Hs1 Hs2]. assert (Hk : (k < length l)%nat).
    { specialize (Hb k). rewrite in_app_iff in Hb. cbn in Hb. specialize (Hb ltac:(auto)). lia. }
    rewrite drop_axes_snoc by auto. apply (IH _ n); auto.
    + assert (S1 : forall m l0, StronglySorted lt l0 -> (forall j, In j l0 -> (j < m)%nat) -> (length l0 <= m)%nat).
      { clear. intros m l0 Hs Hb. assert (NoDup l0).
        { induction Hs as [|a l0 Hs IH HF]; constructor; auto; [|apply IH; intros; apply Hb; right; auto].
          intros Hin. rewrite Forall_forall in HF. specialize (HF a Hin). lia. }
        rewrite <- (seq_length m 0). apply NoDup_incl_length; auto. intros j Hj. apply in_seq. apply Hb in Hj. lia. }
      intros j Hj. specialize (Hs2 j Hj).
      assert (k < n + (length axes + 1))%nat by (apply Hb, in_app_iff; right; left; auto). lia.
    + rewrite remove_at_length by auto. lia.
Qed.
