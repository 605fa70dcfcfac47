(** Lemmas for pad: the sides one after the other, and the ranks together. *)
From Verif Require Import Base BaseLemmas LayoutModel TensorSpec NdSpec TensorLemmas NdLemmas OpsModel OpsProofs4 ShapeModel ReshapeModel RollModel FactoryModel PadSpec PadModel PadProofs.
Open Scope Z_scope.

Lemma frames_none n (p : nat -> bool) : forallb (fun k => negb (p k)) (seq 0 n) = true <-> forall k, (k < n)%nat -> p k = false.
Proof.
  rewrite forallb_forall. split; intros H k Hk.
  - specialize (H k ltac:(apply in_seq; lia)). now apply negb_true_iff in H.
  - apply in_seq in Hk. rewrite H by lia. auto.
Qed.
Lemma pel_none {A} n b sh (F : list Z -> A) fv sv idx : (forall k, (k < n)%nat -> frame b sh idx k = false) ->
  pel n b sh F fv sv idx = F (map (fun k => nth k idx 0 - b k) (seq 0 n)).
Proof. intros H. unfold pel. now rewrite find_none_iff. Qed.
Lemma pel_some {A} n b sh (F : list Z -> A) fv sv idx k : (k < n)%nat -> frame b sh idx k = true -> (forall j, (k < j < n)%nat -> frame b sh idx j = false) ->
  pel n b sh F fv sv idx = if nth k idx 0 <? b k then fv k else sv k.
Proof. intros Hk E Hj. unfold pel. now rewrite (find_last n _ k). Qed.
Lemma idx_eq (a b : list Z) n : length a = n -> length b = n -> (forall k, (k < n)%nat -> nth k a 0 = nth k b 0) -> a = b.
Proof. intros La Lb H. apply (@nth_ext2 _ _ _ 0); [lia|]. intros k Hk. apply H. lia. Qed.

Section Local.
Context {A : Type} (t : arr A) (n m : nat) (w : list Z) (vt : list A) (d : A) (vs : list (A * A)).
Hypothesis Hn : length (ash t) = n.
Hypothesis Hsh : Forall (fun z => 0 <= z) (ash t).
Hypothesis Hw : length w = (2 * m)%nat.
Hypothesis Hm : (m <= n)%nat.
Hypothesis Hpos : Forall (fun z => 0 <= z) w.
Let fv k := fst (nth k vs (d, d)).
Let sv k := snd (nth k vs (d, d)).
Hypothesis Hvt : length vt = (2 * m)%nat.
Hypothesis Hvs : forall k, (n - m <= k < n)%nat -> nth (2 * (n - 1 - k)) vt d = fv k /\ nth (2 * (n - 1 - k) + 1) vt d = sv k.

Lemma wpos i : 0 <= nth i w 0.
Proof. destruct (Nat.lt_ge_cases i (length w)) as [L|L]; [rewrite Forall_forall in Hpos; apply Hpos, nth_In; auto|rewrite nth_overflow by lia; lia]. Qed.
(** widths of the sides already padded: positions i and above *)
Definition sofar (i j : nat) : Z := if (j <? i)%nat then 0 else nth j w 0.
Definition bs i k := sofar i (2 * (n - 1 - k)).
Definition es i k := sofar i (2 * (n - 1 - k) + 1).
Definition inv (i : nat) (y : arr A) : Prop :=
  ash y = ext_of (bs i) (es i) (ash t) /\ forall idx, in_bounds (ash y) idx -> adat y idx = pel n (bs i) (ash t) (adat t) fv sv idx.

Lemma one_side i k x : nth k (upd (repeat 0 (2 * n)) i x) 0 = if (k =? i)%nat then (if (i <? 2 * n)%nat then x else 0) else 0.
Proof.
  destruct (Nat.eqb_spec k i) as [->|N].
  - destruct (Nat.ltb_spec i (2 * n)).
    + rewrite upd_same; [auto|]. now rewrite repeat_length.
    + rewrite upd_oob by (rewrite repeat_length; lia). apply nth_repeat.
  - rewrite upd_other by auto. apply nth_repeat.
Qed.

Lemma side_step i y : (i < 2 * m)%nat -> inv (S i) y -> exists y', pad_side n w vt (Ok y) i = Ok y' /\ inv i y'.
Proof.
  intros Hi (Sy & Dy). unfold pad_side. cbn [bind].
  destruct (nth_error vt i) as [v|] eqn:Ev; [|apply nth_error_None in Ev; lia].
  destruct (nth_error w i) as [x|] eqn:Ex; [|apply nth_error_None in Ex; lia].
  replace (i <? 2 * n)%nat with true by (symmetry; apply Nat.ltb_lt; lia).
  assert (Xw : nth i w 0 = x) by (eapply nth_error_nth; eauto). assert (Xv : nth i vt d = v) by (eapply nth_error_nth; eauto).
  assert (X0 : 0 <= x) by (rewrite <- Xw; apply wpos).
  assert (Ly : length (ash y) = n) by (rewrite Sy, ext_length; auto).
  assert (SH0 : forall k, (k < n)%nat -> 0 <= nth k (ash t) 0) by (intros; rewrite Forall_forall in Hsh; apply Hsh, nth_In; lia).
  assert (SF0 : forall a b, 0 <= sofar a b) by (intros; unfold sofar; destruct (_ <? _)%nat; [lia|apply wpos]).
  assert (SY0 : Forall (fun z => 0 <= z) (ash y)).
  { rewrite Sy. apply Forall_nth. intros k d0 Hk. rewrite ext_length in Hk. rewrite (nth_indep _ d0 0) by (now rewrite ext_length). rewrite ext_nth by auto.
    pose proof (SH0 k ltac:(lia)). pose proof (SF0 (S i) (2 * (n - 1 - k))%nat). pose proof (SF0 (S i) (2 * (n - 1 - k) + 1)%nat). unfold bs, es. lia. }
  destruct (torch_pad_ok y (upd (repeat 0 (2 * n)) i x) v) as (y' & E & S' & D').
  { rewrite upd_length, repeat_length. apply odd_2. }
  { rewrite upd_length, repeat_length. lia. }
  { apply Forall_nth. intros k d0 Hk. rewrite (nth_indep _ d0 0) by auto. rewrite one_side. destruct (k =? i)%nat, (i <? 2 * n)%nat; lia. }
  { auto. }
  rewrite Ly in *. exists y'. split; [exact E|].
  set (a := (n - 1 - Nat.div2 i)%nat).
  assert (Ba : forall k, (k < n)%nat -> before n (upd (repeat 0 (2 * n)) i x) k = bs i k - bs (S i) k).
  { intros k Hk. unfold before, bs, sofar. rewrite one_side. replace (i <? 2 * n)%nat with true by (symmetry; apply Nat.ltb_lt; lia).
    destruct (Nat.eqb_spec (2 * (n - 1 - k)) i) as [EE|]; [rewrite EE, Xw|]; destruct (Nat.ltb_spec (2 * (n - 1 - k)) i), (Nat.ltb_spec (2 * (n - 1 - k)) (S i)); try lia;
      rewrite ?EE, ?Xw in *; destruct (Nat.ltb_spec i i), (Nat.ltb_spec i (S i)); lia. }
  assert (Ea : forall k, (k < n)%nat -> after n (upd (repeat 0 (2 * n)) i x) k = es i k - es (S i) k).
  { intros k Hk. unfold after, es, sofar. rewrite one_side. replace (i <? 2 * n)%nat with true by (symmetry; apply Nat.ltb_lt; lia).
    destruct (Nat.eqb_spec (2 * (n - 1 - k) + 1) i) as [EE|]; [rewrite EE, Xw|]; destruct (Nat.ltb_spec (2 * (n - 1 - k) + 1) i), (Nat.ltb_spec (2 * (n - 1 - k) + 1) (S i)); try lia;
      rewrite ?EE, ?Xw in *; destruct (Nat.ltb_spec i i), (Nat.ltb_spec i (S i)); lia. }
  assert (SZ : forall k, (k < n)%nat -> nth k (ash y) 0 = nth k (ash t) 0 + bs (S i) k + es (S i) k) by (intros; rewrite Sy, ext_nth by lia; auto).
  assert (SZ' : forall k, (k < n)%nat -> nth k (ash y') 0 = nth k (ash t) 0 + bs i k + es i k).
  { intros k Hk. rewrite S', ext_nth by lia. rewrite SZ, Ba, Ea by auto. lia. }
  assert (Sy' : ash y' = ext_of (bs i) (es i) (ash t)).
  { apply (idx_eq _ _ n); [rewrite S', ext_length; lia|rewrite ext_length; lia|]. intros k Hk. rewrite SZ', ext_nth by lia. auto. }
  split; [exact Sy'|]. intros idx Hidx. rewrite D'. apply in_bounds_nth in Hidx as (LI & Hidx). assert (LI' : length (ash y') = n) by (rewrite Sy', ext_length; lia). rewrite LI' in *.
  assert (HI : forall k, (k < n)%nat -> 0 <= nth k idx 0 < nth k (ash t) 0 + bs i k + es i k) by (intros; rewrite <- SZ' by auto; auto).
  (* the side is before or after axis a *)
  assert (CB : forall k, (k < n)%nat -> k <> a -> bs i k = bs (S i) k /\ es i k = es (S i) k).
  { intros k Hk Nk. unfold bs, es, sofar. assert (2 * (n - 1 - k) <> i)%nat by (unfold a in Nk; intros EE; rewrite <- EE, Nat.div2_double in Nk; lia).
    assert (2 * (n - 1 - k) + 1 <> i)%nat by (unfold a in Nk; intros EE; rewrite <- EE in Nk; replace (2 * (n - 1 - k) + 1)%nat with (S (2 * (n - 1 - k))) in Nk by lia; rewrite Nat.div2_succ_double in Nk; lia).
    split; destruct (Nat.ltb_spec (2 * (n - 1 - k)) i), (Nat.ltb_spec (2 * (n - 1 - k)) (S i)), (Nat.ltb_spec (2 * (n - 1 - k) + 1) i), (Nat.ltb_spec (2 * (n - 1 - k) + 1) (S i)); lia. }
  assert (HIGH : forall k, (a < k < n)%nat -> bs i k = 0 /\ es i k = 0).
  { intros k Hk. unfold bs, es, sofar. destruct (Nat.Even_or_Odd i) as [[j Ej]|[j Ej]]; unfold a in Hk; rewrite Ej in *.
    - rewrite Nat.div2_double in Hk. destruct (Nat.ltb_spec (2 * (n - 1 - k)) (2 * j)), (Nat.ltb_spec (2 * (n - 1 - k) + 1) (2 * j)); lia.
    - replace (2 * j + 1)%nat with (S (2 * j)) in Hk by lia. rewrite Nat.div2_succ_double in Hk. destruct (Nat.ltb_spec (2 * (n - 1 - k)) (2 * j + 1)), (Nat.ltb_spec (2 * (n - 1 - k) + 1) (2 * j + 1)); lia. }
  assert (FH : forall k, (a < k < n)%nat -> frame (bs i) (ash t) idx k = false).
  { intros k Hk. apply frame_false. destruct (HIGH k Hk) as [H1 H2]. specialize (HI k ltac:(lia)). lia. }
  assert (Hdiv : (Nat.div2 i < m)%nat).
  { destruct (Nat.Even_or_Odd i) as [[j Ej]|[j Ej]]; rewrite Ej in *; [rewrite Nat.div2_double|replace (2 * j + 1)%nat with (S (2 * j)) by lia; rewrite Nat.div2_succ_double]; lia. }
  assert (Ha : (n - m <= a < n)%nat) by (unfold a; lia).
  assert (FB : frame (before n (upd (repeat 0 (2 * n)) i x)) (ash y) idx = frame (before n (upd (repeat 0 (2 * n)) i x)) (ash y) idx) by auto. clear FB.
  set (idx0 := map (fun k => nth k idx 0 - before n (upd (repeat 0 (2 * n)) i x) k) (seq 0 n)).
  assert (N0 : forall k, (k < n)%nat -> nth k idx0 0 = nth k idx 0 - (bs i k - bs (S i) k)).
  { intros k Hk. unfold idx0. rewrite (@nth_map_seq _ (fun k => nth k idx 0 - before n (upd (repeat 0 (2 * n)) i x) k)) by auto. now rewrite Ba. }
  destruct (forallb _ _) eqn:FA.
  - (* not in the new side *)
    assert (IN : forall k, (k < n)%nat -> frame (before n (upd (repeat 0 (2 * n)) i x)) (ash y) idx k = false) by (apply frames_none; exact FA).
    assert (IB : in_bounds (ash y) idx0).
    { apply in_bounds_nth. rewrite Ly. split; [unfold idx0; rewrite map_length, seq_length; auto|]. intros k Hk. rewrite N0 by auto. specialize (IN k Hk). apply frame_false in IN. rewrite Ba in IN by auto. lia. }
    rewrite Dy by auto. unfold pel.
    assert (FE : forall k, (k < n)%nat -> frame (bs (S i)) (ash t) idx0 k = frame (bs i) (ash t) idx k).
    { intros k Hk. unfold frame. rewrite N0 by auto. specialize (IN k Hk). apply frame_false in IN. rewrite Ba, SZ in IN by auto. lia. }
    rewrite (find_ext n _ _ FE). destruct (find (frame (bs i) (ash t) idx) (rev (seq 0 n))) as [k|] eqn:FF.
    + apply find_lt in FF as [Hk FF]. rewrite N0 by auto. replace (nth k idx 0 - (bs i k - bs (S i) k) <? bs (S i) k) with (nth k idx 0 <? bs i k) by lia. reflexivity.
    + f_equal. apply map_ext_in. intros k Hk. apply in_seq in Hk. rewrite N0 by lia. lia.
  - (* in the new side: the index is outside along axis a *)
    assert (OUT : frame (before n (upd (repeat 0 (2 * n)) i x)) (ash y) idx a = true).
    { destruct (frame (before n (upd (repeat 0 (2 * n)) i x)) (ash y) idx a) eqn:FE; [auto|exfalso].
      rewrite (proj2 (frames_none n (frame (before n (upd (repeat 0 (2 * n)) i x)) (ash y) idx))) in FA; [discriminate|]. intros k Hk.
      destruct (Nat.eq_dec k a) as [->|Nk]; [auto|]. apply frame_false. rewrite Ba, SZ by auto. destruct (CB k Hk Nk) as [-> <-]. specialize (HI k Hk). destruct (CB k Hk Nk) as [<- _]. lia. }
    unfold frame in OUT. rewrite Ba, SZ in OUT by lia. specialize (HI a ltac:(lia)). destruct (Hvs a Ha) as [V1 V2].
    destruct (Nat.Even_or_Odd i) as [[j Ej]|[j Ej]].
    + (* before *)
      assert (Aj : (2 * (n - 1 - a))%nat = i) by (unfold a; rewrite Ej, Nat.div2_double; lia).
      assert (E1 : bs (S i) a = 0) by (unfold bs, sofar; rewrite Aj; destruct (Nat.ltb_spec i (S i)); lia).
      assert (E2 : bs i a = x) by (unfold bs, sofar; rewrite Aj, Xw; destruct (Nat.ltb_spec i i); lia).
      assert (E3 : es i a = es (S i) a) by (unfold es, sofar; rewrite Aj; destruct (Nat.ltb_spec (i + 1) i), (Nat.ltb_spec (i + 1) (S i)); lia).
      assert (LT : nth a idx 0 < x) by lia.
      rewrite (pel_some n (bs i) (ash t) (adat t) fv sv idx a); [|lia|unfold frame; rewrite E2; lia|auto].
      rewrite E2. replace (nth a idx 0 <? x) with true by lia. rewrite <- V1, Aj, Xv. auto.
    + (* after *)
      assert (Aj : (2 * (n - 1 - a) + 1)%nat = i) by (unfold a; rewrite Ej; replace (2 * j + 1)%nat with (S (2 * j)) by lia; rewrite Nat.div2_succ_double; lia).
      assert (E1 : bs i a = 0) by (unfold bs, sofar; destruct (Nat.ltb_spec (2 * (n - 1 - a)) i); lia).
      assert (E0 : bs (S i) a = 0) by (unfold bs, sofar; destruct (Nat.ltb_spec (2 * (n - 1 - a)) (S i)); lia).
      assert (E2 : es (S i) a = 0) by (unfold es, sofar; rewrite Aj; destruct (Nat.ltb_spec i (S i)); lia).
      rewrite (pel_some n (bs i) (ash t) (adat t) fv sv idx a); [|lia|unfold frame; lia|auto].
      rewrite E1. replace (nth a idx 0 <? 0) with false by lia. rewrite <- V2, Aj, Xv. auto.
Qed.
Lemma sides_all i y : (i <= 2 * m)%nat -> inv i y -> exists y', fold_left (pad_side n w vt) (rev (seq 0 i)) (Ok y) = Ok y' /\ inv 0 y'.
Proof.
  revert y. induction i; intros y Hi I; [exists y; auto|]. rewrite seq_S, rev_app_distr. cbn [rev app fold_left Nat.add].
  destruct (side_step i y) as (y' & -> & I'); [lia|auto|]. apply IHi; [lia|auto].
Qed.
Lemma inv_start : inv (2 * m) t.
Proof.
  assert (Z1 : forall j, sofar (2 * m) j = 0) by (intros; unfold sofar; destruct (Nat.ltb_spec j (2 * m)); [auto|apply nth_overflow; lia]).
  split.
  - apply (idx_eq _ _ n); [auto|rewrite ext_length; auto|]. intros k Hk. rewrite ext_nth by lia. unfold bs, es. rewrite !Z1. lia.
  - intros idx Hidx. apply in_bounds_nth in Hidx as (LI & Hidx). rewrite pel_none.
    + f_equal. symmetry. apply (idx_eq _ _ n); [now rewrite map_length, seq_length|lia|]. intros k Hk. rewrite (@nth_map_seq _ (fun k => nth k idx 0 - bs (2 * m) k)) by auto. unfold bs. rewrite Z1. lia.
    + intros k Hk. apply frame_false. unfold bs. rewrite Z1. specialize (Hidx k ltac:(lia)). lia.
Qed.
Lemma sides_ok : exists y, fold_left (pad_side n w vt) (rev (seq 0 (length vt))) (Ok t) = Ok y /\ ash y = ext_of (before n w) (after n w) (ash t) /\
  forall idx, in_bounds (ash y) idx -> adat y idx = pel n (before n w) (ash t) (adat t) fv sv idx.
Proof.
  rewrite Hvt. destruct (sides_all (2 * m) t (le_n _) inv_start) as (y & E & S' & D). exists y. split; [exact E|]. split; [exact S'|]. exact D.
Qed.
End Local.

(** the padding of one local tensor *)
Lemma pad_local_ok {A} (t : arr A) n m w c vt vs (d : A) : length (ash t) = n -> Forall (fun z => 0 <= z) (ash t) -> length w = (2 * m)%nat -> (m <= n)%nat -> Forall (fun z => 0 <= z) w ->
  match one_value c with
  | Some v => vs = repeat (v, v) n
  | None => length vt = (2 * m)%nat /\ forall k, (n - m <= k < n)%nat ->
      nth (2 * (n - 1 - k)) vt d = fst (nth k vs (d, d)) /\ nth (2 * (n - 1 - k) + 1) vt d = snd (nth k vs (d, d))
  end ->
  exists y, pad_local n t w c vt = Ok y /\ ash y = ext_of (before n w) (after n w) (ash t) /\
    forall idx, in_bounds (ash y) idx -> adat y idx = pel n (before n w) (ash t) (adat t) (fun k => fst (nth k vs (d, d))) (fun k => snd (nth k vs (d, d))) idx.
Proof.
  intros Hn Hsh Hw Hm Hpos Hc. destruct (one_value c) as [v|] eqn:Ec.
  - assert (EL : pad_local n t w c vt = torch_pad t w v).
    { unfold one_value in Ec. unfold pad_local. destruct c as [v'|[|[v'|q] [|]]]; try discriminate; injection Ec as ->; reflexivity. }
    rewrite EL. destruct (torch_pad_ok t w v) as (y & -> & Sy & Dy); [rewrite Hw; apply odd_2|lia|auto|auto|]. rewrite Hn in *.
    exists y. split; [auto|]. split; [auto|]. intros idx _. rewrite Dy. destruct (forallb _ _) eqn:FA.
    + rewrite pel_none; [auto|]. now apply frames_none.
    + unfold pel. destruct (find (frame (before n w) (ash t) idx) (rev (seq 0 n))) as [k|] eqn:FF.
      * apply find_lt in FF as [Hk _]. rewrite Hc. rewrite (nth_indep _ (d, d) (v, v)), nth_repeat by (rewrite repeat_length; lia). now destruct (_ <? _).
      * exfalso. rewrite (proj2 (frames_none n _)) in FA; [discriminate|]. intros k Hk. apply (find_none _ _ FF). rewrite <- in_rev, in_seq. lia.
  - destruct Hc as [Hvt Hvs].
    assert (EL : pad_local n t w c vt = fold_left (pad_side n w vt) (rev (seq 0 (length vt))) (Ok t)).
    { unfold one_value in Ec. unfold pad_local. destruct c as [v'|[|[v'|q] [|]]]; try discriminate; reflexivity. }
    rewrite EL. apply (sides_ok t n m w vt d vs); auto.
Qed.
