(** C95: the partition interface (x.__partitioned__) describes the distributed array truthfully, and
    from_partitioned rebuilds the array from it. *)
From Verif Require Import Base BaseLemmas LayoutModel TensorSpec NdSpec TensorLemmas NdLemmas OpsModel OpsProofs4 ShapeModel ShapeProofs3 ShapeProofs4 ShapeProps BinModel BinProofs2 FactoryProps BcProps PartSpec PartModel.
Open Scope Z_scope.

(** ** the dictionary *)
Lemma get_set_same {B} (d : list (list Z * B)) k v : dict_get (dict_set d k v) k = Some v.
Proof.
  induction d as [|[k' v'] d IH]; cbn; [now rewrite (proj2 (eqb_idx_eq k k) eq_refl)|].
  destruct (eqb_idx k k') eqn:E; cbn; rewrite E; auto.
Qed.
Lemma set_fresh {B} (d : list (list Z * B)) k v : ~ In k (map fst d) -> dict_set d k v = d ++ [(k, v)].
Proof.
  induction d as [|[k' v'] d IH]; cbn; intros H; [auto|].
  destruct (eqb_idx k k') eqn:E; [apply eqb_idx_eq in E; subst; tauto|]. rewrite IH; auto.
Qed.
(** all keys different: the dictionary lists them in order *)
Lemma fold_fresh {B} (f : nat -> list Z) (g : nat -> B) l : NoDup (map f l) -> forall d, (forall q, In q l -> ~ In (f q) (map fst d)) ->
  fold_left (fun d q => dict_set d (f q) (g q)) l d = d ++ map (fun q => (f q, g q)) l.
Proof.
  induction l as [|q l IH]; intros HN d Hd; cbn [fold_left map]; [now rewrite app_nil_r|].
  inversion HN as [|? ? H1 H2]; subst. rewrite set_fresh by (apply Hd; now left).
  rewrite IH; [now rewrite <- app_assoc|auto|].
  intros q' Hq. rewrite map_app, in_app_iff. intros [H|[H|[]]]; [apply (Hd q'); [now right|auto]|].
  apply H1. cbn in H. rewrite H. now apply in_map.
Qed.
Lemma last_from {B} (l : list B) : forall a d, last (a :: l) d = last l a.
Proof. induction l as [|b l IH]; intros a d; [reflexivity|]. change (last (a :: b :: l) d) with (last (b :: l) d). now rewrite !IH. Qed.
(** one key: the last assignment wins *)
Lemma fold_same {B} (k : list Z) (g : nat -> B) l : forall v, fold_left (fun d q => dict_set d k (g q)) l [(k, v)] = [(k, last (map g l) v)].
Proof.
  induction l as [|q l IH]; intros v; cbn [fold_left map]; [auto|]. unfold dict_set at 2. rewrite (proj2 (eqb_idx_eq k k) eq_refl), IH.
  now rewrite last_from.
Qed.

Section KEY.
Context {A : Type}.
Variables (x : dnd A) (s : nat).
Hypothesis Hs : d_split x = Some s.
Hypothesis Hlt : (s < length (d_gshape x))%nat.
Lemma key_nth q : nth s (key x q) 0 = Z.of_nat q.
Proof. unfold key. rewrite Hs. apply upd_same. now rewrite repeat_length. Qed.
Lemma key_nodup n : NoDup (map (key x) (seq 0 n)).
Proof.
  apply FinFun.Injective_map_NoDup; [|apply seq_NoDup]. intros a b E. apply (f_equal (fun l => nth s l 0)) in E. rewrite !key_nth in E. lia.
Qed.
Lemma parts_split prec r : pd_parts (partition_interface prec x r) = map (fun q => (key x q, entry prec x r q)) (seq 0 (length (d_locals x))).
Proof. cbn [partition_interface pd_parts]. now rewrite fold_fresh; [|apply key_nodup|intros q _ []]. Qed.
Lemma dict_get_split prec r q : (q < length (d_locals x))%nat -> dict_get (pd_parts (partition_interface prec x r)) (key x q) = Some (entry prec x r q).
Proof.
  intros Hq. rewrite parts_split. assert (G : forall l, In q l -> dict_get (map (fun q => (key x q, entry prec x r q)) l) (key x q) = Some (entry prec x r q)).
  { induction l as [|a l IH]; intros HI; [destruct HI|]. cbn. destruct (eqb_idx (key x q) (key x a)) eqn:E.
    - apply eqb_idx_eq in E. apply (f_equal (fun l => nth s l 0)) in E. rewrite !key_nth in E. assert (q = a) as -> by lia. auto.
    - destruct HI as [->|HI]; [rewrite (proj2 (eqb_idx_eq _ _) eq_refl) in E; discriminate E|auto]. }
  apply G. apply in_seq. lia.
Qed.
End KEY.
Lemma parts_none {A} (x : dnd A) prec r : d_split x = None -> (0 < length (d_locals x))%nat ->
  pd_parts (partition_interface prec x r) = [(repeat 0 (length (d_gshape x)), entry prec x r (length (d_locals x) - 1))].
Proof.
  intros Hs HP. cbn [partition_interface pd_parts]. unfold key. rewrite Hs. destruct (length (d_locals x)) as [|P]; [lia|].
  cbn [seq fold_left dict_set]. rewrite fold_same. f_equal. f_equal. replace (S P - 1)%nat with P by lia.
  change (last (map (entry prec x r) (seq 1 P)) (entry prec x r 0) = entry prec x r P). rewrite <- last_from with (d := entry prec x r 0).
  change (entry prec x r 0 :: map (entry prec x r) (seq 1 P)) with (map (entry prec x r) (seq 0 (S P))). rewrite seq_S, map_app. cbn [map]. now rewrite last_last.
Qed.

(** ** boxes *)
Lemma zadd_zeros i : zadd (repeat 0 (length i)) i = i.
Proof. induction i as [|a i IH]; cbn; [auto|]. f_equal; auto. Qed.
Lemma zadd_move i : forall s o, (s < length i)%nat -> zadd (upd (repeat 0 (length i)) s o) i = move_axis_idx s o i.
Proof.
  unfold move_axis_idx. induction i as [|a i IH]; intros [|s] o H; cbn in H; try lia; cbn.
  - f_equal; [lia|apply zadd_zeros].
  - rewrite IH by lia. auto.
Qed.
Lemma in_bounds_nth sh idx : in_bounds sh idx <-> length idx = length sh /\ forall k, (k < length sh)%nat -> 0 <= nth k idx 0 < nth k sh 0.
Proof.
  split.
  - intros H. induction H as [|n i sh idx H1 H2 [IH1 IH2]]; cbn; [split; [auto|lia]|]. split; [lia|]. intros [|k] Hk; auto. apply IH2. lia.
  - revert idx; induction sh as [|n sh IH]; intros [|i idx] [H1 H2]; cbn in H1; try lia; constructor; [apply (H2 0%nat); cbn; lia|].
    apply IH. split; [lia|]. intros k Hk. apply (H2 (S k)). cbn. lia.
Qed.
Lemma in_box_bounds st sh idx : in_box st sh idx -> length st = length idx /\ length sh = length idx.
Proof. intros (H1 & H2 & _). auto. Qed.
Lemma zeros_nth n k : nth k (repeat 0 n) 0 = 0.
Proof. revert k; induction n as [|n IH]; intros [|k]; cbn; auto. Qed.
Lemma ones_nth n k : (k < n)%nat -> nth k (repeat 1 n) 0 = 1.
Proof. revert k; induction n as [|n IH]; intros [|k] H; cbn; auto; try lia. apply IH; lia. Qed.
Lemma stored_small p z : z < 2 ^ p -> stored (Some p) z = z.
Proof. intros H. unfold stored. destruct (Z.ltb_spec z (2 ^ p)); [auto|lia]. Qed.

(** the extents of the split axis fit the precision of the array's type *)
Definition fits (prec : option Z) (n : Z) : Prop := match prec with None => True | Some p => n < 2 ^ p end.

Section SPLIT.
Context {A : Type}.
Variables (x : dnd A) (s : nat) (cnts : list Z) (G : list Z -> A).
Hypothesis Hs : d_split x = Some s.
Hypothesis HR : rep x cnts G.
Lemma S_lt : (s < length (d_gshape x))%nat.
Proof. unfold rep, represents in HR. rewrite Hs in HR. apply HR. Qed.
Lemma S_cnts : length (d_locals x) = length cnts /\ Forall (fun c => 0 <= c) cnts /\ zsum cnts = nth s (d_gshape x) 0.
Proof. unfold rep, represents in HR. rewrite Hs in HR. tauto. Qed.
Lemma S_loc q t : nth_error (d_locals x) q = Some t -> agrees t (upd (d_gshape x) s (nth q cnts 0)) (fun idx => G (move_axis_idx s (zsum (firstn q cnts)) idx)).
Proof. unfold rep, represents in HR. rewrite Hs in HR. apply HR. Qed.
Lemma lmap_row q : (q < length cnts)%nat -> nth q (lmap x) [] = upd (d_gshape x) s (nth q cnts 0).
Proof.
  intros Hq. destruct S_cnts as (HL & _ & HS). unfold lmap. rewrite Hs. destruct (Nat.ltb_spec 1 (length (d_locals x))).
  - destruct (nth_error (d_locals x) q) as [t|] eqn:E; [|apply nth_error_None in E; lia]. destruct (S_loc q t E) as [S1 _].
    rewrite <- S1. apply nth_error_nth. now rewrite nth_error_map, E.
  - destruct cnts as [|c [|? ?]]; cbn [length] in *; try lia. assert (q = 0)%nat as -> by lia. rewrite HL. cbn. symmetry. apply upd_same_list. cbn in HS. lia.
Qed.
Lemma lmap_len : length (lmap x) = length cnts.
Proof. destruct S_cnts as (HL & _). unfold lmap. rewrite Hs. destruct (1 <? _)%nat; [now rewrite map_length|now rewrite repeat_length]. Qed.
Lemma lmap_col : map (fun row => nth s row 0) (lmap x) = cnts.
Proof.
  apply (@nth_ext2 _ _ _ 0); [rewrite map_length; apply lmap_len|]. intros q Hq. rewrite map_length, lmap_len in Hq.
  rewrite nth_indep with (d' := nth s (@nil Z) 0) by (rewrite map_length, lmap_len; auto). rewrite (map_nth (fun row => nth s row 0)).
  rewrite lmap_row by auto. apply upd_same, S_lt.
Qed.
Lemma prefix_le q : 0 <= zsum (firstn q cnts) <= nth s (d_gshape x) 0.
Proof.
  destruct S_cnts as (_ & Hc & <-). clear -Hc. revert q. induction Hc as [|c l H1 H2 IH]; intros [|q]; cbn; try lia.
  - specialize (IH 0%nat). cbn in IH. unfold zsum in *. lia.
  - specialize (IH q). fold (zsum l) (zsum (firstn q l)). lia.
Qed.
Lemma start_ok prec q : fits prec (nth s (d_gshape x) 0) -> start_row prec x q = upd (repeat 0 (length (d_gshape x))) s (zsum (firstn q cnts)).
Proof.
  intros HF. unfold start_row. rewrite Hs, lmap_col. f_equal. destruct prec as [p|]; [|reflexivity]. apply stored_small. cbn in HF. pose proof (prefix_le q). lia.
Qed.
Lemma entry_holds prec r q t : fits prec (nth s (d_gshape x) 0) -> nth_error (d_locals x) q = Some t -> holds_box G (p_start (entry prec x r q)) (p_shape (entry prec x r q)) t.
Proof.
  intros HF E. destruct S_cnts as (HL & _). assert (Hq : (q < length cnts)%nat) by (rewrite <- HL; apply nth_error_Some; congruence).
  cbn [entry p_start p_shape]. rewrite start_ok, lmap_row by auto. destruct (S_loc q t E) as [S1 S2]. split; [auto|]. intros i Hi.
  rewrite S2 by auto. f_equal. apply in_bounds_nth in Hi as [Li _]. rewrite upd_length in Li. rewrite <- Li. symmetry. apply zadd_move. rewrite Li. apply S_lt.
Qed.
Lemma in_entry prec r q idx : fits prec (nth s (d_gshape x) 0) -> (q < length cnts)%nat -> in_bounds (d_gshape x) idx ->
  in_box (p_start (entry prec x r q)) (p_shape (entry prec x r q)) idx <-> zsum (firstn q cnts) <= nth s idx 0 < zsum (firstn q cnts) + nth q cnts 0.
Proof.
  intros HF Hq HI. cbn [entry p_start p_shape]. rewrite start_ok, lmap_row by auto. pose proof S_lt as Hlt. apply in_bounds_nth in HI as [LI HI].
  unfold in_box. rewrite !upd_length, repeat_length. split.
  - intros (_ & _ & H). specialize (H s ltac:(lia)). rewrite !upd_same in H by (rewrite ?repeat_length; lia). auto.
  - intros H. split; [auto|]. split; [auto|]. intros k Hk. destruct (Nat.eq_dec k s) as [->|N].
    + rewrite !upd_same by (rewrite ?repeat_length; lia). auto.
    + rewrite !upd_other by auto. rewrite zeros_nth. specialize (HI k ltac:(lia)). lia.
Qed.
End SPLIT.

Lemma prefix_mono cnts : Forall (fun c => 0 <= c) cnts -> forall a b, (a < b)%nat -> (b <= length cnts)%nat -> zsum (firstn a cnts) + nth a cnts 0 <= zsum (firstn b cnts).
Proof.
  induction 1 as [|c l H1 H2 IH]; intros [|a] [|b] H H'; cbn in H'; try lia; cbn.
  - assert (0 <= zsum (firstn b l)); [|fold (zsum (firstn b l)); lia]. clear -H2. revert b. induction H2; intros [|b]; cbn; try lia. specialize (IHForall b). fold (zsum (firstn b l)). lia.
  - specialize (IH a b ltac:(lia) ltac:(lia)). fold (zsum (firstn a l)) (zsum (firstn b l)). lia.
Qed.

(** For every distribution of the array over the processes and every process r, the dictionary
    returned on r names the global shape; its tiling has one cell per process along the split axis
    (one cell in all without split); the keys are the cells of the tiling; every global index lies in
    the box of exactly one partition; the process named as its location really holds the elements of
    that box; the dictionary hands out data for the process's own partition, and only for it when the
    array is split, and those data are the elements of the box. *)
Theorem C95_partitions : forall (A : Type) (x : dnd A) (cnts : list Z) (G : list Z -> A) (prec : option Z) (r : nat),
  rep x cnts G -> (r < length (d_locals x))%nat ->
  (forall s, d_split x = Some s -> fits prec (nth s (d_gshape x) 0)) ->
  let d := partition_interface prec x r in
  let ps := pd_parts d in
  pd_shape d = d_gshape x /\
  (length (pd_tiling d) = length (d_gshape x) /\
   forall k, (k < length (d_gshape x))%nat -> nth k (pd_tiling d) 0 = if same_split (d_split x) (Some k) then Z.of_nat (length (d_locals x)) else 1) /\
  NoDup (map fst ps) /\ (forall k, In k (map fst ps) <-> in_bounds (pd_tiling d) k) /\
  (forall idx, in_bounds (d_gshape x) idx ->
     exists e, In e ps /\ in_box (p_start (snd e)) (p_shape (snd e)) idx /\ forall e', In e' ps -> in_box (p_start (snd e')) (p_shape (snd e')) idx -> e' = e) /\
  (forall e, In e ps -> exists t, nth_error (d_locals x) (p_loc (snd e)) = Some t /\ holds_box G (p_start (snd e)) (p_shape (snd e)) t) /\
  (forall e t, In e ps -> p_data (snd e) = Some t -> holds_box G (p_start (snd e)) (p_shape (snd e)) t /\ (d_split x <> None -> p_loc (snd e) = r)) /\
  (exists k p, pd_locals d = [k] /\ dict_get ps k = Some p /\ p_data p = nth_error (d_locals x) r).
Proof.
  intros A x cnts G prec r HR Hr HF d ps. split; [reflexivity|]. destruct (d_split x) as [s|] eqn:Hs.
  - pose proof (S_lt x s cnts G Hs HR) as Hlt. destruct (S_cnts x s cnts G Hs HR) as (HL & Hc & HS). specialize (HF s eq_refl).
    assert (Eps : ps = map (fun q => (key x q, entry prec x r q)) (seq 0 (length (d_locals x)))) by (apply (parts_split x s Hs Hlt)).
    assert (Inps : forall e, In e ps <-> exists q, (q < length (d_locals x))%nat /\ e = (key x q, entry prec x r q)).
    { intros e. rewrite Eps, in_map_iff. split; [intros (q & <- & H); apply in_seq in H; exists q; split; [lia|auto]|intros (q & H & ->); exists q; split; [auto|apply in_seq; lia]]. }
    assert (Et : pd_tiling d = upd (repeat 1 (length (d_gshape x))) s (Z.of_nat (length (d_locals x)))) by (unfold d, partition_interface; cbn [pd_tiling]; now rewrite Hs).
    split; [|split; [|split; [|split; [|split; [|split]]]]].
    + rewrite Et, upd_length, repeat_length. split; [auto|]. intros k Hk. cbn [same_split]. destruct (Nat.eqb_spec s k) as [->|N].
      * apply upd_same. now rewrite repeat_length.
      * rewrite upd_other by auto. now apply ones_nth.
    + rewrite Eps, map_map. cbn [fst]. apply (key_nodup x s Hs Hlt).
    + intros k. rewrite Eps, map_map. cbn [fst]. rewrite in_map_iff, Et, in_bounds_upd_shape by (now rewrite repeat_length). rewrite repeat_length. split.
      * intros (q & <- & Hq). apply in_seq in Hq. rewrite (key_nth x s Hs Hlt). split; [unfold key; rewrite Hs; now rewrite upd_length, repeat_length|]. split; [lia|].
        intros k Hk N. unfold key. rewrite Hs, upd_other, zeros_nth, ones_nth by auto. lia.
      * intros (L & H1 & H2). exists (Z.to_nat (nth s k 0)). split; [|apply in_seq; lia]. unfold key. rewrite Hs.
        apply (@nth_ext2 _ _ _ 0); [now rewrite upd_length, repeat_length|]. intros j Hj. rewrite upd_length, repeat_length in Hj. destruct (Nat.eq_dec j s) as [->|N].
        -- rewrite upd_same by (now rewrite repeat_length). lia.
        -- rewrite upd_other, zeros_nth by auto. specialize (H2 j Hj N). rewrite ones_nth in H2 by auto. lia.
    + intros idx HI. assert (Hz : 0 <= nth s idx 0 < zsum cnts) by (rewrite HS; apply in_bounds_nth in HI as [_ HI]; auto).
      pose proof (owner_spec cnts (nth s idx 0) Hc Hz) as OS. destruct (owner cnts (nth s idx 0)) as [q y]. destruct OS as (Hq & Ey & Hy).
      exists (key x q, entry prec x r q). split; [apply Inps; exists q; split; [lia|auto]|]. cbn [snd]. split; [apply (in_entry x s cnts G Hs HR); auto; lia|].
      intros e He. apply Inps in He as (q' & Hq' & ->). cbn [snd]. intros Hb. apply (in_entry x s cnts G Hs HR) in Hb; auto; [|lia].
      destruct (Nat.lt_trichotomy q q') as [H|[->|H]]; [|auto|]; exfalso.
      * pose proof (prefix_mono cnts Hc q q' H ltac:(lia)). lia.
      * pose proof (prefix_mono cnts Hc q' q H ltac:(lia)). lia.
    + intros e He. apply Inps in He as (q & Hq & ->). cbn [snd]. destruct (nth_error (d_locals x) q) as [t|] eqn:E; [|apply nth_error_None in E; lia].
      exists t. split; [exact E|]. apply (entry_holds x s cnts G Hs HR); auto.
    + intros e t He. apply Inps in He as (q & Hq & ->). cbn [snd]. unfold entry at 1. cbn [p_data]. rewrite Hs. destruct (Nat.eqb_spec q r) as [->|N]; [|discriminate].
      intros E. split; [apply (entry_holds x s cnts G Hs HR); auto|]. intros _. reflexivity.
    + exists (key x r), (entry prec x r r). split; [unfold d, partition_interface; cbn [pd_locals]; now rewrite Hs|]. split; [apply (dict_get_split x s Hs Hlt); auto|].
      unfold entry. cbn [p_data]. now rewrite Hs, Nat.eqb_refl.
  - assert (HR' := HR). unfold rep, represents in HR'. rewrite Hs in HR'. destruct HR' as (HL & Hn & HA).
    assert (Eps : ps = [(repeat 0 (length (d_gshape x)), entry prec x r (length (d_locals x) - 1))]) by (apply parts_none; [auto|lia]).
    assert (Et : pd_tiling d = repeat 1 (length (d_gshape x))) by (unfold d, partition_interface; cbn [pd_tiling]; now rewrite Hs).
    assert (Est : p_start (entry prec x r (length (d_locals x) - 1)) = repeat 0 (length (d_gshape x))) by (unfold entry, start_row; cbn [p_start]; now rewrite Hs).
    assert (Esh : p_shape (entry prec x r (length (d_locals x) - 1)) = d_gshape x).
    { unfold entry, lmap; cbn [p_shape]. rewrite Hs. rewrite nth_indep with (d' := d_gshape x) by (rewrite repeat_length; lia). apply nth_repeat. }
    assert (HB : forall t, In t (d_locals x) -> holds_box G (p_start (entry prec x r (length (d_locals x) - 1))) (p_shape (entry prec x r (length (d_locals x) - 1))) t).
    { intros t Ht. rewrite Est, Esh. destruct (HA t Ht) as [S1 S2]. split; [auto|]. intros i Hi. rewrite S2 by auto. f_equal. apply in_bounds_nth in Hi as [<- _]. now rewrite zadd_zeros. }
    split; [|split; [|split; [|split; [|split; [|split]]]]].
    + rewrite Et, repeat_length. split; [auto|]. intros k Hk. cbn [same_split]. now apply ones_nth.
    + rewrite Eps. cbn. constructor; [auto|constructor].
    + intros k. rewrite Eps, Et. cbn [map fst In]. rewrite in_bounds_nth, repeat_length. split.
      * intros [<-|[]]. rewrite repeat_length. split; [auto|]. intros k Hk. rewrite zeros_nth, ones_nth by auto. lia.
      * intros [L H]. left. apply (@nth_ext2 _ _ _ 0); [now rewrite repeat_length|]. intros j Hj. rewrite repeat_length in Hj. rewrite zeros_nth. specialize (H j Hj). rewrite ones_nth in H by auto. lia.
    + intros idx HI. rewrite Eps. eexists. split; [left; reflexivity|]. split; [|intros e' [<-|[]] _; reflexivity]. cbn [snd]. rewrite Est, Esh.
      apply in_bounds_nth in HI as [LI HI]. unfold in_box. rewrite repeat_length. split; [auto|]. split; [auto|]. intros k Hk. rewrite zeros_nth. specialize (HI k ltac:(lia)). lia.
    + intros e He. rewrite Eps in He. destruct He as [<-|[]]. cbn [snd]. change (p_loc (entry prec x r (length (d_locals x) - 1))) with (length (d_locals x) - 1)%nat.
      destruct (nth_error (d_locals x) (length (d_locals x) - 1)) as [t|] eqn:E; [|apply nth_error_None in E; lia]. exists t. split; [auto|]. apply HB. now apply nth_error_In in E.
    + intros e t He. rewrite Eps in He. destruct He as [<-|[]]. cbn [snd]. unfold entry at 1. cbn [p_data]. rewrite Hs. intros E. split; [apply HB; now apply nth_error_In in E|tauto].
    + exists (repeat 0 (length (d_gshape x))), (entry prec x r (length (d_locals x) - 1)). split; [unfold d, partition_interface, key; cbn [pd_locals]; now rewrite Hs|].
      rewrite Eps. cbn [dict_get]. rewrite (proj2 (eqb_idx_eq _ _) eq_refl). split; [auto|]. unfold entry. cbn [p_data]. now rewrite Hs.
Qed.

(** The offset of a partition beyond 2^24 rows of a float32 array is rounded: the second partition of a
    vector of 2^24 + 3 elements starts at 2^24 + 1 but is reported to start at 2^24, and the last
    element lies in no reported box. *)
Definition big32 : dnd Z := b_arr (cutg [2 ^ 24 + 3] (fun i => nth 0 i 0) 0 [2 ^ 24 + 1; 2] None).
Theorem C95_float_offsets_refuted :
  rep big32 [2 ^ 24 + 1; 2] (fun i => nth 0 i 0) /\
  exists e t, In e (pd_parts (partition_interface (Some 24) big32 1)) /\ p_data (snd e) = Some t /\
    p_start (snd e) = [2 ^ 24] /\ adat t [0] = 2 ^ 24 + 1 /\
    ~ exists e, In e (pd_parts (partition_interface (Some 24) big32 1)) /\ in_box (p_start (snd e)) (p_shape (snd e)) [2 ^ 24 + 2].
Proof.
  split; [apply cutg_rep; cbn; repeat constructor; try lia|].
  assert (E : pd_parts (partition_interface (Some 24) big32 1) = [([0], mk_part [0] [2 ^ 24 + 1] None 0%nat); ([1], mk_part [2 ^ 24] [2] (nth_error (d_locals big32) 1) 1%nat)]) by reflexivity.
  rewrite E. eexists. eexists. split; [right; left; reflexivity|]. split; [reflexivity|]. split; [reflexivity|]. split; [reflexivity|].
  intros (e & [<-|[<-|[]]] & _ & _ & H); specialize (H 0%nat ltac:(cbn; lia)); cbn in H; lia.
Qed.

(** ** from_partitioned *)
(** The tensor of every process is taken over unchanged; split and balanced as stated. *)
Lemma helper_ok {A} (P : nat) (d : pdict A) k p t : pd_locals d = [k] -> dict_get (pd_parts d) k = Some p -> p_data p = Some t -> length (ash t) = length (pd_shape d) ->
  (forall a b, (a < length (pd_shape d))%nat -> (b < length (pd_shape d))%nat -> nth a (ash t) 0 <> nth a (pd_shape d) 0 -> nth b (ash t) 0 <> nth b (pd_shape d) 0 -> a = b) ->
  exists split bal, from_partition_dict P d = Ok (mk_built t (pd_shape d) split bal) /\
    (bal = true <-> forall e, In e (pd_parts d) -> p_shape (snd e) = chunk_lshape P (pd_shape d) split (p_loc (snd e))) /\
    match split with Some a => (a < length (pd_shape d))%nat /\ nth a (ash t) 0 <> nth a (pd_shape d) 0 | None => ash t = pd_shape d end.
Proof.
  intros E1 E2 E3 L HU. unfold from_partition_dict. rewrite E1, E2, E3. set (diffs := map _ (combine _ _)).
  assert (Ld : length diffs = length (pd_shape d)) by (unfold diffs; rewrite map_length, combine_length; lia).
  assert (Nd : forall k, (k < length (pd_shape d))%nat -> nth k diffs 0 = nth k (pd_shape d) 0 - nth k (ash t) 0).
  { intros j Hj. unfold diffs. rewrite nth_indep with (d' := (fun gl : Z * Z => fst gl - snd gl) (0, 0)) by (rewrite map_length, combine_length; lia). rewrite (map_nth (fun gl : Z * Z => fst gl - snd gl)), combine_nth by auto. reflexivity. }
  set (nz := filter _ _). assert (Inz : forall j, In j nz <-> (j < length (pd_shape d))%nat /\ nth j (ash t) 0 <> nth j (pd_shape d) 0).
  { intros j. unfold nz. rewrite filter_In, in_seq, Ld. split.
    - intros [H1 H2]. split; [lia|]. rewrite Nd in H2 by lia. destruct (Z.eqb_spec (nth j (pd_shape d) 0 - nth j (ash t) 0) 0); [discriminate H2|lia].
    - intros [H1 H2]. split; [lia|]. rewrite Nd by lia. destruct (Z.eqb_spec (nth j (pd_shape d) 0 - nth j (ash t) 0) 0); [lia|auto]. }
  assert (ND : NoDup nz) by (apply NoDup_filter, seq_NoDup).
  assert (Hbal : forall split, forallb (fun e => eqb_idx (chunk_lshape P (pd_shape d) split (p_loc (snd e))) (p_shape (snd e))) (pd_parts d) = true <-> forall e, In e (pd_parts d) -> p_shape (snd e) = chunk_lshape P (pd_shape d) split (p_loc (snd e))).
  { intros split. rewrite forallb_forall. split; intros H e He; [symmetry; now apply eqb_idx_eq, H|apply eqb_idx_eq; symmetry; now apply H]. }
  destruct nz as [|a [|b l]].
  - exists None. eexists. split; [reflexivity|]. split; [apply Hbal|]. apply (@nth_ext2 _ _ _ 0); [auto|]. intros j Hj. destruct (Z.eq_dec (nth j (ash t) 0) (nth j (pd_shape d) 0)) as [|N]; [auto|]. destruct (proj2 (Inz j)); split; [lia|auto].
  - exists (Some a). eexists. split; [reflexivity|]. split; [apply Hbal|]. apply Inz. now left.
  - exfalso. inversion ND as [|? ? H1 H2]; subst. apply H1. destruct (proj1 (Inz a)) as [A1 A2]; [now left|]. destruct (proj1 (Inz b)) as [B1 B2]; [right; now left|].
    rewrite (HU a b A1 B1 A2 B2). now left.
Qed.

(** split of the rebuilt array on a process holding [c] of the [n] rows *)
Definition seen_split (s : nat) (c n : Z) : option nat := if c =? n then None else Some s.
Lemma rebuilt_split {A} (x : dnd A) s cnts G prec r t : d_split x = Some s -> rep x cnts G -> nth_error (d_locals x) r = Some t ->
  exists bal, from_partition_dict (length (d_locals x)) (partition_interface prec x r) = Ok (mk_built t (d_gshape x) (seen_split s (nth r cnts 0) (nth s (d_gshape x) 0)) bal) /\
    (bal = true <-> forall q, (q < length cnts)%nat -> upd (d_gshape x) s (nth q cnts 0) = chunk_lshape (length cnts) (d_gshape x) (seen_split s (nth r cnts 0) (nth s (d_gshape x) 0)) q).
Proof.
  intros Hs HR Et. pose proof (S_lt x s cnts G Hs HR) as Hlt. destruct (S_cnts x s cnts G Hs HR) as (HL & Hc & HS).
  assert (Hr : (r < length (d_locals x))%nat) by (apply nth_error_Some; congruence).
  destruct (S_loc x s cnts G Hs HR r t Et) as [S1 _].
  assert (Hne : forall a, (a < length (d_gshape x))%nat -> nth a (ash t) 0 <> nth a (d_gshape x) 0 -> a = s).
  { intros a Ha N. rewrite S1 in N. destruct (Nat.eq_dec a s) as [|Na]; [auto|]. rewrite upd_other in N by auto. lia. }
  destruct (helper_ok (length (d_locals x)) (partition_interface prec x r) (key x r) (entry prec x r r) t) as (split & bal & E1 & E2 & E3).
  - unfold partition_interface. cbn [pd_locals]. now rewrite Hs.
  - apply (dict_get_split x s Hs Hlt); auto.
  - unfold entry. cbn [p_data]. now rewrite Hs, Nat.eqb_refl.
  - rewrite S1. apply upd_length.
  - intros a b Ha Hb N1 N2. rewrite (Hne a Ha N1), (Hne b Hb N2). auto.
  - change (pd_shape (partition_interface prec x r)) with (d_gshape x) in *.
    assert (split = seen_split s (nth r cnts 0) (nth s (d_gshape x) 0)) as ->.
    { unfold seen_split. destruct split as [a|].
      - destruct E3 as [Ha N]. pose proof (Hne a Ha N) as Ea. subst a. rewrite S1, upd_same in N by auto. destruct (Z.eqb_spec (nth r cnts 0) (nth s (d_gshape x) 0)); [lia|auto].
      - apply (f_equal (fun l => nth s l 0)) in E3. rewrite S1, upd_same in E3 by auto. now rewrite E3, Z.eqb_refl. }
    exists bal. split; [exact E1|]. rewrite E2, (parts_split x s Hs Hlt), HL. split.
    + intros H q Hq. specialize (H (key x q, entry prec x r q)). cbn [snd p_shape p_loc entry] in H. rewrite (lmap_row x s cnts G Hs HR) in H by auto. apply H. apply in_map_iff. exists q. split; [auto|apply in_seq; lia].
    + intros H e He. apply in_map_iff in He as (q & <- & Hq). apply in_seq in Hq. cbn [snd p_shape p_loc entry]. rewrite (lmap_row x s cnts G Hs HR) by lia. apply H. lia.
Qed.

(** No process holds the whole of a distributed array: every process rebuilds the array from its own
    tensor with the same global shape and split, together they represent the same elements, and the
    balanced flag says whether the distribution is the canonical one. *)
Theorem C95_roundtrip_partial : forall (A : Type) (x : dnd A) (cnts : list Z) (G : list Z -> A) (prec : option Z),
  rep x cnts G -> (0 < length (d_locals x))%nat ->
  (forall s, d_split x = Some s -> (1 < length (d_locals x))%nat -> nth s (d_gshape x) 0 <> 0 -> ~ In (nth s (d_gshape x) 0) cnts) ->
  exists (split : option nat) (bal : bool),
    from_partitioned prec x = map (fun t => Ok (mk_built t (d_gshape x) split bal)) (d_locals x) /\
    rep (mk_dnd (d_locals x) (d_gshape x) split) cnts G /\
    ((1 < length (d_locals x))%nat -> (forall s, d_split x = Some s -> nth s (d_gshape x) 0 <> 0) -> split = d_split x) /\
    (bal = true <-> match split with Some s => cnts = zcounts (nth s (d_gshape x) 0) (length cnts) | None => True end).
Proof.
  intros A x cnts G prec HR HP HN. destruct (d_split x) as [s|] eqn:Hs.
  - pose proof (S_lt x s cnts G Hs HR) as Hlt. destruct (S_cnts x s cnts G Hs HR) as (HL & Hc & HS). set (n := nth s (d_gshape x) 0) in *.
    assert (Hall : exists sp, forall q, (q < length cnts)%nat -> seen_split s (nth q cnts 0) n = sp /\ (sp = None -> nth q cnts 0 = n) /\ (sp = None \/ sp = Some s) /\ ((1 < length cnts)%nat -> n <> 0 -> sp = Some s)).
    { destruct (Nat.eq_dec (length cnts) 1) as [L1|L1].
      - exists None. intros q Hq. destruct cnts as [|c [|? ?]]; cbn in L1, Hq; try lia. assert (q = 0)%nat as -> by lia. cbn in HS |- *. unfold seen_split. replace (c =? n) with true by (symmetry; apply Z.eqb_eq; lia). repeat split; auto; lia.
      - destruct (Z.eq_dec n 0) as [N0|N0].
        + exists None. intros q Hq. assert (nth q cnts 0 = n) as E.
          { rewrite N0. pose proof (prefix_mono cnts Hc q (length cnts) Hq (le_n _)) as M. rewrite firstn_all in M. assert (0 <= zsum (firstn q cnts)).
            { rewrite <- (firstn_skipn q cnts), Forall_app in Hc. destruct Hc as [Hc _]. clear -Hc. induction Hc; cbn; [lia|]. unfold zsum in *. lia. }
            rewrite Forall_forall in Hc. specialize (Hc (nth q cnts 0) (nth_In _ _ Hq)). lia. }
          unfold seen_split. rewrite E, Z.eqb_refl. repeat split; auto; lia.
        + exists (Some s). intros q Hq. assert (nth q cnts 0 <> n) as E. { intros E. apply (HN s eq_refl ltac:(lia) N0). fold n. rewrite <- E. apply nth_In; auto. }
          unfold seen_split. destruct (Z.eqb_spec (nth q cnts 0) n); [lia|]. repeat split; auto; discriminate. }
    destruct Hall as (sp & Hall).
    assert (Hlist : exists bal, from_partitioned prec x = map (fun t => Ok (mk_built t (d_gshape x) sp bal)) (d_locals x) /\ (bal = true <-> forall q, (q < length cnts)%nat -> upd (d_gshape x) s (nth q cnts 0) = chunk_lshape (length cnts) (d_gshape x) sp q)).
    { set (Q := forall q, (q < length cnts)%nat -> upd (d_gshape x) s (nth q cnts 0) = chunk_lshape (length cnts) (d_gshape x) sp q).
      assert (Each : forall r t, nth_error (d_locals x) r = Some t -> exists bal, from_partition_dict (length (d_locals x)) (partition_interface prec x r) = Ok (mk_built t (d_gshape x) sp bal) /\ (bal = true <-> Q)).
      { intros r t E. assert (Hr : (r < length cnts)%nat) by (rewrite <- HL; apply nth_error_Some; congruence). destruct (rebuilt_split x s cnts G prec r t Hs HR E) as (bal & E1 & E2). fold n in E1, E2. destruct (Hall r Hr) as [Esp _]. rewrite Esp in E1, E2. exists bal. auto. }
      destruct (nth_error (d_locals x) 0) as [t0|] eqn:E0; [|apply nth_error_None in E0; lia]. destruct (Each 0%nat t0 E0) as (bal & _ & B). exists bal. split; [|exact B].
      unfold from_partitioned. apply (@nth_ext2 _ _ _ (Err OutOfFuel)); [now rewrite !map_length, seq_length|]. intros r Hr. rewrite map_length, seq_length in Hr.
      destruct (nth_error (d_locals x) r) as [t|] eqn:E; [|apply nth_error_None in E; lia]. destruct (Each r t E) as (bal' & E1 & B').
      assert (bal' = bal) as -> by (destruct bal, bal'; auto; [exfalso; assert (Hq : Q) by (now apply B); apply B' in Hq; discriminate Hq|exfalso; assert (Hq : Q) by (now apply B'); apply B in Hq; discriminate Hq]).
      transitivity (from_partition_dict (length (d_locals x)) (partition_interface prec x r)).
      - apply nth_error_nth. rewrite nth_error_map. assert (nth_error (seq 0 (length (d_locals x))) r = Some r) as ->; [|reflexivity]. rewrite (nth_error_nth' _ 0%nat) by (now rewrite seq_length). now rewrite seq_nth.
      - rewrite E1. symmetry. apply nth_error_nth. now rewrite nth_error_map, E. }
    destruct Hlist as (bal & E1 & E2). exists sp, bal. split; [exact E1|].
    assert (Hlen : (0 < length cnts)%nat) by lia. destruct (Hall 0%nat Hlen) as (_ & _ & Hsp & Hd). split; [|split].
    + destruct Hsp as [-> | ->].
      * assert (HR' := HR). unfold rep, represents in HR' |- *. cbn [d_locals d_gshape d_split] in *. rewrite Hs in HR'. destruct HR' as (H1 & H2 & _ & _ & _ & H3). split; [auto|]. split; [auto|].
        intros t Ht. apply In_nth_error in Ht as [r E]. assert (Hr : (r < length cnts)%nat) by (rewrite <- H1; apply nth_error_Some; congruence). destruct (Hall r Hr) as (_ & En & _). specialize (En eq_refl).
        destruct (H3 r t E) as [S1 S2]. assert (upd (d_gshape x) s (nth r cnts 0) = d_gshape x) as EU by (now apply upd_same_list). rewrite EU in *. split; [auto|]. intros idx Hi. rewrite S2 by auto. f_equal.
        unfold move_axis_idx. apply upd_same_list. assert (zsum (firstn r cnts) = 0); [|lia].
        pose proof (prefix_mono cnts Hc r (length cnts) Hr (le_n _)) as M. rewrite firstn_all in M. pose proof (prefix_le x s cnts G Hs HR r). fold n in H. lia.
      * unfold rep in *. cbn [d_locals d_gshape d_split]. now rewrite Hs in HR.
    + intros H1 H2. apply Hd; [lia|]. apply (H2 s eq_refl).
    + rewrite E2. destruct Hsp as [-> | ->].
      * split; [auto|]. intros _ q Hq. cbn [chunk_lshape]. apply upd_same_list. destruct (Hall q Hq) as (_ & En & _). now apply En.
      * cbn [chunk_lshape]. fold n. split.
        -- intros H. apply (@nth_ext2 _ _ _ 0); [unfold zcounts; now rewrite map_length, LayoutProofs.counts_of_length|]. intros q Hq. specialize (H q Hq). apply (f_equal (fun l => nth s l 0)) in H. now rewrite !upd_same in H.
        -- intros <-. auto.
  - assert (HR' := HR). unfold rep, represents in HR'. rewrite Hs in HR'. destruct HR' as (HL & Hn & HA). exists None, true.
    assert (Each : forall r t, nth_error (d_locals x) r = Some t -> from_partition_dict (length (d_locals x)) (partition_interface prec x r) = Ok (mk_built t (d_gshape x) None true)).
    { intros r t E. pose proof (nth_error_In _ _ E) as HI. destruct (HA t HI) as [S1 _].
      destruct (helper_ok (length (d_locals x)) (partition_interface prec x r) (repeat 0 (length (d_gshape x))) (entry prec x r (length (d_locals x) - 1)) t) as (split & bal & E1 & E2 & E3).
      - unfold partition_interface, key. cbn [pd_locals]. now rewrite Hs.
      - rewrite parts_none by auto. cbn [dict_get]. now rewrite (proj2 (eqb_idx_eq _ _) eq_refl).
      - unfold entry. cbn [p_data]. now rewrite Hs.
      - now rewrite S1.
      - intros a b Ha _ N. rewrite S1 in N. now destruct N.
      - change (pd_shape (partition_interface prec x r)) with (d_gshape x) in *. destruct split as [a|]; [destruct E3 as [_ N]; rewrite S1 in N; now destruct N|].
        rewrite E1. f_equal. f_equal. apply E2. rewrite parts_none by auto. intros e [<-|[]]. cbn [snd entry p_shape chunk_lshape]. unfold lmap. rewrite Hs. rewrite nth_indep with (d' := d_gshape x) by (rewrite repeat_length; lia). apply nth_repeat. }
    split; [|split; [exact (eq_ind _ (fun o => represents G (d_gshape x) o cnts (d_locals x)) HR _ Hs)|split; [auto|tauto]]].
    unfold from_partitioned. apply (@nth_ext2 _ _ _ (Err OutOfFuel)); [now rewrite !map_length, seq_length|]. intros r Hr. rewrite map_length, seq_length in Hr.
    destruct (nth_error (d_locals x) r) as [t|] eqn:E; [|apply nth_error_None in E; lia].
    transitivity (from_partition_dict (length (d_locals x)) (partition_interface prec x r)).
    + apply nth_error_nth. rewrite nth_error_map. assert (nth_error (seq 0 (length (d_locals x))) r = Some r) as ->; [|reflexivity]. rewrite (nth_error_nth' _ 0%nat) by (now rewrite seq_length). now rewrite seq_nth.
    + rewrite (Each r t E). symmetry. apply nth_error_nth. now rewrite nth_error_map, E.
Qed.

(** One process holds the single row of a distributed array: it rebuilds an array that is not split
    while the others rebuild one split along axis 0, so the processes disagree on the layout. *)
Theorem C95_disagreement_refuted : forall (A : Type) (x : dnd A) (s : nat) (cnts : list Z) (G : list Z -> A) (prec : option Z) (r q : nat) t u,
  rep x cnts G -> d_split x = Some s -> nth_error (d_locals x) r = Some t -> nth_error (d_locals x) q = Some u ->
  nth r cnts 0 = nth s (d_gshape x) 0 -> nth q cnts 0 <> nth s (d_gshape x) 0 ->
  exists b b', nth_error (from_partitioned prec x) r = Some (Ok (mk_built t (d_gshape x) None b)) /\
               nth_error (from_partitioned prec x) q = Some (Ok (mk_built u (d_gshape x) (Some s) b')).
Proof.
  intros A x s cnts G prec r q t u HR Hs Er Eq N1 N2. destruct (rebuilt_split x s cnts G prec r t Hs HR Er) as (b & E1 & _). destruct (rebuilt_split x s cnts G prec q u Hs HR Eq) as (b' & E2 & _).
  unfold seen_split in E1, E2. rewrite N1, Z.eqb_refl in E1. destruct (Z.eqb_spec (nth q cnts 0) (nth s (d_gshape x) 0)); [lia|].
  exists b, b'. unfold from_partitioned. rewrite !nth_error_map.
  assert (Hn : forall j, (j < length (d_locals x))%nat -> nth_error (seq 0 (length (d_locals x))) j = Some j). { intros j Hj. rewrite (nth_error_nth' _ 0%nat) by (now rewrite seq_length). now rewrite seq_nth. }
  rewrite !Hn by (apply nth_error_Some; congruence). cbn [option_map]. rewrite E1, E2. auto.
Qed.

(** ** the cached dictionary *)
Definition keeps_layout {A} (o : pop A) : Prop := match o with Redistribute _ => False | _ => True end.
Lemma one_process_same {A} prec (x : dnd A) (a b : option nat) r : (length (d_locals x) = 1)%nat -> (r < 1)%nat ->
  let d o := partition_interface prec (mk_dnd (d_locals x) (d_gshape x) o) r in d a = d b.
Proof.
  intros HL Hr d. assert (G : forall o, d o = mk_pdict (d_gshape x) (repeat 1 (length (d_gshape x))) [(repeat 0 (length (d_gshape x)), mk_part (repeat 0 (length (d_gshape x))) (d_gshape x) (nth_error (d_locals x) r) 0%nat)] [repeat 0 (length (d_gshape x))]); [|now rewrite !G].
  intros o. unfold d, partition_interface, key, entry, start_row, lmap. cbn [d_locals d_gshape d_split]. rewrite HL. destruct o as [s|]; [|reflexivity].
  assert (U : upd (repeat 0 (length (d_gshape x))) s 0 = repeat 0 (length (d_gshape x))) by (apply upd_same_list; now rewrite zeros_nth).
  assert (U1 : upd (repeat 1 (length (d_gshape x))) s (Z.of_nat 1) = repeat 1 (length (d_gshape x))).
  { destruct (Nat.ltb_spec s (length (d_gshape x))); [apply upd_same_list; now rewrite ones_nth|apply upd_oob; now rewrite repeat_length]. }
  assert (r = 0)%nat as -> by lia. rewrite U1. cbn [seq fold_left dict_set Nat.eqb Nat.ltb Nat.leb firstn zsum fold_right Z.of_nat nth repeat map].
  assert (Z0 : stored prec 0 = 0).
  { destruct prec as [p|]; [|reflexivity]. cbn [stored]. destruct (0 <? 2 ^ p); [reflexivity|]. set (u := 2 ^ _). assert (0 <= u) by (apply Z.pow_nonneg; lia).
    rewrite Zdiv_0_l, Zmod_0_l. change (2 * 0) with 0. change (Z.odd 0) with false. rewrite andb_false_r. destruct (Z.ltb_spec u 0); [lia|reflexivity]. }
  rewrite Z0, !U. reflexivity.
Qed.
Lemma same_split_eq a b : same_split a b = true -> a = b.
Proof. destruct a, b; cbn; try discriminate; auto. intros H. apply Nat.eqb_eq in H. now subst. Qed.
(** After every history of reads and resplit_ calls the reported dictionary is the one of the current array. *)
Theorem C95_current : forall (A : Type) (prec : option Z) (x : dnd A) (r : nat) (ops : list (pop A)),
  (r < length (d_locals x))%nat -> Forall keeps_layout ops ->
  (forall a new, In (Resplit a new) ops -> length new = length (d_locals x)) ->
  let s := prun prec r x ops in reported prec r s = partition_interface prec (ps_arr s) r.
Proof.
  intros A prec x r ops Hr HF HN s.
  assert (I : forall ops (s : pstate A), (r < length (d_locals (ps_arr s)))%nat -> Forall keeps_layout ops -> (forall a new, In (Resplit a new) ops -> length new = length (d_locals (ps_arr s))) ->
     reported prec r s = partition_interface prec (ps_arr s) r -> let s' := fold_left (pstep prec r) ops s in reported prec r s' = partition_interface prec (ps_arr s') r).
  { clear. induction ops as [|o ops IH]; intros s Hr HF HN HI; [exact HI|]. cbn [fold_left]. inversion HF as [|? ? H1 H2]; subst.
    destruct o as [|a new|new]; [| |destruct H1].
    - apply IH; auto; cbn [pstep].
      + destruct (ps_cache s); auto.
      + intros a new H. destruct (ps_cache s); cbn [ps_arr]; apply (HN a new); now right.
      + unfold reported in *. destruct (ps_cache s) eqn:E; cbn [ps_arr ps_cache]; [rewrite E|]; auto.
    - assert (HL : length new = length (d_locals (ps_arr s))) by (apply (HN a); now left).
      apply IH; auto; cbn [pstep]; cbv zeta; destruct (Nat.eqb_spec (length (d_locals (ps_arr s))) 1) as [E1|E1]; [| | | | |].
      + exact Hr. + destruct (same_split a (d_split (ps_arr s))); [exact Hr|cbn [ps_arr d_locals]; lia].
      + intros a' new' H. cbn [ps_arr d_locals]. apply (HN a' new'). now right.
      + intros a' new' H. destruct (same_split a (d_split (ps_arr s))); cbn [ps_arr d_locals]; [|rewrite HL]; apply (HN a' new'); now right.
      + cbn [ps_arr]. unfold reported in *. cbn [ps_cache ps_arr]. destruct a as [a|]; [|reflexivity]. destruct (ps_cache s) as [d|]; [|reflexivity].
        rewrite HI. destruct (ps_arr s) as [L g sp]. cbn [d_locals d_gshape] in *. apply (one_process_same prec (mk_dnd L g sp) sp (Some a) r E1). lia.
      + destruct (same_split a (d_split (ps_arr s))); [exact HI|reflexivity]. }
  apply I; auto.
Qed.

(** redistribute_ does not clear the cache: after reading the dictionary once and redistributing, the
    dictionary still shows the old layout and hands out the old local arrays. *)
Definition v31 := b_arr (cutg [4] (fun i => nth 0 i 0) 0 [3; 1] None).
Definition v22 := b_arr (cutg [4] (fun i => nth 0 i 0) 0 [2; 2] None).
Theorem C95_stale_refuted :
  rep v31 [3; 1] (fun i => nth 0 i 0) /\ rep v22 [2; 2] (fun i => nth 0 i 0) /\
  let s := prun None 0 v31 [Read; Redistribute (d_locals v22)] in
  ps_arr s = v22 /\
  exists e t, In e (pd_parts (reported None 0 s)) /\ p_loc (snd e) = 0%nat /\ p_data (snd e) = Some t /\ p_shape (snd e) = [3] /\ ash t = [3] /\
    map ash (d_locals (ps_arr s)) = [[2]; [2]].
Proof.
  split; [apply cutg_rep; cbn; repeat constructor; try lia|]. split; [apply cutg_rep; cbn; repeat constructor; try lia|].
  split; [reflexivity|]. eexists. eexists. split; [left; reflexivity|]. repeat split; reflexivity.
Qed.

(** a 3 x 5 matrix cut along the columns as 1, 0, 4 on three processes *)
Definition m35 := b_arr (cutg [3; 5] g2 1 [1; 0; 4] None).
Example C95_instance : rep m35 [1; 0; 4] g2 /\ fits (Some 24) 5 /\
  map (fun e => (fst e, p_start (snd e), p_shape (snd e), p_loc (snd e))) (pd_parts (partition_interface (Some 24) m35 2)) =
    [([0; 0], [0; 0], [3; 1], 0%nat); ([0; 1], [0; 1], [3; 0], 1%nat); ([0; 2], [0; 1], [3; 4], 2%nat)] /\
  map (fun b => match b with Ok b => (b_split b, b_balanced b) | Err _ => (None, true) end) (from_partitioned (Some 24) m35) = [(Some 1%nat, false); (Some 1%nat, false); (Some 1%nat, false)].
Proof. split; [apply cutg_rep; cbn; repeat constructor; try lia|]. split; [cbn; lia|]. split; reflexivity. Qed.
(** one row on two processes: the hypotheses of C95_disagreement_refuted *)
Definition row := b_arr (cutg [1; 2] g2 0 [1; 0] None).
Example C95_disagreement_instance : rep row [1; 0] g2 /\
  map (fun b => match b with Ok b => b_split b | Err _ => None end) (from_partitioned None row) = [None; Some 0%nat].
Proof. split; [apply cutg_rep; cbn; repeat constructor; try lia|reflexivity]. Qed.
(** a history with two reads and two resplits on two processes: the hypotheses of C95_current *)
Example C95_current_instance : let ops := [Read; Resplit None [mk_arr [4] (fun i => nth 0 i 0); mk_arr [4] (fun i => nth 0 i 0)]; Read; Resplit (Some 0%nat) (d_locals v22)] in
  Forall keeps_layout ops /\ map fst (pd_parts (reported None 1 (prun None 1 v31 ops))) = [[0]; [1]] /\ reported None 1 (prun None 1 v31 ops) = partition_interface None v22 1.
Proof. split; [repeat constructor|]. split; reflexivity. Qed.
