(** Lemmas for C90. *)
From Verif Require Import Base ShapeSpec BaseLemmas LayoutModel NdSpec TensorSpec TensorLemmas NdLemmas OpsModel OpsProofs4 RedistModel ShapeModel ShapeProofs3 ShapeProps VmapSpec VmapProofs PtpProofs BinModel BinProofs2 FactoryModel FactoryProps BcProofs OpsProofs5 TraceSpec TraceModel.
Open Scope Z_scope.

Lemma zsum_ext {X} (f g : X -> Z) l : (forall x, In x l -> f x = g x) -> zsum (map f l) = zsum (map g l).
Proof. intros H. f_equal. now apply map_ext_in. Qed.
Lemma zsum_0 {X} (f : X -> Z) l : (forall x, In x l -> f x = 0) -> zsum (map f l) = 0.
Proof. intros H. rewrite (zsum_ext f (fun _ => 0)) by exact H. clear. induction l; [reflexivity|]. exact IHl. Qed.
Lemma zsum_cons a l : zsum (a :: l) = a + zsum l. Proof. reflexivity. Qed.
Lemma zsum_add {X} (f g : X -> Z) l : zsum (map (fun x => f x + g x) l) = zsum (map f l) + zsum (map g l).
Proof. induction l as [|x l IH]; [reflexivity|]. cbn [map]. rewrite !zsum_cons, IH. lia. Qed.
Lemma zsum_exch {X Y} (f : X -> Y -> Z) lx ly : zsum (map (fun x => zsum (map (fun y => f x y) ly)) lx) = zsum (map (fun y => zsum (map (fun x => f x y) lx)) ly).
Proof. induction lx as [|x lx IH]; cbn [map]; [symmetry; now apply zsum_0|]. rewrite zsum_cons, IH, <- zsum_add. apply zsum_ext. intros y _. reflexivity. Qed.

(** a window of 0..n-1 *)
Lemma zsum_window (f : Z -> Z) n lo hi : 0 <= lo <= hi -> hi <= n ->
  zsum (map (fun i => if (lo <=? i) && (i <? hi) then f i else 0) (zr n)) = zsum (map (fun j => f (j + lo)) (zr (hi - lo))).
Proof.
  intros H1 H2. replace n with (lo + ((hi - lo) + (n - hi))) by lia. rewrite zr_app, (zr_app (hi - lo)) by lia. rewrite !map_app, !zsum_app, !map_map.
  rewrite zsum_0. 2:{ intros i Hi. apply in_zr in Hi. rewrite (proj2 (Z.leb_gt lo i)) by lia. reflexivity. }
  rewrite (zsum_0 _ (zr (n - hi))). 2:{ intros i Hi. apply in_zr in Hi. rewrite (proj2 (Z.ltb_ge _ hi)) by lia. now rewrite andb_false_r. }
  rewrite Z.add_0_l, Z.add_0_r. apply zsum_ext. intros i Hi. apply in_zr in Hi. rewrite (proj2 (Z.leb_le lo _)), (proj2 (Z.ltb_lt _ hi)) by lia. cbn. f_equal. lia.
Qed.
(** torch.diagonal lists what the specification sums *)
Lemma diag_pos_sum (F : Z -> Z -> Z) n m k : 0 <= n -> 0 <= m -> zsum (map (fun p => F (fst p) (snd p)) (diag_pos n m k)) = diag_sum F n m k.
Proof.
  intros Hn Hm. unfold diag_pos, diag_sum. rewrite map_map. cbn [fst snd]. set (w := Z.min (n - Z.max 0 (- k)) (m - Z.max 0 k)).
  destruct (Z.le_gt_cases 0 w) as [Hw|Hw].
  - rewrite (zsum_ext (fun i => if (0 <=? i + k) && (i + k <? m) then F i (i + k) else 0) (fun i => if (Z.max 0 (- k) <=? i) && (i <? Z.max 0 (- k) + w) then F i (i + k) else 0)).
    + rewrite zsum_window by lia. replace (Z.max 0 (- k) + w - Z.max 0 (- k)) with w by lia. apply zsum_ext. intros i _. f_equal. lia.
    + intros i Hi. apply in_zr in Hi. destruct (Z.leb_spec 0 (i + k)), (Z.ltb_spec (i + k) m), (Z.leb_spec (Z.max 0 (- k)) i), (Z.ltb_spec i (Z.max 0 (- k) + w)); cbn; try reflexivity; lia.
  - rewrite zr_nonpos by lia. cbn. symmetry. apply zsum_0. intros i Hi. apply in_zr in Hi. destruct (Z.leb_spec 0 (i + k)), (Z.ltb_spec (i + k) m); cbn; try reflexivity; lia.
Qed.
Lemma in_diag_pos n m k p : In p (diag_pos n m k) -> 0 <= fst p < n /\ 0 <= snd p < m /\ snd p = fst p + k.
Proof. unfold diag_pos. intros H. apply in_map_iff in H as (i & <- & Hi). apply in_zr in Hi. cbn. lia. Qed.
Lemma diag_sum_ext (F F' : Z -> Z -> Z) n m k : (forall i j, 0 <= i < n -> 0 <= j < m -> F i j = F' i j) -> diag_sum F n m k = diag_sum F' n m k.
Proof. intros H. apply zsum_ext. intros i Hi. apply in_zr in Hi. destruct (Z.leb_spec 0 (i + k)), (Z.ltb_spec (i + k) m); cbn; auto. Qed.
Lemma loc_trace_ok t o l0 l1 : ash t = [l0; l1] -> 0 <= l0 -> 0 <= l1 -> loc_trace t o = diag_sum (fun i j => adat t [i; j]) l0 l1 o.
Proof.
  intros E H0 H1. rewrite <- diag_pos_sum by auto. unfold loc_trace, diag_pos. rewrite E. cbn [nth]. rewrite map_map. cbn [fst snd].
  destruct (Z.ltb_spec 0 o) as [Ho|Ho]; [|destruct (Z.ltb_spec o 0) as [Ho'|Ho']].
  - destruct (Z.le_gt_cases o l1) as [Hl|Hl].
    + replace (Z.min l0 (l1 - Z.min o l1)) with (Z.min (l0 - Z.max 0 (- o)) (l1 - Z.max 0 o)) by lia. apply zsum_ext. intros i _. repeat (f_equal; try lia).
    + rewrite !zr_nonpos by lia. reflexivity.
  - destruct (Z.le_gt_cases (- o) l0) as [Hl|Hl].
    + replace (Z.min (l0 - Z.min (- o) l0) l1) with (Z.min (l0 - Z.max 0 (- o)) (l1 - Z.max 0 o)) by lia. apply zsum_ext. intros i _. repeat (f_equal; try lia).
    + rewrite !zr_nonpos by lia. reflexivity.
  - assert (o = 0) as -> by lia. replace (Z.min l0 l1) with (Z.min (l0 - Z.max 0 (- 0)) (l1 - Z.max 0 0)) by lia. apply zsum_ext. intros i _. repeat (f_equal; try lia).
Qed.

Lemma Forall_firstn' {X} (Q : X -> Prop) l q : Forall Q l -> Forall Q (firstn q l).
Proof. intros H. revert q. induction H; intros [|q]; cbn; auto. Qed.
(** splitting rows or columns into consecutive blocks *)
Lemma zsum_blocks (f : Z -> Z) (c : list Z) : Forall (fun n => 0 <= n) c ->
  zsum (map (fun r => zsum (map (fun i => f (i + zsum (firstn r c))) (zr (nth r c 0)))) (seq 0 (length c))) = zsum (map f (zr (zsum c))).
Proof.
  intros Hc. assert (GEN : forall q, (q <= length c)%nat -> zsum (map (fun r => zsum (map (fun i => f (i + zsum (firstn r c))) (zr (nth r c 0)))) (seq 0 q)) = zsum (map f (zr (zsum (firstn q c))))).
  { induction q as [|q IH]; intros Hq; [reflexivity|]. rewrite seq_S, map_app, zsum_app, IH by lia. cbn [map Nat.add]. rewrite zsum_firstn_S by lia.
    rewrite zr_app; [|apply zsum_nonneg, Forall_firstn'; auto|rewrite Forall_forall in Hc; apply Hc, nth_In; lia]. rewrite map_app, zsum_app, map_map. f_equal. rewrite zsum_cons. change (zsum []) with 0. rewrite Z.add_0_r. apply zsum_ext. intros i _. f_equal. lia. }
  rewrite GEN by lia. now rewrite firstn_all.
Qed.
Lemma diag_rows (F : Z -> Z -> Z) (c : list Z) m k : Forall (fun n => 0 <= n) c ->
  zsum (map (fun r => diag_sum (fun i j => F (i + zsum (firstn r c)) j) (nth r c 0) m (k + zsum (firstn r c))) (seq 0 (length c))) = diag_sum F (zsum c) m k.
Proof.
  intros Hc. unfold diag_sum. rewrite <- zsum_blocks by exact Hc. apply zsum_ext. intros r _. apply zsum_ext. intros i _. cbn beta. replace (i + (k + zsum (firstn r c))) with (i + zsum (firstn r c) + k) by lia. reflexivity.
Qed.
Lemma in_one_block (c : list Z) (x v : Z) : Forall (fun n => 0 <= n) c ->
  zsum (map (fun r => if (zsum (firstn r c) <=? x) && (x <? zsum (firstn r c) + nth r c 0) then v else 0) (seq 0 (length c))) = if (0 <=? x) && (x <? zsum c) then v else 0.
Proof.
  intros Hc. assert (GEN : forall q, (q <= length c)%nat -> zsum (map (fun r => if (zsum (firstn r c) <=? x) && (x <? zsum (firstn r c) + nth r c 0) then v else 0) (seq 0 q)) = if (0 <=? x) && (x <? zsum (firstn q c)) then v else 0).
  { induction q as [|q IH]; intros Hq; [change (zsum (firstn 0 c)) with 0; destruct (Z.leb_spec 0 x), (Z.ltb_spec x 0); cbn; try reflexivity; lia|].
    rewrite seq_S, map_app, zsum_app, IH by lia. cbn [map Nat.add]. rewrite zsum_cons. change (zsum []) with 0. rewrite zsum_firstn_S by lia.
    assert (0 <= zsum (firstn q c)) by (apply zsum_nonneg, Forall_firstn'; auto). assert (0 <= nth q c 0) by (rewrite Forall_forall in Hc; apply Hc, nth_In; lia).
    destruct (Z.leb_spec 0 x), (Z.ltb_spec x (zsum (firstn q c))), (Z.leb_spec (zsum (firstn q c)) x), (Z.ltb_spec x (zsum (firstn q c) + nth q c 0)); cbn [andb]; lia. }
  rewrite GEN by lia. now rewrite firstn_all.
Qed.
Lemma diag_cols (F : Z -> Z -> Z) (c : list Z) n k : Forall (fun n => 0 <= n) c ->
  zsum (map (fun r => diag_sum (fun i j => F i (j + zsum (firstn r c))) n (nth r c 0) (k - zsum (firstn r c))) (seq 0 (length c))) = diag_sum F n (zsum c) k.
Proof.
  intros Hc. unfold diag_sum. rewrite zsum_exch. apply zsum_ext. intros i _. rewrite <- (in_one_block c (i + k) (F i (i + k)) Hc). apply zsum_ext. intros r _.
  set (o := zsum (firstn r c)). destruct (Z.leb_spec 0 (i + (k - o))), (Z.ltb_spec (i + (k - o)) (nth r c 0)), (Z.leb_spec o (i + k)), (Z.ltb_spec (i + k) (o + nth r c 0)); cbn [andb]; try lia. f_equal. lia.
Qed.

Lemma nthf {X} (l : list X) k i d : (i < k)%nat -> nth i (firstn k l) d = nth i l d.
Proof. revert l i. induction k as [|k IH]; intros [|a l] [|i] H; cbn; auto; try lia. apply IH. lia. Qed.
(** the diagonals of one process, split axis outside the two axes *)
Lemma ins2_b sh b1 b2 i j idx : (b1 < b2)%nat -> (b2 < length sh)%nat -> 0 <= i < nth b1 sh 0 -> 0 <= j < nth b2 sh 0 -> in_bounds (del b1 (del b2 sh)) idx -> in_bounds sh (ins b2 j (ins b1 i idx)).
Proof.
  intros H1 H2 Hi Hj Hx. rewrite <- (upd_self sh b2). apply ins_b; [exact H2|exact Hj|]. pose proof (del_length b2 sh H2) as L.
  assert (E : nth b1 (del b2 sh) 0 = nth b1 sh 0) by (unfold del; rewrite app_nth1 by (rewrite firstn_length; lia); apply nthf; lia).
  rewrite <- (upd_self (del b2 sh) b1). apply ins_b; [lia|rewrite E; exact Hi|exact Hx].
Qed.
Definition at2 (b1 b2 : nat) (i j : Z) (idx : list Z) := ins b2 j (ins b1 i idx).
Lemma diag_sums_ok t sh F k b1 b2 : (b1 < b2)%nat -> (b2 < length sh)%nat -> Forall (fun n => 0 <= n) sh -> agrees t sh F ->
  agrees (diag_sums t k b1 b2) (del b1 (del b2 sh)) (fun idx => diag_sum (fun i j => F (at2 b1 b2 i j idx)) (nth b1 sh 0) (nth b2 sh 0) k).
Proof.
  intros H1 H2 Hn [S D]. unfold diag_sums. rewrite S. split; [reflexivity|]. cbn [adat]. intros idx Hi. rewrite <- diag_pos_sum.
  - apply zsum_ext. intros p Hp. apply in_diag_pos in Hp as (P1 & P2 & _). apply D. now apply ins2_b.
  - rewrite Forall_forall in Hn. apply Hn, nth_In. lia.
  - rewrite Forall_forall in Hn. apply Hn, nth_In. lia.
Qed.
Definition down2 (b1 b2 s : nat) := down b1 (down b2 s).
Lemma del2_upd sh b1 b2 s (v : Z) : (b1 < b2)%nat -> s <> b1 -> s <> b2 -> del b1 (del b2 (upd sh s v)) = upd (del b1 (del b2 sh)) (down2 b1 b2 s) v.
Proof. intros H H1 H2. rewrite del_upd_other by auto. apply del_upd_other. unfold down. destruct (Nat.ltb_spec b2 s); lia. Qed.
Lemma at2_move b1 b2 s i j o idx : (b1 < b2)%nat -> (b2 <= S (length idx))%nat -> s <> b1 -> s <> b2 -> at2 b1 b2 i j (move_axis_idx (down2 b1 b2 s) o idx) = move_axis_idx s o (at2 b1 b2 i j idx).
Proof.
  intros H L H1 H2. unfold at2, move_axis_idx, down2. assert (N : b1 <> down b2 s) by (unfold down; destruct (Nat.ltb_spec b2 s); lia).
  rewrite ins_upd_other by (auto; lia). rewrite ins_upd_other by (auto; rewrite len_ins; lia). f_equal. f_equal. rewrite nth_ins_other by (auto; rewrite len_ins; lia). rewrite nth_ins_other by (auto; lia). reflexivity.
Qed.
Lemma nth_del_other (sh : list Z) b s : (s <> b) -> (b < length sh)%nat -> nth (down b s) (del b sh) 0 = nth s sh 0.
Proof.
  intros H Hb. unfold del, down. destruct (Nat.ltb_spec b s).
  - rewrite app_nth2 by (rewrite firstn_length; lia). rewrite firstn_length, Nat.min_l by lia. destruct s as [|s]; [lia|]. replace (S s - 1 - b)%nat with (s - b)%nat by lia. rewrite nth_skipn_. f_equal. lia.
  - rewrite app_nth1 by (rewrite firstn_length; lia). apply nthf. lia.
Qed.
Lemma traces_represent gsh G k b1 b2 s c ls : (b1 < b2)%nat -> (b2 < length gsh)%nat -> s <> b1 -> s <> b2 -> represents G gsh (Some s) c ls ->
  represents (fun idx => diag_sum (fun i j => G (at2 b1 b2 i j idx)) (nth b1 gsh 0) (nth b2 gsh 0) k) (del b1 (del b2 gsh)) (Some (down2 b1 b2 s)) c (map (fun t => diag_sums t k b1 b2) ls).
Proof.
  intros H1 H2 N1 N2 (L & Hn & Hs & Hc & Hsum & HR). pose proof (del_length b2 gsh H2) as L2. assert (L1 : S (length (del b1 (del b2 gsh))) = length (del b2 gsh)) by (apply del_length; lia).
  assert (D2 : (down b2 s < length (del b2 gsh))%nat /\ b1 <> down b2 s) by (unfold down; destruct (Nat.ltb_spec b2 s); lia).
  split; [now rewrite map_length|]. split; [now apply del_all, del_all|]. split; [unfold down2; unfold down at 1; destruct (Nat.ltb_spec b1 (down b2 s)); lia|]. split; [exact Hc|]. split.
  - rewrite Hsum. unfold down2. rewrite nth_del_other by (auto; lia). symmetry. apply nth_del_other; auto.
  - intros r t Et. rewrite nth_error_map in Et. destruct (nth_error ls r) as [t0|] eqn:E0; [|discriminate Et]. injection Et as <-.
    assert (0 <= nth r c 0) as Hr by (rewrite Forall_forall in Hc; apply Hc, nth_In; rewrite <- L; apply nth_error_Some; congruence).
    assert (Hn' : Forall (fun n => 0 <= n) (upd gsh s (nth r c 0))) by (apply Forall_upd; auto).
    destruct (diag_sums_ok t0 (upd gsh s (nth r c 0)) _ k b1 b2 H1 ltac:(now rewrite upd_length) Hn' (HR r t0 E0)) as [S D]. rewrite del2_upd in S, D by auto. split; [exact S|].
    intros idx Hi. rewrite D by exact Hi. rewrite !upd_other by auto. apply diag_sum_ext. intros i j _ _. f_equal. symmetry. apply at2_move; auto.
    apply in_bounds_length in Hi. rewrite upd_length in Hi. lia.
Qed.
(** the split axis among the two axes *)
Lemma agrees_at2 (t : arr Z) gsh (G : list Z -> Z) b1 b2 s c r F : (b1 < b2)%nat -> (b2 < length gsh)%nat -> (s = b1 \/ s = b2) -> agrees t (upd gsh s (nth r c 0)) (fun idx => G (move_axis_idx s (zsum (firstn r c)) idx)) ->
  F = (fun i j idx => G (if (s =? b1)%nat then at2 b1 b2 (i + zsum (firstn r c)) j idx else at2 b1 b2 i (j + zsum (firstn r c)) idx)) ->
  forall i j idx, 0 <= i < nth b1 (upd gsh s (nth r c 0)) 0 -> 0 <= j < nth b2 (upd gsh s (nth r c 0)) 0 -> in_bounds (del b1 (del b2 gsh)) idx -> adat t (at2 b1 b2 i j idx) = F i j idx.
Proof.
  intros H1 H2 Hs [_ D] -> i j idx Hi Hj Hx. pose proof (del_length b2 gsh H2) as L2. assert (L1 : S (length (del b1 (del b2 gsh))) = length (del b2 gsh)) by (apply del_length; lia).
  assert (Li : length idx = length (del b1 (del b2 gsh))) by (now apply in_bounds_length).
  rewrite D.
  - f_equal. unfold at2. destruct Hs as [-> | ->].
    + rewrite Nat.eqb_refl. unfold move_axis_idx. assert (DN : down b2 b1 = b1) by (unfold down; destruct (Nat.ltb_spec b2 b1); lia).
      rewrite <- DN at 1. rewrite <- ins_upd_other by (try lia; rewrite len_ins; lia). rewrite DN. rewrite nth_ins_other by (try lia; rewrite len_ins; lia). rewrite DN, nth_ins by lia. rewrite upd_ins by lia. reflexivity.
    + rewrite (proj2 (Nat.eqb_neq b2 b1)) by lia. apply move_ins. rewrite len_ins; lia.
  - apply ins2_b; [exact H1|now rewrite upd_length|exact Hi|exact Hj|]. destruct Hs as [-> | ->]; [|now rewrite del_upd].
    rewrite (del_upd_other _ gsh b2 b1) by lia. assert (DN : down b2 b1 = b1) by (unfold down; destruct (Nat.ltb_spec b2 b1); lia). rewrite DN, del_upd. exact Hx.
Qed.
