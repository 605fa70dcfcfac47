(** Lemmas for pad: the ranks together. *)
From Verif Require Import Base BaseLemmas LayoutModel TensorSpec NdSpec TensorLemmas NdLemmas OpsModel OpsProofs2 OpsProofs4 ShapeModel ShapeProps BinModel BinProofs BinProofs2 ReshapeModel ReshapeProofs RollModel RollProofs3 FactoryModel FactoryProps MatmulProofs2 SplitProps PadSpec PadModel PadProofs PadProofs2.
Open Scope Z_scope.

(** Shapes of the padded pieces and what rank-local padding gives, for local widths that agree
    with the global ones along the other axes. *)
Section Piece.
Context {A : Type} (G : list Z -> A) (gsh : list Z) (s : nat) (b e : nat -> Z) (fv sv : nat -> A).
Variables (o o' c bL eL : Z).
Notation n := (length gsh).
Hypothesis Hs : (s < n)%nat.
Hypothesis Hc : 0 <= c.
Hypothesis Ho : 0 <= o /\ o + c <= nth s gsh 0.
Hypothesis Hb : (o = 0 /\ o' = 0 /\ bL = b s) \/ (bL = 0 /\ o' = o + b s).
Hypothesis He : eL = 0 \/ (eL = e s /\ o + c = nth s gsh 0).
Hypothesis Hpos : 0 <= bL /\ 0 <= eL /\ 0 <= b s.
Variables (bw ew : nat -> Z).
Hypothesis Hbw : forall k, (k < n)%nat -> bw k = if (k =? s)%nat then bL else b k.
Hypothesis Hew : forall k, (k < n)%nat -> ew k = if (k =? s)%nat then eL else e k.
Lemma piece_shape : ext_of bw ew (upd gsh s c) = upd (ext_of b e gsh) s (bL + c + eL).
Proof.
  apply (idx_eq _ _ n); [rewrite ext_length, upd_length; auto|rewrite upd_length, ext_length; auto|]. intros k Hk.
  rewrite ext_nth by (now rewrite upd_length). rewrite Hbw, Hew by auto. destruct (Nat.eqb_spec k s) as [->|N].
  - rewrite !upd_same by (rewrite ?ext_length; auto). lia.
  - rewrite !upd_other by auto. rewrite ext_nth by auto. lia.
Qed.
Lemma piece_el (t : arr A) idx : agrees t (upd gsh s c) (fun i => G (move_axis_idx s o i)) -> in_bounds (upd (ext_of b e gsh) s (bL + c + eL)) idx ->
  pel n bw (ash t) (adat t) fv sv idx = pel n b gsh G fv sv (move_axis_idx s o' idx).
Proof.
  intros [St Dt] Hidx. apply in_bounds_upd_shape in Hidx as (LI & Hi & Hk); [|now rewrite ext_length]. rewrite ext_length in *.
  assert (M : forall k, nth k (move_axis_idx s o' idx) 0 = if (k =? s)%nat then nth s idx 0 + o' else nth k idx 0).
  { intros k. unfold move_axis_idx. destruct (Nat.eqb_spec k s) as [->|N]; [apply upd_same; lia|now apply upd_other]. }
  assert (FE : forall k, (k < n)%nat -> frame bw (ash t) idx k = frame b gsh (move_axis_idx s o' idx) k /\ (nth k idx 0 <? bw k) = (nth k (move_axis_idx s o' idx) 0 <? b k)).
  { intros k Hkn. unfold frame. rewrite Hbw, M, St by auto. destruct (Nat.eqb_spec k s) as [->|N].
    - rewrite upd_same by auto. split; lia.
    - rewrite upd_other by auto. auto. }
  unfold pel. rewrite (find_ext n _ _ (fun k Hkn => proj1 (FE k Hkn))). destruct (find _ _) as [k|] eqn:E.
  - apply find_lt in E as [Hkn _]. now rewrite (proj2 (FE k Hkn)).
  - assert (NF : forall k, (k < n)%nat -> frame bw (ash t) idx k = false).
    { intros k Hkn. rewrite (proj1 (FE k Hkn)). apply (find_none _ _ E). rewrite <- in_rev, in_seq. lia. }
    rewrite Dt.
    + f_equal. unfold move_axis_idx at 1. apply (idx_eq _ _ n); [rewrite upd_length, map_length, seq_length; auto|rewrite map_length, seq_length; auto|]. intros k Hkn.
      rewrite (@nth_map_seq _ (fun k => nth k (move_axis_idx s o' idx) 0 - b k)) by auto. rewrite M. destruct (Nat.eqb_spec k s) as [->|N].
      * rewrite upd_same by (rewrite map_length, seq_length; auto). rewrite (@nth_map_seq _ (fun k => nth k idx 0 - bw k)) by auto. rewrite Hbw by auto. rewrite Nat.eqb_refl.
        specialize (FE s Hs). destruct FE as [FE1 FE2]. rewrite Hbw, M, Nat.eqb_refl in FE2 by auto.
        destruct Hb as [(-> & -> & ->)|(-> & ->)]; lia.
      * rewrite upd_other by auto. rewrite (@nth_map_seq _ (fun k => nth k idx 0 - bw k)) by auto. rewrite Hbw by auto. now destruct (Nat.eqb_spec k s).
    + apply in_bounds_nth. rewrite upd_length, map_length, seq_length. split; [auto|]. intros k Hkn. rewrite (@nth_map_seq _ (fun k => nth k idx 0 - bw k)) by auto.
      specialize (NF k Hkn). apply frame_false in NF. rewrite <- St. lia.
Qed.
End Piece.

(** * all ranks of an array split along [s] *)
Lemma add_nth (l1 l2 : list Z) k : length l1 = length l2 -> nth k (zadd l1 l2) 0 = nth k l1 0 + nth k l2 0.
Proof. revert l2 k. induction l1 as [|a l1 IH]; intros [|b l2] [|k] H; cbn in *; try discriminate; try reflexivity. apply IH. lia. Qed.
Lemma zsum_map_add (f g : nat -> Z) l : zsum (map (fun r => f r + g r) l) = zsum (map f l) + zsum (map g l).
Proof. unfold zsum. induction l; cbn; lia. Qed.
Lemma zsum_nths (l : list Z) k : (k <= length l)%nat -> zsum (map (fun r => nth r l 0) (seq 0 k)) = zsum (firstn k l).
Proof. induction k; intros H; [reflexivity|]. rewrite seq_S, map_app, zsum_app, IHk by lia. rewrite zsum_firstn_S by lia. unfold zsum at 2. cbn. lia. Qed.
Lemma zsum_at (q : nat) (v : Z) k : zsum (map (fun r => if (r =? q)%nat then v else 0) (seq 0 k)) = if (q <? k)%nat then v else 0.
Proof.
  induction k; [reflexivity|]. rewrite seq_S, map_app, zsum_app, IHk. unfold zsum at 1. cbn [map fold_right Nat.add].
  destruct (Nat.eqb_spec k q), (Nat.ltb_spec q k), (Nat.ltb_spec q (S k)); lia.
Qed.

Section Ranks.
Context {A : Type} (junk d : A) (G : list Z -> A) (gsh cnts : list Z) (s : nat) (ls : list (arr A)).
Variables (w : list Z) (m : nat) (c : fill_arg A) (vt : list A) (vs : list (A * A)) (ws : list (Z * Z)).
Notation n := (length gsh).
Notation P := (length ls).
Hypothesis HR : represents G gsh (Some s) cnts ls.
Hypothesis HP : (0 < P)%nat.
Hypothesis H1 : Forall (fun z => 1 <= z) gsh.
Hypothesis Lw : length w = (2 * m)%nat.
Hypothesis Hm : (m <= n)%nat.
Hypothesis Wpos : Forall (fun z => 0 <= z) w.
Hypothesis Lws : length ws = n.
Hypothesis Bw : forall k, (k < n)%nat -> before n w k = lo ws k /\ after n w k = hi ws k.
Hypothesis Hc : match one_value c with
  | Some v => vs = repeat (v, v) n
  | None => length vt = (2 * m)%nat /\ forall k, (n - m <= k < n)%nat ->
      nth (2 * (n - 1 - k)) vt d = fst (nth k vs (d, d)) /\ nth (2 * (n - 1 - k) + 1) vt d = snd (nth k vs (d, d))
  end.
Let fv k := fst (nth k vs (d, d)).
Let sv k := snd (nth k vs (d, d)).

Lemma wn i : 0 <= nth i w 0.
Proof. destruct (Nat.lt_ge_cases i (length w)) as [L|L]; [rewrite Forall_forall in Wpos; apply Wpos, nth_In; auto|rewrite nth_overflow by lia; lia]. Qed.
Lemma lo_pos k : (k < n)%nat -> 0 <= lo ws k.
Proof. intros Hk. destruct (Bw k Hk) as [<- _]. apply wn. Qed.
Lemma hi_pos k : (k < n)%nat -> 0 <= hi ws k.
Proof. intros Hk. destruct (Bw k Hk) as [_ <-]. apply wn. Qed.
Lemma padded_shape_ext : padded_shape gsh ws = ext_of (lo ws) (hi ws) gsh.
Proof. unfold padded_shape, ext_of. apply map_ext. intros. lia. Qed.
Lemma out_shape_ext : out_shape gsh w = ext_of (lo ws) (hi ws) gsh.
Proof. unfold out_shape, ext_of. apply map_ext_in. intros k Hk. apply in_seq in Hk. destruct (Bw k) as [-> ->]; [lia|auto]. Qed.

(** the widths along the split axis of the rank that holds them: the beginning belongs to rank
    0, the end to rank [q] *)
Definition owner_counts (q : nat) : list Z := map (fun r => nth r cnts 0 + ((if (r =? 0)%nat then lo ws s else 0) + (if (r =? q)%nat then hi ws s else 0))) (seq 0 P).

Lemma len_cnts : length cnts = P. Proof. destruct HR as (L & _). lia. Qed.
Lemma owner_prefix q r : (r <= P)%nat -> zsum (firstn r (owner_counts q)) = zsum (firstn r cnts) + (if (0 <? r)%nat then lo ws s else 0) + (if (q <? r)%nat then hi ws s else 0).
Proof.
  intros Hr. rewrite <- (zsum_nths (owner_counts q)) by (unfold owner_counts; rewrite map_length, seq_length; lia).
  rewrite (map_ext_in _ (fun r => nth r cnts 0 + ((if (r =? 0)%nat then lo ws s else 0) + (if (r =? q)%nat then hi ws s else 0)))).
  2:{ intros k Hk. apply in_seq in Hk. unfold owner_counts. rewrite (@nth_map_seq _ (fun r => nth r cnts 0 + ((if (r =? 0)%nat then lo ws s else 0) + (if (r =? q)%nat then hi ws s else 0)))) by lia. auto. }
  rewrite (zsum_map_add (fun r => nth r cnts 0) (fun r => (if (r =? 0)%nat then lo ws s else 0) + (if (r =? q)%nat then hi ws s else 0))).
  rewrite (zsum_map_add (fun r => if (r =? 0)%nat then lo ws s else 0) (fun r => if (r =? q)%nat then hi ws s else 0)).
  rewrite !zsum_at, zsum_nths by (rewrite len_cnts; lia). lia.
Qed.

(** what every rank has to deliver *)
Definition rank_ok (q r : nat) (y : arr A) : Prop :=
  agrees y (upd (padded_shape gsh ws) s (nth r (owner_counts q) 0)) (fun idx => padded G gsh ws vs d (move_axis_idx s (zsum (firstn r (owner_counts q))) idx)).

Lemma empty_rank q r t : nth_error ls r = Some t -> nth r cnts 0 = 0 -> (r = 0%nat -> lo ws s = 0) -> (r = q -> hi ws s = 0) ->
  exists y, pad_rank junk gsh (Some s) P w c vt r t = Ok y /\ rank_ok q r y.
Proof.
  intros Ht Z0 N0 Nq. destruct HR as (HL & _ & Hs & Hcp & Hsum & HRr). destruct (HRr r t Ht) as [St _].
  assert (Hr : (r < P)%nat) by (apply nth_error_Some; congruence).
  unfold pad_rank. replace (existsb (Z.eqb 0) (ash t)) with true.
  2:{ symmetry. apply existsb_exists. exists 0. split; [|auto]. rewrite St, Z0. rewrite <- (upd_same gsh 0 0 Hs) at 1. apply nth_In. now rewrite upd_length. }
  eexists. split; [reflexivity|]. unfold rank_ok.
  assert (E0 : nth r (owner_counts q) 0 = 0).
  { unfold owner_counts. rewrite (@nth_map_seq _ (fun r => nth r cnts 0 + ((if (r =? 0)%nat then lo ws s else 0) + (if (r =? q)%nat then hi ws s else 0)))) by auto.
    rewrite Z0. destruct (Nat.eqb_spec r 0), (Nat.eqb_spec r q); lia. }
  split; cbn [ash adat]; [now rewrite out_shape_ext, padded_shape_ext, E0|].
  intros idx Hidx. exfalso. rewrite E0 in Hidx. apply in_bounds_upd_shape in Hidx as (_ & Hi & _); [lia|]. unfold padded_shape. rewrite map_length, seq_length. auto.
Qed.

Lemma full_rank q r t wr : nth_error ls r = Some t -> 1 <= nth r cnts 0 ->
  (forall r', (q < r' < P)%nat -> nth r' cnts 0 = 0) -> (q < P)%nat ->
  length wr = (2 * m)%nat -> Forall (fun z => 0 <= z) wr ->
  (forall k, (k < n)%nat -> k <> s -> before n wr k = lo ws k /\ after n wr k = hi ws k) ->
  before n wr s = (if (r =? 0)%nat then lo ws s else 0) -> after n wr s = (if (r =? q)%nat then hi ws s else 0) ->
  exists y, pad_local n t wr c vt = Ok y /\ rank_ok q r y.
Proof.
  intros Ht C1 HZ Hq Lr Pr Br Bs As. pose proof HR as (HL & _ & Hs & Hcp & Hsum & HRr). pose proof (HRr r t Ht) as AG. pose proof AG as [St _].
  assert (Hr : (r < P)%nat) by (apply nth_error_Some; congruence).
  assert (Lt : length (ash t) = n) by (rewrite St; apply upd_length).
  assert (Tp : Forall (fun z => 0 <= z) (ash t)).
  { rewrite St. apply Forall_nth. intros k d0 Hk. rewrite upd_length in Hk. rewrite (nth_indep _ d0 0) by (now rewrite upd_length). destruct (Nat.eq_dec k s) as [->|N].
    - rewrite upd_same by auto. lia.
    - rewrite upd_other by auto. rewrite Forall_forall in H1. specialize (H1 (nth k gsh 0) ltac:(apply nth_In; auto)). lia. }
  destruct (pad_local_ok t n m wr c vt vs d Lt Tp Lr Hm Pr Hc) as (y & E & Sy & Dy). exists y. split; [exact E|].
  assert (LE : zsum (firstn (S r) cnts) <= nth s gsh 0) by (rewrite <- Hsum; now apply zsum_firstn_le). rewrite zsum_firstn_S in LE by (rewrite len_cnts; auto).
  assert (GE : 0 <= zsum (firstn r cnts)) by (apply (zsum_firstn_mono cnts 0 r Hcp); lia).
  assert (OC : nth r (owner_counts q) 0 = nth r cnts 0 + ((if (r =? 0)%nat then lo ws s else 0) + (if (r =? q)%nat then hi ws s else 0))).
  { unfold owner_counts. now rewrite (@nth_map_seq _ (fun r => nth r cnts 0 + ((if (r =? 0)%nat then lo ws s else 0) + (if (r =? q)%nat then hi ws s else 0)))) by auto. }
  assert (OP := owner_prefix q r ltac:(lia)).
  assert (NQ : (r <= q)%nat) by (destruct (Nat.le_gt_cases r q); [auto|specialize (HZ r ltac:(lia)); lia]).
  assert (TAIL : r = q -> zsum (firstn r cnts) + nth r cnts 0 = nth s gsh 0).
  { intros ->. rewrite <- Hsum. rewrite <- zsum_firstn_S by (rewrite len_cnts; auto). clear - HZ HL Hcp.
    assert (HE : forall k, (S q <= k <= length cnts)%nat -> zsum (firstn k cnts) = zsum (firstn (S q) cnts)).
    { induction k; intros Hk; [lia|]. destruct (Nat.eq_dec (S q) (S k)) as [->|]; [auto|]. rewrite zsum_firstn_S by lia. rewrite IHk by lia. rewrite HZ by lia. lia. }
    destruct (Nat.le_gt_cases (S q) (length cnts)) as [L|L].
    - rewrite <- (HE (length cnts)) by lia. now rewrite firstn_all.
    - now rewrite firstn_all2 by lia. }
  pose proof (lo_pos s Hs) as LP. pose proof (hi_pos s Hs) as HPp.
  set (bL := if (r =? 0)%nat then lo ws s else 0) in *. set (eL := if (r =? q)%nat then hi ws s else 0) in *.
  assert (PB : (zsum (firstn r cnts) = 0 /\ zsum (firstn r (owner_counts q)) = 0 /\ bL = lo ws s) \/ (bL = 0 /\ zsum (firstn r (owner_counts q)) = zsum (firstn r cnts) + lo ws s)).
  { unfold bL. rewrite OP. destruct (Nat.eqb_spec r 0) as [->|N].
    - left. cbn [firstn]. destruct (Nat.ltb_spec q 0); [lia|]. unfold zsum. cbn. lia.
    - right. split; [auto|]. destruct (Nat.ltb_spec 0 r), (Nat.ltb_spec q r); lia. }
  assert (PE : eL = 0 \/ (eL = hi ws s /\ zsum (firstn r cnts) + nth r cnts 0 = nth s gsh 0)).
  { unfold eL. destruct (Nat.eqb_spec r q); [right; split; auto|left; auto]. }
  assert (PP : 0 <= bL /\ 0 <= eL /\ 0 <= lo ws s) by (unfold bL, eL; destruct (r =? 0)%nat, (r =? q)%nat; lia).
  assert (BW : forall k, (k < n)%nat -> before n wr k = if (k =? s)%nat then bL else lo ws k) by (intros k Hk; destruct (Nat.eqb_spec k s) as [->|N]; [auto|apply Br; auto]).
  assert (EW : forall k, (k < n)%nat -> after n wr k = if (k =? s)%nat then eL else hi ws k) by (intros k Hk; destruct (Nat.eqb_spec k s) as [->|N]; [auto|apply Br; auto]).
  assert (SH : ash y = upd (padded_shape gsh ws) s (nth r (owner_counts q) 0)).
  { rewrite Sy, St. erewrite piece_shape by eauto. rewrite padded_shape_ext, OC. f_equal. lia. }
  split; [exact SH|]. intros idx Hidx. rewrite Dy by (now rewrite SH). rewrite padded_pel.
  eapply piece_el with (o := zsum (firstn r cnts)) (c := nth r cnts 0) (bL := bL) (eL := eL) (e := hi ws); eauto; try lia.
  rewrite OC, padded_shape_ext in Hidx. now replace (bL + nth r cnts 0 + eL) with (nth r cnts 0 + (bL + eL)) by lia.
Qed.

Lemma ranks_represent q ys : (q < P)%nat -> length ys = P -> (forall r y, nth_error ys r = Some y -> rank_ok q r y) ->
  represents (padded G gsh ws vs d) (padded_shape gsh ws) (Some s) (owner_counts q) ys.
Proof.
  intros Hq Ly H. pose proof HR as (HL & Hn & Hs & Hcp & Hsum & _). pose proof (lo_pos s Hs). pose proof (hi_pos s Hs).
  assert (Lo : length (owner_counts q) = P) by (unfold owner_counts; now rewrite map_length, seq_length).
  split; [lia|]. split.
  { rewrite padded_shape_ext. apply Forall_nth. intros k d0 Hk. rewrite (nth_indep _ d0 0) by auto. rewrite ext_length in Hk. rewrite ext_nth by auto.
    pose proof (lo_pos k Hk). pose proof (hi_pos k Hk). rewrite Forall_forall in H1. specialize (H1 (nth k gsh 0) ltac:(apply nth_In; auto)). lia. }
  split; [unfold padded_shape; now rewrite map_length, seq_length|]. split.
  { unfold owner_counts. apply Forall_forall. intros z Hz. apply in_map_iff in Hz as (r & <- & _). pose proof (Forall_nth0 cnts r Hcp). destruct (r =? 0)%nat, (r =? q)%nat; lia. }
  split.
  { rewrite <- (firstn_all (owner_counts q)), Lo, owner_prefix by lia. rewrite firstn_all2 by (rewrite len_cnts; lia). rewrite Hsum, padded_shape_ext, ext_nth by auto.
    destruct (Nat.ltb_spec 0 P), (Nat.ltb_spec q P); lia. }
  intros r y Hy. apply (H r y Hy).
Qed.
End Ranks.
