(** The slice off the end and the balancing. *)
From Verif Require Import Base BaseLemmas LayoutModel TensorSpec NdSpec TensorLemmas NdLemmas OpsModel OpsProofs4 PySpec PySpecSel SliceLemmas IndexModel IndexProps ShapeModel ShapeProps ShapeProofs3 ShapeProofs4 BinModel BinProofs SlabLemmas RollSpec RollModel RollProofs3 RollProps UniqueProps4 MatmulProofs2 SplitProps DiffSpec DiffModel DiffProofs.
Open Scope Z_scope.

Lemma all_ok_Ok {A} (v : list A) : all_ok (map (@Ok A) v) = Ok v.
Proof. induction v as [|a v IH]; [auto|]. cbn [map all_ok]. now rewrite IH. Qed.

Lemma nth_firstn_lt {A} (l : list A) k i d : (i < k)%nat -> nth i (firstn k l) d = nth i l d.
Proof. revert k i. induction l as [|a l IH]; intros [|k] [|i] H; cbn; auto; try lia. apply IH. lia. Qed.
Lemma sel_seq {A} (l : list A) k : (k <= length l)%nat -> sel l (map Z.of_nat (seq 0 k)) = firstn k l.
Proof.
  induction k as [|k IH]; intros Hk; [auto|]. rewrite seq_S, map_app, sel_app, IH by lia. cbn [map Nat.add]. unfold sel. cbn [flat_map]. rewrite Nat2Z.id, app_nil_r.
  destruct (nth_error l k) as [v|] eqn:E; [|apply nth_error_None in E; lia]. symmetry. clear IH Hk. revert k E. induction l as [|w l IH]; intros [|k] E; cbn in *; try discriminate; [congruence|]. f_equal. now apply IH.
Qed.
Lemma py_range_1 k : 0 <= k -> py_range 0 k 1 = map Z.of_nat (seq 0 (Z.to_nat k)).
Proof.
  intros Hk. unfold py_range. assert (E : py_range_len 0 k 1 = Z.to_nat k).
  { unfold py_range_len. change (0 <? 1) with true. cbv iota. try (rewrite Z.div_1_r); destruct (Z.ltb_spec 0 k); try (f_equal; lia); try lia. }
  rewrite E. apply map_ext. intros j. lia.
Qed.
(** x[:N-n] along the split axis *)
Lemma cut_end {A} (d : dist A) (n : Z) : 1 <= n <= Z.of_nat (length (glob d)) ->
  exists d', all_ok (map (getitem_slice d None (Some (- n)) None) (seq 0 (length d))) = Ok d' /\ length d' = length d /\ glob d' = firstn (length (glob d) - Z.to_nat n) (glob d).
Proof.
  intros Hn. set (N := Z.of_nat (length (glob d))) in *. assert (ST : py_slice_stop (Some (- n)) N 1 = N - n).
  { unfold py_slice_stop, py_clamp. change (1 <? 0) with false. cbv iota. destruct (Z.ltb_spec (- n) 0); lia. }
  assert (E0 : py_slice_start None N 1 = 0) by reflexivity.
  destruct (@C13_getitem_slice_partial A d None (Some (- n)) None) as (d' & E & EG).
  - cbn. lia.
  - discriminate.
  - intros v E. injection E as <-. unfold N in *. lia.
  - left. fold N. cbn [py_step]. rewrite ST, E0. lia.
  - exists d'. rewrite E, all_ok_Ok. split; [auto|]. split; [apply (f_equal (@length _)) in E; rewrite !map_length, seq_length in E; lia|].
    rewrite EG. fold N. unfold py_slice. cbn [py_step]. rewrite ST, E0, py_range_1 by lia. rewrite sel_seq by (unfold N; lia). f_equal. unfold N. lia.
Qed.
Lemma cut_none {A} (d : dist A) : exists d', all_ok (map (getitem_slice d None None None) (seq 0 (length d))) = Ok d' /\ length d' = length d /\ glob d' = glob d.
Proof.
  set (N := Z.of_nat (length (glob d))).
  destruct (@C13_getitem_slice_partial A d None None None) as (d' & E & EG); try discriminate.
  - cbn. lia.
  - left. cbn. lia.
  - exists d'. rewrite E, all_ok_Ok. split; [auto|]. split; [apply (f_equal (@length _)) in E; rewrite !map_length, seq_length in E; lia|].
    rewrite EG. unfold py_slice. cbn [py_step py_slice_start py_slice_stop]. change (1 <? 0) with false. cbv iota. rewrite py_range_1 by lia. rewrite Nat2Z.id, sel_seq by lia. apply firstn_all.
Qed.
Lemma in_bounds_narrow gsh axis v g : (axis < length gsh)%nat -> v <= nth axis gsh 0 -> in_bounds (upd gsh axis v) g -> in_bounds gsh g /\ nth axis g 0 < v.
Proof.
  intros Ha Hv H. apply in_bounds_nth in H as [L B]. rewrite upd_length in L, B. split; [apply in_bounds_nth; split; [auto|]|].
  - intros j Hj. specialize (B j Hj). destruct (Nat.eq_dec j axis) as [->|NE]; [rewrite upd_same in B by auto; lia|rewrite upd_other in B by auto; auto].
  - specialize (B axis Ha). rewrite upd_same in B by auto. lia.
Qed.
Lemma zsum_lens {A} (d : dist A) : zsum (map Z.of_nat (lens d)) = Z.of_nat (length (glob d)).
Proof. induction d as [|l d IH]; [auto|]. unfold glob, lens in *. cbn [map concat]. rewrite app_length. change (zsum (Z.of_nat (length l) :: map Z.of_nat (map (@length A) d))) with (Z.of_nat (length l) + zsum (map Z.of_nat (map (@length A) d))). rewrite IH. lia. Qed.

Section Trim.
Context {A : Type} (minus : A -> A -> A) (one dflt : A).
Lemma trim_split (H : list Z -> A) (ts : list (arr A)) gsh s cnts n : represents H gsh (Some s) cnts ts -> 1 <= n <= nth s gsh 0 ->
  exists y cnts', trim dflt (mk_dnd ts gsh (Some s)) s s n = Ok y /\ length cnts' = length cnts /\ d_gshape y = upd gsh s (nth s gsh 0 - n) /\ d_split y = Some s /\
    represents H (upd gsh s (nth s gsh 0 - n)) (Some s) cnts' (d_locals y).
Proof.
  intros HR Hn. pose proof HR as (HL & Hnn & Hs & Hc & Hsum & _). destruct (slabs_view _ _ _ _ _ HR) as (LN & GL & V).
  unfold trim. cbv zeta. cbn [d_gshape d_locals]. rewrite Nat.eqb_refl. set (d := map (slabs s) ts) in *.
  destruct (cut_end d n ltac:(rewrite GL; lia)) as (d' & E & LD & EG). rewrite E. cbn [bind].
  set (gsh' := upd gsh s (Z.max 0 (nth s gsh 0 - n))). assert (EQ : upd gsh s (nth s gsh 0 - n) = gsh') by (unfold gsh'; f_equal; lia).
  assert (LG : length (glob d') = Z.to_nat (nth s gsh 0 - n)) by (rewrite EG, firstn_length, GL; lia).
  eexists; exists (map Z.of_nat (lens d')). split; [reflexivity|]. cbn [d_gshape d_split d_locals]. split; [unfold lens; rewrite !map_length, LD; unfold d; now rewrite map_length|]. rewrite EQ. split; [auto|]. split; [auto|].
  apply unslabs_represents.
  - unfold gsh'. apply OpsProofs5.Forall_upd; [auto|lia].
  - unfold gsh'. now rewrite upd_length.
  - apply Forall_forall. intros z Hz. apply in_map_iff in Hz as (q & <- & _). lia.
  - rewrite zsum_lens, LG. unfold gsh'. rewrite upd_same by auto. lia.
  - rewrite map_map. rewrite (map_ext (fun x => Z.to_nat (Z.of_nat x)) (fun x => x)) by (intros; apply Nat2Z.id). now rewrite map_id.
  - intros idx z Hb Hl. unfold gsh' in Hb. assert (Hv : Z.max 0 (nth s gsh 0 - n) <= nth s gsh 0) by lia. destruct (in_bounds_narrow gsh s _ _ Hs Hv Hb) as [Hb2 Hz]. rewrite upd_same in Hz by auto.
    apply in_bounds_nth in Hb2 as [LI BI]. rewrite upd_length in LI. pose proof (BI s Hs) as BS. rewrite upd_same in BS by auto.
    rewrite EG, nth_firstn_lt by lia. apply V; [lia|auto|]. intros k Hk NE. specialize (BI k Hk). now rewrite upd_other in BI by auto.
Qed.
Lemma trim_other (H : list Z -> A) (ts : list (arr A)) gsh s axis cnts n : represents H gsh (Some s) cnts ts -> (axis < length gsh)%nat -> axis <> s -> 1 <= n <= nth axis gsh 0 ->
  exists y cnts', trim dflt (mk_dnd ts gsh (Some s)) s axis n = Ok y /\ length cnts' = length cnts /\ d_gshape y = upd gsh axis (nth axis gsh 0 - n) /\ d_split y = Some s /\
    represents H (upd gsh axis (nth axis gsh 0 - n)) (Some s) cnts' (d_locals y).
Proof.
  intros HR Ha NE Hn. pose proof HR as (HL & Hnn & Hs & Hc & Hsum & HT). set (gsh' := upd gsh axis (nth axis gsh 0 - n)).
  assert (HR' : represents H gsh' (Some s) cnts (map (narrow axis n) ts)).
  { split; [now rewrite map_length|]. split; [unfold gsh'; apply OpsProofs5.Forall_upd; [auto|lia]|]. split; [unfold gsh'; now rewrite upd_length|]. split; [auto|]. split; [unfold gsh'; rewrite upd_other by auto; auto|].
    intros r t Ht. rewrite nth_error_map in Ht. destruct (nth_error ts r) as [t0|] eqn:E; [|discriminate]. cbn [option_map] in Ht. injection Ht as <-. destruct (HT r t0 E) as [S0 D0].
    assert (ES : ash (narrow axis n t0) = upd gsh' s (nth r cnts 0)). { unfold narrow, ext. cbn [ash]. rewrite S0. rewrite (upd_other gsh) by auto. unfold gsh'. rewrite (@RedistProofs.upd_comm _ gsh s axis) by auto. do 2 f_equal. lia. }
    split; [exact ES|]. intros idx Hb. unfold narrow. cbn [adat]. apply D0. rewrite <- S0.
    unfold gsh' in Hb. rewrite (@RedistProofs.upd_comm _ gsh axis s) in Hb by auto. rewrite <- S0 in Hb. refine (proj1 (in_bounds_narrow (ash t0) axis _ idx _ _ Hb)); [rewrite S0; now rewrite upd_length|]. rewrite S0, upd_other by auto. lia. }
  pose proof HR' as (HL' & Hnn' & Hs' & _ & Hsum' & _). destruct (slabs_view _ _ _ _ _ HR') as (LN & GL & V).
  unfold trim. cbv zeta. cbn [d_gshape d_locals]. destruct (Nat.eqb_spec axis s); [congruence|]. set (d := map (slabs s) (map (narrow axis n) ts)) in *.
  destruct (cut_none d) as (d' & E & LD & EG). rewrite E. cbn [bind].
  assert (EQ : upd gsh axis (Z.max 0 (nth axis gsh 0 - n)) = gsh') by (unfold gsh'; f_equal; lia). rewrite EQ.
  eexists; exists (map Z.of_nat (lens d')). split; [reflexivity|]. cbn [d_gshape d_split d_locals]. split; [unfold lens; rewrite !map_length, LD; unfold d; now rewrite !map_length|]. split; [auto|]. split; [auto|].
  apply unslabs_represents; auto.
  - apply Forall_forall. intros z Hz. apply in_map_iff in Hz as (q & <- & _). lia.
  - rewrite zsum_lens, EG, GL. rewrite Z2Nat.id; auto. rewrite Forall_forall in Hnn'. apply Hnn', nth_In. auto.
  - rewrite map_map. rewrite (map_ext (fun x => Z.to_nat (Z.of_nat x)) (fun x => x)) by (intros; apply Nat2Z.id). now rewrite map_id.
  - intros idx z Hb Hl. rewrite EG. apply in_bounds_nth in Hb as [LI BI]. rewrite upd_length in LI. pose proof (BI s Hs') as BS. rewrite upd_same in BS by auto. apply V; [lia|auto|]. intros k Hk NK. specialize (BI k Hk). now rewrite upd_other in BI by auto.
Qed.

Lemma diff_dist_ok (x : dnd A) (G : list Z -> A) cnts s axis n : represents G (d_gshape x) (Some s) cnts (d_locals x) -> (axis < length (d_gshape x))%nat -> smooth cnts s axis -> (0 < length cnts)%nat ->
  1 <= n <= nth axis (d_gshape x) 0 ->
  exists ts y, Nat.iter (Z.to_nat n) (diff_step minus one axis) (Ok (d_locals x)) = Ok ts /\
   (do y <- trim dflt (mk_dnd ts (d_gshape x) (Some s)) s axis n; balance_nd dflt y s) = Ok y /\ d_gshape y = upd (d_gshape x) axis (nth axis (d_gshape x) 0 - n) /\ d_split y = Some s /\
   represents (differences minus axis (Z.to_nat n) G) (d_gshape y) (Some s) (zcounts (nth s (d_gshape y) 0) (length cnts)) (d_locals y).
Proof.
  intros HR Ha HSm HP Hn. pose proof HR as (HL & Hnn & Hs & Hc & Hsum & HT). set (gsh := d_gshape x) in *.
  assert (U0 : upto gsh cnts s axis 0 G (d_locals x)).
  { split; [auto|]. intros r t Ht. destruct (HT r t Ht) as [S0 D0]. split; [auto|]. intros idx Hb _. apply D0. now rewrite <- S0. }
  destruct (iter_ok minus one G gsh cnts s axis Hs Ha Hnn Hc Hsum HSm (Z.to_nat n) _ U0) as (ts & E & U). rewrite Z2Nat.id in U by lia.
  destruct (some_global minus dflt G gsh cnts s axis Hs Ha Hnn Hc Hsum ts (proj1 U) (fun r t Ht => proj1 (proj2 U r t Ht))) as (H & RH).
  pose proof (upto_global minus G gsh cnts s axis Hs Ha Hc Hsum _ _ ts H U RH) as UG.
  assert (TR : exists y cnts', trim dflt (mk_dnd ts gsh (Some s)) s axis n = Ok y /\ length cnts' = length cnts /\ d_gshape y = upd gsh axis (nth axis gsh 0 - n) /\ d_split y = Some s /\
    represents H (upd gsh axis (nth axis gsh 0 - n)) (Some s) cnts' (d_locals y)).
  { destruct (Nat.eq_dec axis s) as [->|NE]; [now apply trim_split|now apply trim_other]. }
  destruct TR as (y & cnts' & E1 & L1 & SH & SP & RY). rewrite <- SH in RY. destruct (RollProofs3.balance_nd_ok dflt y H cnts' s RY ltac:(lia)) as (z & EB & SH2 & SP2 & RZ).
  exists ts, z. split; [exact E|]. rewrite E1. cbn [bind]. rewrite L1 in RZ. split; [exact EB|]. split; [congruence|]. split; [congruence|]. rewrite SH2.
  eapply represents_ext; [|exact RZ]. intros i Hi. rewrite SH in Hi. assert (Hv : nth axis gsh 0 - n <= nth axis gsh 0) by lia. destruct (in_bounds_narrow gsh axis _ i Ha Hv Hi) as [B1 B2]. now apply UG.
Qed.

(** not distributed *)
Lemma local_ok k (t : arr A) sh axis (F : list Z -> A) : (axis < length sh)%nat -> Z.of_nat k <= nth axis sh 0 -> agrees t sh F ->
  agrees (Nat.iter k (diff_local minus axis) t) (upd sh axis (nth axis sh 0 - Z.of_nat k)) (differences minus axis k F).
Proof.
  intros Ha. induction k as [|k IH]; intros Hk [S0 D0].
  - cbn [Nat.iter nat_rect differences]. split; [rewrite S0; replace (nth axis sh 0 - Z.of_nat 0) with (nth axis sh 0) by lia; now rewrite upd_self|]. intros idx Hb. apply D0. replace (nth axis sh 0 - Z.of_nat 0) with (nth axis sh 0) in Hb by lia. now rewrite upd_self in Hb.
  - specialize (IH ltac:(lia) (conj S0 D0)). change (Nat.iter (S k) (diff_local minus axis) t) with (diff_local minus axis (Nat.iter k (diff_local minus axis) t)). destruct IH as [S1 D1]. set (u := Nat.iter k (diff_local minus axis) t) in *.
    unfold diff_local, ext. split; cbn [ash adat].
    + rewrite S1, upd_upd, upd_same by auto. f_equal. lia.
    + intros idx Hb. cbn [differences]. unfold difference. rewrite (D1 idx), (D1 (move_axis_idx axis 1 idx)); [auto| |].
      * apply in_bounds_nth in Hb as [L B]. rewrite upd_length in L, B. apply in_bounds_nth. unfold move_axis_idx. rewrite !upd_length. split; [auto|]. intros j Hj. specialize (B j Hj). destruct (Nat.eq_dec j axis) as [->|NE]; [rewrite !upd_same in * by lia; lia|rewrite !upd_other in * by auto; auto].
      * apply in_bounds_nth in Hb as [L B]. rewrite upd_length in L, B. apply in_bounds_nth. rewrite !upd_length. split; [auto|]. intros j Hj. specialize (B j Hj). destruct (Nat.eq_dec j axis) as [->|NE]; [rewrite !upd_same in * by lia; lia|rewrite !upd_other in * by auto; auto].
Qed.
End Trim.
