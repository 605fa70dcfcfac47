(** C63: convolving distributed vectors gives the linear convolution, or is refused. *)
From Verif Require Import Base BaseLemmas LayoutModel LayoutProofs NdSpec TensorSpec TensorLemmas NdLemmas OpsModel ShapeModel ShapeProps BinModel BinProofs ConcatProofs3 HaloModel SplitProps PadSpec PadModel PadProofs2 PadProps ConvSpec ConvModel ConvProofs ConvProofs2 ConvProofs3 MatmulProofs2.
Open Scope nat_scope.

(** the arguments mode and stride that are accepted with a kernel of M elements *)
Definition accepted (m : conv_mode) (stride : Z) (M : nat) : Prop := (1 <= stride)%Z /\ (m = Same -> stride = 1%Z /\ Nat.even M = false).
(** layouts that pad (C62) handles: no padding needed, or a replicated or balanced signal *)
Definition padable {V} (m : conv_mode) (a : dnd V) (ca : list Z) (N M : nat) : Prop :=
  m = Valid \/ M = 1 \/ d_split a = None \/ length ca = 1 \/ ca = zcounts (Z.of_nat N) (length ca).
(** elements of the padded signal on the ranks *)
Definition padded_counts (m : conv_mode) (N M : nat) (ca : list Z) : list Z :=
  if Nat.eqb (pad_size m M) 0 then ca else zcounts (Z.of_nat (N + 2 * pad_size m M)) (length ca).

Section C63.
Context {V : Type} (zero junk : V) (add mul : V -> V -> V).
Hypothesis HL : conv_laws zero add mul.

Lemma enter (a v : dnd V) la lv ca cv m stride : vec zero a la ca -> vec zero v lv cv -> length lv <= length la -> accepted m stride (length lv) ->
  convolve zero add mul junk a v (Some m) stride = convolve_checked zero add mul junk a v m (Z.to_nat stride).
Proof.
  intros Ha Hv Hl [A1 A2]. unfold convolve. rewrite (vec_extent zero a la ca Ha), (vec_extent zero v lv cv Hv). destruct (Nat.ltb_spec (length la) (length lv)); [lia|]. rewrite (vec_extent zero v lv cv Hv).
  replace (match m with Same => Nat.even (length lv) | _ => false end) with false by (destruct m; auto; now destruct (A2 eq_refl)).
  destruct (Z.ltb_spec stride 1); [lia|]. destruct m; rewrite ?andb_false_r; auto. destruct (A2 eq_refl) as [-> _]. reflexivity.
Qed.
Lemma kernel_balanced (v : dnd V) lv cv : vec zero v lv cv -> (d_split v <> None -> cv = zcounts (Z.of_nat (length lv)) (length cv)) -> balanced_kernel v = true.
Proof.
  intros Hv HB. unfold balanced_kernel. destruct (d_split v) as [s|] eqn:E; [|auto]. specialize (HB ltac:(congruence)). apply forallb_forall. intros r Hr. apply in_seq in Hr. rewrite (vec_len zero v lv cv Hv) in *.
  rewrite (vec_lmap zero v lv cv r Hv) by lia. rewrite E. rewrite HB, (vec_extent zero v lv cv Hv). unfold zcounts. rewrite Nat2Z.id, map_length, counts_of_length. rewrite nth_of_nat. rewrite Nat2Z.id. apply Nat.eqb_refl.
Qed.
Lemma padded_signal (a : dnd V) la ca m M : vec zero a la ca -> 1 <= M <= length la -> 0 < length ca -> padable m a ca (length la) M ->
  let p := pad_size m M in
  exists y, pad zero junk a (PInt (Z.of_nat p)) (CV zero) = Ok y /\ d_split y = d_split a /\
    exists c', vec zero y (repeat zero p ++ la ++ repeat zero p) c' /\ length c' = length ca /\ (d_split a <> None -> c' = padded_counts m (length la) M ca).
Proof.
  intros Ha HM HP HB p. destruct (pad_vec zero junk a la ca p Ha ltac:(lia) HP) as (y & c' & E & S0 & Hy & L & C0 & C1).
  - destruct (Nat.eq_dec p 0) as [Z|NZ]; [auto|right]. unfold pad_ready. destruct (d_split a) as [s|] eqn:Es; [|auto]. destruct (vec_split zero a la ca s Ha Es) as (-> & _). right.
    destruct HB as [HB|[HB|[HB|[HB|HB]]]]; [subst m; cbn in p; lia| |congruence|auto|].
    + exfalso. apply NZ. subst M. unfold p. now destruct m.
    + assert (R := C62_balanced_ready (d_gshape a) 0 (length ca) (PInt (Z.of_nat p)) HP). destruct Ha as [EG _]. rewrite EG in *. cbn [nth] in R. rewrite <- HB in R. cbn [length addressed pad_ready] in R.
      destruct R as [R|R]; [|lia|auto]. assert (M <> 1) by (intros ->; apply NZ; unfold p; now destruct m). lia.
  - exists y. split; [exact E|]. split; [exact S0|]. exists c'. split; [exact Hy|]. split; [exact L|]. intros NN. unfold padded_counts. fold p. destruct (Nat.eqb_spec p 0); [apply C0; auto|apply C1; auto].
Qed.
Lemma lmap_pieces (x : dnd V) l cnts s : vec zero x l cnts -> d_split x = Some s -> forall r, r < length cnts -> length (nth r (pieces x) []) = Z.to_nat (nth r cnts 0%Z).
Proof. intros H E r Hr. pose proof (vec_lmap zero x l cnts r H Hr) as Q. unfold lmap in Q. now rewrite E in Q. Qed.
Lemma max_const (n P : nat) f : 0 < P -> (forall r, r < P -> f r = n) -> fold_right Nat.max 0 (map f (seq 0 P)) = n.
Proof.
  intros HP H. assert (G : forall k s, s + k <= P -> fold_right Nat.max 0 (map f (seq s k)) = if k =? 0 then 0 else n).
  { induction k as [|k IH]; intros s Hs; [reflexivity|]. cbn [seq map fold_right Nat.eqb]. rewrite H, IH by lia. destruct (k =? 0); lia. }
  rewrite G by lia. destruct (Nat.eqb_spec P 0); lia.
Qed.
Lemma max_first P f : 0 < P -> (forall r, r < P -> f r <= f 0) -> fold_right Nat.max 0 (map f (seq 0 P)) = f 0.
Proof.
  intros HP H. destruct P as [|P]; [lia|]. cbn [seq map fold_right]. assert (G : forall k s, s + k <= S P -> fold_right Nat.max 0 (map f (seq s k)) <= f 0).
  { induction k as [|k IH]; intros s Hs; [cbn; lia|]. cbn [seq map fold_right]. specialize (H s ltac:(lia)). specialize (IH (S s) ltac:(lia)). lia. }
  specialize (G P 1 ltac:(lia)). lia.
Qed.
Lemma check_false (f g : nat -> nat) P : (forall r, r < P -> g r <= f r) -> existsb (fun r => f r <? g r) (seq 0 P) = false.
Proof. intros H. apply not_true_is_false. intros E. apply existsb_exists in E as (r & Hr & E). apply in_seq in Hr. specialize (H r ltac:(lia)). apply Nat.ltb_lt in E. lia. Qed.
Lemma check_true (f g : nat -> nat) P : (exists r, r < P /\ f r < g r) -> existsb (fun r => f r <? g r) (seq 0 P) = true.
Proof. intros (r & Hr & H). apply existsb_exists. exists r. split; [apply in_seq; lia|now apply Nat.ltb_lt]. Qed.

(** Distributed signal, replicated kernel, any number P >= 2 of processes: if every rank of the
    padded signal holds at least as many elements as the kernel has, the pieces of the result
    concatenate to the convolution; otherwise ValueError. *)
Theorem C63_signal_split : forall (a v : dnd V) (la lv : list V) (ca cv : list Z) (m : conv_mode) (stride : Z) (s : nat),
  vec zero a la ca -> vec zero v lv cv -> length ca = length cv -> 2 <= length ca ->
  1 <= length lv <= length la -> accepted m stride (length lv) ->
  d_split a = Some s -> d_split v = None -> padable m a ca (length la) (length lv) ->
  let cs := padded_counts m (length la) (length lv) ca in
  let expected := convolution zero add mul m (Z.to_nat stride) la lv in
  ((forall r, r < length ca -> (Z.of_nat (length lv) <= nth r cs 0)%Z) ->
     exists ls, convolve zero add mul junk a v (Some m) stride = Ok (Pieces ls (length expected) (Some 0)) /\ length ls = length ca /\ glob ls = expected) /\
  ((exists r, r < length ca /\ (nth r cs 0 < Z.of_nat (length lv))%Z) -> convolve zero add mul junk a v (Some m) stride = Err ValueError).
Proof.
  intros a v la lv ca cv m stride s Ha Hv Hcc HP HM HAc Sa Sv HB cs expected.
  assert (La := vec_len zero a la ca Ha). assert (Lv := vec_len zero v lv cv Hv).
  rewrite (enter a v la lv ca cv m stride Ha Hv ltac:(lia) HAc). unfold convolve_checked. rewrite (kernel_balanced v lv cv Hv) by congruence. cbn [negb].
  rewrite (vec_extent zero a la ca Ha), (vec_extent zero v lv cv Hv), La.
  destruct (padded_signal a la ca m (length lv) Ha HM ltac:(lia) HB) as (y & Ey & Sy & c' & Hy & Lc & Cc). rewrite Ey. cbn [bind]. specialize (Cc ltac:(congruence)). fold cs in Cc. subst c'.
  assert (Ly := vec_len zero y _ cs Hy). assert (Sy' : d_split y = Some s) by congruence.
  assert (Dy : distributed y = true) by (unfold distributed; rewrite Sy', Ly, Lc; apply Nat.ltb_lt; lia).
  assert (Dv : distributed v = false) by (unfold distributed; now rewrite Sv).
  rewrite Dy, Dv. cbn [andb]. destruct (vec_split zero y _ cs s Hy Sy') as (-> & GY & LY & FY & SY).
  assert (LM : forall r, r < length ca -> lmap y r = Z.to_nat (nth r cs 0%Z)) by (intros r Hr; rewrite (vec_lmap zero y _ cs r Hy) by lia; now rewrite Sy').
  assert (LV : forall r, r < length ca -> lmap v r = length lv) by (intros r Hr; rewrite (vec_lmap zero v lv cv r Hv) by lia; now rewrite Sv).
  assert (Hst : 1 <= Z.to_nat stride) by (destruct HAc; lia). set (st := Z.to_nat stride) in *.
  set (A := repeat zero (pad_size m (length lv)) ++ la ++ repeat zero (pad_size m (length lv))) in *.
  pose proof HL as (L1 & L2 & _). destruct (corr_convolution zero add mul L1 L2 m st la lv ltac:(lia) ltac:(lia) ltac:(intros E; now destruct HAc as [_ H]; destruct (H E))) as (CV1 & CV2 & CV3). fold A in CV1, CV2, CV3. fold expected in CV1.
  split.
  - intros HC. rewrite check_false by (intros r Hr; rewrite LM, LV by lia; specialize (HC r Hr); lia).
    assert (Pd : length (pieces y) = length ca) by (unfold pieces; rewrite map_length; lia).
    assert (PL : forall r, r < length ca -> length (nth r (pieces y) []) = Z.to_nat (nth r cs 0%Z)) by (intros r Hr; eapply lmap_pieces; eauto; lia).
    destruct (ranks_cover zero add mul (pieces y) (length lv) (length lv / 2) ltac:(lia) eq_refl ltac:(lia)) with (w := rev lv) (s := st) as (ls & E & Ll & G); [|apply rev_length|auto|].
    { intros r Hr. rewrite PL by lia. specialize (HC r ltac:(lia)). lia. }
    rewrite GY in G. rewrite CV1 in G. exists ls. rewrite Pd in *.
    assert (EQ : map (conv_rank zero add mul y v st) (seq 0 (length ca)) = map (rank_out zero add mul (pieces y) (length lv) (length lv / 2) (rev lv) st) (seq 0 (length ca))).
    { apply map_ext_in. intros r Hr. apply in_seq in Hr. unfold conv_rank, rank_signal, rank_out. rewrite Dy, Dv, Lv, <- Hcc. rewrite (max_const (length lv)) by (auto; lia).
      rewrite (vec_extent zero v lv cv Hv), (vec_none zero v lv cv r Hv Sv) by lia. cbn [negb]. rewrite andb_true_r. destruct (with_halo (pieces y) (length lv / 2) r); [|reflexivity]. reflexivity. }
    rewrite EQ, E. cbn [bind]. rewrite Sa. split; [|split; auto]. do 2 f_equal. rewrite <- CV1, map_length, seq_length, CV2. auto.
  - intros (r & Hr & HC). rewrite check_true; [reflexivity|]. exists r. split; [auto|]. rewrite LM, LV by auto. rewrite Forall_forall in FY. assert (0 <= nth r cs 0)%Z by (apply FY, nth_In; lia). lia.
Qed.

(** Nothing distributed: one process, or both vectors replicated and (the kernel odd or the
    stride above 1); every rank returns the whole convolution. *)
Theorem C63_replicated_partial : forall (a v : dnd V) (la lv : list V) (ca cv : list Z) (m : conv_mode) (stride : Z),
  vec zero a la ca -> vec zero v lv cv -> length ca = length cv ->
  1 <= length lv <= length la -> accepted m stride (length lv) ->
  length ca = 1 \/ (0 < length ca /\ d_split a = None /\ d_split v = None /\ (Nat.even (length lv) = false \/ (1 < stride)%Z)) ->
  let expected := convolution zero add mul m (Z.to_nat stride) la lv in
  convolve zero add mul junk a v (Some m) stride = Ok (Pieces (repeat expected (length ca)) (length expected) (d_split a)).
Proof.
  intros a v la lv ca cv m stride Ha Hv Hcc HM HAc HC expected.
  assert (La := vec_len zero a la ca Ha). assert (Lv := vec_len zero v lv cv Hv). assert (HP : 0 < length ca) by lia.
  assert (HBv : d_split v <> None -> cv = zcounts (Z.of_nat (length lv)) (length cv)).
  { intros NN. destruct HC as [HC|(_ & _ & HC & _)]; [|congruence]. destruct (d_split v) as [s|] eqn:E; [|congruence]. destruct (vec_split zero v lv cv s Hv E) as (_ & _ & _ & F & S0). rewrite HC in Hcc. destruct cv as [|c [|]]; cbn in Hcc; try lia.
    unfold zsum in S0. cbn [fold_right] in S0. assert (c = Z.of_nat (length lv)) as -> by lia. cbn [length]. unfold zcounts. rewrite Nat2Z.id. unfold counts_of. cbn [seq map]. rewrite Nat.div_1_r, Nat.mod_1_r. cbn. do 2 f_equal. lia. }
  rewrite (enter a v la lv ca cv m stride Ha Hv ltac:(lia) HAc). unfold convolve_checked. rewrite (kernel_balanced v lv cv Hv HBv). cbn [negb].
  rewrite (vec_extent zero a la ca Ha), (vec_extent zero v lv cv Hv), La.
  destruct (padded_signal a la ca m (length lv) Ha HM ltac:(lia)) as (y & Ey & Sy & c' & Hy & Lc & Cc).
  { unfold padable. destruct HC as [HC|(_ & HC & _)]; auto. } rewrite Ey. cbn [bind].
  assert (Ly := vec_len zero y _ c' Hy).
  assert (Dy : distributed y = false).
  { unfold distributed. destruct HC as [HC|(_ & HC & _)]; [|now rewrite Sy, HC]. destruct (d_split y); [|auto]. rewrite Ly, Lc, HC. reflexivity. }
  assert (Dv : distributed v = false).
  { unfold distributed. destruct HC as [HC|(_ & _ & HC & _)]; [|now rewrite HC]. destruct (d_split v); [|auto]. rewrite Lv, <- Hcc, HC. reflexivity. }
  rewrite Dy, Dv. cbn [andb]. set (st := Z.to_nat stride) in *. assert (Hst : 1 <= st) by (unfold st; destruct HAc; lia).
  set (A := repeat zero (pad_size m (length lv)) ++ la ++ repeat zero (pad_size m (length lv))) in *.
  pose proof HL as (L1 & L2 & _). destruct (corr_convolution zero add mul L1 L2 m st la lv ltac:(lia) ltac:(lia) ltac:(intros E; now destruct HAc as [_ H]; destruct (H E))) as (CV1 & CV2 & CV3). fold A in CV1, CV2, CV3. fold expected in CV1.
  assert (PY : forall x l c r, vec zero x l c -> length c = length ca -> (d_split x = None \/ length ca = 1) -> r < length ca -> nth r (pieces x) [] = l).
  { intros x l c r Hx Hlc Hd Hr. destruct (d_split x) as [s|] eqn:E; [|eapply vec_none; eauto; lia]. destruct Hd as [Hd|Hd]; [congruence|]. assert (r = 0) as -> by lia.
    destruct (vec_split zero x l c s Hx E) as (_ & GX & _). assert (LX := vec_len zero x l c Hx). unfold glob, pieces in *. destruct (d_locals x) as [|t [|]]; cbn in LX; try lia. cbn in *. now rewrite app_nil_r in GX. }
  assert (EQ : map (conv_rank zero add mul y v st) (seq 0 (length ca)) = map (fun _ => Ok expected) (seq 0 (length ca))).
  { apply map_ext_in. intros r Hr. apply in_seq in Hr. unfold conv_rank, rank_signal. rewrite Dy. cbn [bind].
    rewrite (PY y A c' r Hy ltac:(lia)) by (first [lia | destruct HC as [HC|(_ & HC & _)]; [auto|left; congruence]]). rewrite (PY v lv cv r Hv ltac:(lia)) by (first [lia | destruct HC as [HC|(_ & _ & HC & _)]; auto]).
    rewrite rev_length. destruct (Nat.leb_spec (length lv) (length A)); [|lia]. unfold conv1d. rewrite rev_length. destruct (Nat.ltb_spec (length A) (length lv)); [lia|]. cbn [bind]. rewrite CV1.
    rewrite (vec_extent zero v lv cv Hv). replace (negb (r =? 0) && Nat.even (length lv) && (st =? 1)) with false; [reflexivity|].
    destruct (Nat.eqb_spec r 0); [auto|]. destruct HC as [HC|(_ & _ & _ & [HC|HC])]; [lia|now rewrite HC|]. destruct (Nat.eqb_spec st 1); [unfold st in *; lia|]. now rewrite andb_false_r. }
  rewrite EQ, map_const_seq.
  assert (AO : all_ok (repeat (Ok expected) (length ca)) = Ok (repeat expected (length ca))) by (clear; induction (length ca) as [|k IH]; [reflexivity|]; cbn [repeat all_ok bind]; now rewrite IH).
  rewrite AO. cbn [bind]. do 2 f_equal. rewrite <- CV1, map_length, seq_length, CV2. auto.
Qed.

(** Distributed (balanced) kernel: the accumulated result is the convolution when every rank of
    the padded signal holds an element, and at least as many as the kernel's rank; if some rank
    holds fewer, ValueError. *)
Theorem C63_kernel_split : forall (a v : dnd V) (la lv : list V) (ca cv : list Z) (m : conv_mode) (stride : Z) (s : nat),
  vec zero a la ca -> vec zero v lv cv -> length ca = length cv -> 2 <= length ca ->
  1 <= length lv <= length la -> accepted m stride (length lv) ->
  d_split v = Some s -> cv = zcounts (Z.of_nat (length lv)) (length cv) -> padable m a ca (length la) (length lv) ->
  let cs := padded_counts m (length la) (length lv) ca in
  let expected := convolution zero add mul m (Z.to_nat stride) la lv in
  ((d_split a <> None -> forall r, r < length ca -> (1 <= nth r cs 0 /\ nth r cv 0 <= nth r cs 0)%Z) ->
     convolve zero add mul junk a v (Some m) stride = Ok (Total expected)) /\
  (d_split a <> None -> (exists r, r < length ca /\ (nth r cs 0 < nth r cv 0)%Z) -> convolve zero add mul junk a v (Some m) stride = Err ValueError).
Proof.
  intros a v la lv ca cv m stride s Ha Hv Hcc HP HM HAc Sv HBv HB cs expected.
  assert (La := vec_len zero a la ca Ha). assert (Lv := vec_len zero v lv cv Hv).
  rewrite (enter a v la lv ca cv m stride Ha Hv ltac:(lia) HAc). unfold convolve_checked. rewrite (kernel_balanced v lv cv Hv) by auto. cbn [negb].
  rewrite (vec_extent zero a la ca Ha), (vec_extent zero v lv cv Hv), La.
  destruct (padded_signal a la ca m (length lv) Ha HM ltac:(lia) HB) as (y & Ey & Sy & c' & Hy & Lc & Cc). rewrite Ey. cbn [bind]. fold cs in Cc.
  assert (Ly := vec_len zero y _ c' Hy).
  assert (Dv : distributed v = true) by (unfold distributed; rewrite Sv, Lv, <- Hcc; apply Nat.ltb_lt; lia). rewrite Dv.
  destruct (vec_split zero v lv cv s Hv Sv) as (-> & GV & LVs & FV & SV).
  assert (LV : forall r, r < length ca -> lmap v r = Z.to_nat (nth r cv 0%Z)) by (intros r Hr; rewrite (vec_lmap zero v lv cv r Hv) by lia; now rewrite Sv).
  assert (CVn : forall r, Z.to_nat (nth r cv 0%Z) = nth r (counts_of (length lv) (length ca)) 0).
  { intros r. rewrite HBv, <- Hcc. unfold zcounts. rewrite nth_of_nat, !Nat2Z.id. auto. }
  set (st := Z.to_nat stride) in *. assert (Hst : 1 <= st) by (unfold st; destruct HAc; lia).
  set (A := repeat zero (pad_size m (length lv)) ++ la ++ repeat zero (pad_size m (length lv))) in *.
  pose proof HL as (L1 & L2 & _). destruct (corr_convolution zero add mul L1 L2 m st la lv ltac:(lia) ltac:(lia) ltac:(intros E; now destruct HAc as [_ H]; destruct (H E))) as (CV1 & CV2 & CV3). fold A in CV1, CV2, CV3. fold expected in CV1.
  set (P := length ca) in *. set (L := nth 0 (counts_of (length lv) P) 0) in *.
  assert (LL : forall r, r < P -> nth r (counts_of (length lv) P) 0 <= L <= nth r (counts_of (length lv) P) 0 + 1) by (intros r Hr; unfold L; apply cs_L; lia).
  assert (LP : 1 <= L) by (unfold L; apply L_pos; lia).
  assert (LM : L <= length lv) by (pose proof (cs_off (length lv) P 0 ltac:(lia)) as [Q1 Q2]; unfold L; lia).
  assert (KP : forall r, r < P -> length (kernel_piece zero lv P r) = L).
  { intros r Hr. unfold kernel_piece. fold L. rewrite app_length, repeat_length, sub_length; [specialize (LL r Hr); lia|]. rewrite rev_length. pose proof (cs_off (length lv) P r Hr) as [Q1 _]. rewrite psum_S in Q1 by (rewrite counts_of_length; lia). auto. }
  assert (FIN : forall sigs, (forall r, r < P -> exists rest, filtered zero add mul y v sigs r = Ok (map (correlate zero add mul A (kernel_piece zero lv P r)) (seq 0 (length A - L + 1)) ++ rest)) ->
     (do acc <- fold_left (accumulate zero add mul y v sigs (length la + 2 * pad_size m (length lv) - length lv + 1)) (seq 0 P) (Ok (repeat zero (length la + 2 * pad_size m (length lv) - length lv + 1), 0));
      Ok (Total (if 1 <? st then every zero st (fst acc) else fst acc))) = Ok (Total expected)).
  { intros sigs HF. rewrite <- CV2. destruct (acc_all zero junk add mul HL y v sigs A lv P ltac:(lia) (vec_extent zero v lv cv Hv) ltac:(lia) ltac:(lia) CV3 HF) as (q & E). rewrite E. cbn [bind fst]. do 2 f_equal. rewrite <- CV1.
    destruct (Nat.ltb_spec 1 st).
    - rewrite Nat.add_1_r. apply every_map. auto.
    - assert (E1 : st = 1) by lia. rewrite E1, Nat.div_1_r. apply map_ext. intros k. f_equal. lia. }
  split.
  - intros HC. destruct (d_split a) as [s|] eqn:Sa.
    + specialize (HC ltac:(congruence)). specialize (Cc ltac:(congruence)). subst c'. assert (Sy' : d_split y = Some s) by congruence.
      assert (Dy : distributed y = true) by (unfold distributed; rewrite Sy', Ly, Lc; apply Nat.ltb_lt; lia).
      destruct (vec_split zero y _ cs s Hy Sy') as (-> & GY & LY & FY & SY). rewrite Dy. cbn [andb].
      rewrite check_false.
      2:{ intros r Hr. rewrite LV by auto. rewrite (vec_lmap zero y _ cs r Hy) by lia. rewrite Sy'. specialize (HC r Hr). lia. }
      assert (Pd : length (pieces y) = P) by (unfold pieces; rewrite map_length; lia).
      assert (HCC : forall q, q < P -> L - L / 2 <= length (nth q (pieces y) [])).
      { intros q Hq. rewrite (lmap_pieces y A cs 0 Hy Sy') by lia. specialize (HC q Hq). specialize (LL q Hq). specialize (CVn q). lia. }
      assert (HH : fold_right Nat.max 0 (map (lmap v) (seq 0 P)) = L).
      { rewrite max_first; [rewrite LV by lia; rewrite CVn; auto|lia|]. intros r Hr. rewrite !LV by lia. rewrite !CVn. apply LL; auto. }
      destruct (all_ok_seq (rank_signal y v st) (fun q sg => with_halo (pieces y) (L / 2) q = Ok sg) P) as (sigs & Es & Ls & Is).
      { intros q Hq. unfold rank_signal. rewrite Dy, Dv, Lv, <- Hcc. fold P. rewrite HH. cbn [negb]. rewrite andb_false_r.
        rewrite (window zero add mul (pieces y) L (L / 2) LP eq_refl ltac:(lia) ltac:(intros; apply HCC; lia) q ltac:(lia)). cbn [bind]. eexists. split; reflexivity. }
      rewrite Es. cbn [bind]. apply FIN. intros r Hr. exists []. rewrite app_nil_r. rewrite <- GY.
      apply (filtered_split zero add mul) with (K := L); auto; try lia. intros q Hq. apply Is. apply nth_error_nth'. lia.
    + assert (Dy : distributed y = false) by (unfold distributed; now rewrite Sy). rewrite Dy. cbn [andb].
      assert (Es : all_ok (map (rank_signal y v st) (seq 0 P)) = Ok (repeat A P)).
      { rewrite (map_ext_in _ (fun _ => Ok A)).
        - rewrite map_const_seq. clear. induction P as [|k IH]; [reflexivity|]. cbn [repeat all_ok bind]. now rewrite IH.
        - intros r Hr. apply in_seq in Hr. unfold rank_signal. rewrite Dy. f_equal. eapply vec_none; eauto. lia. }
      rewrite Es. cbn [bind]. apply FIN. intros r Hr. apply (filtered_none zero add mul); auto; lia.
  - intros NN (r & Hr & HC). specialize (Cc NN). subst c'. destruct (d_split a) as [s|] eqn:Sa; [|congruence]. assert (Sy' : d_split y = Some s) by congruence.
    assert (Dy : distributed y = true) by (unfold distributed; rewrite Sy', Ly, Lc; apply Nat.ltb_lt; lia). rewrite Dy. cbn [andb].
    rewrite check_true; [reflexivity|]. exists r. split; [auto|]. rewrite LV by auto. rewrite (vec_lmap zero y _ cs r Hy) by lia. rewrite Sy'. destruct (vec_split zero y _ cs s Hy Sy') as (_ & _ & _ & FY & _). rewrite Forall_forall in FY. assert (0 <= nth r cs 0)%Z by (apply FY, nth_In; lia). lia.
Qed.
End C63.
Print Assumptions C63_signal_split.
Print Assumptions C63_replicated_partial.
Print Assumptions C63_kernel_split.
