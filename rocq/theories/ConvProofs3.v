(** The padded signal and the accumulation over a distributed kernel. *)
From Verif Require Import Base BaseLemmas LayoutModel LayoutProofs NdSpec TensorSpec TensorLemmas NdLemmas OpsModel ShapeModel ShapeProps BinModel BinProofs HaloModel PadSpec PadModel PadProofs2 PadProps ConvSpec ConvModel ConvProofs ConvProofs2 MatmulProofs2.
Open Scope nat_scope.

Lemma Ok_inj {X} (x y : X) : Ok x = Ok y -> x = y.
Proof. congruence. Qed.
Lemma combine_map {X Y Z} (f : X -> Y) (g : X -> Z) l : combine (map f l) (map g l) = map (fun x => (f x, g x)) l.
Proof. induction l as [|x l IH]; [reflexivity|]. cbn. now rewrite IH. Qed.

(** sizes of the kernel pieces *)
Lemma cs_L M P r : r < P -> nth r (counts_of M P) 0 <= nth 0 (counts_of M P) 0 <= nth r (counts_of M P) 0 + 1.
Proof. intros Hr. unfold counts_of. rewrite !(@nth_map_seq _ (fun r => M / P + (if r <? M mod P then 1 else 0))) by lia. generalize (M / P). intros q. destruct (Nat.ltb_spec r (M mod P)); destruct (Nat.ltb_spec 0 (M mod P)); lia. Qed.
Lemma cs_off M P r : r < P -> psum (counts_of M P) (S r) <= M /\ nth 0 (counts_of M P) 0 <= psum (counts_of M P) (S r).
Proof.
  intros Hr. split. { rewrite <- (@counts_of_sum M P ltac:(lia)) at 2. apply psum_le_sum. }
  assert (H : psum (counts_of M P) 1 <= psum (counts_of M P) (S r)) by (apply psum_mono; lia). rewrite psum_S in H by (rewrite counts_of_length; lia). change (psum (counts_of M P) 0) with 0 in H. lia.
Qed.
Lemma L_pos M P : 1 <= M -> 1 <= P -> 1 <= nth 0 (counts_of M P) 0.
Proof.
  intros HM HP. unfold counts_of. rewrite (@nth_map_seq _ (fun r => M / P + (if r <? M mod P then 1 else 0))) by lia. destruct (Nat.ltb_spec 0 (M mod P)); [apply Nat.le_add_l|]. assert (E := Nat.div_mod M P ltac:(lia)). nia.
Qed.

Section V3.
Context {V : Type} (zero junk : V).
Lemma pad_vec (a : dnd V) la ca (p : nat) : vec zero a la ca -> 1 <= length la -> 0 < length ca ->
  p = 0 \/ pad_ready (d_gshape a) (d_split a) ca (PInt (Z.of_nat p)) ->
  exists y c', pad zero junk a (PInt (Z.of_nat p)) (CV zero) = Ok y /\ d_split y = d_split a /\
    vec zero y (repeat zero p ++ la ++ repeat zero p) c' /\ length c' = length ca /\
    (p = 0 -> y = a /\ c' = ca) /\ (p <> 0 -> d_split a <> None -> c' = zcounts (Z.of_nat (length la + 2 * p)) (length ca)).
Proof.
  intros HV H1 HP HR. destruct (Nat.eq_dec p 0) as [->|Np].
  { exists a, ca. split; [reflexivity|]. cbn [repeat app]. rewrite app_nil_r. repeat split; auto; try apply HV; congruence. }
  destruct HR as [HR|HR]; [congruence|]. pose proof HV as [EG HRp].
  destruct (C62_pad_partial V zero junk a _ ca (PInt (Z.of_nat p)) (CV zero) (repeat (Z.of_nat p, Z.of_nat p) 1) (repeat (zero, zero) 1) HRp HP) as (y & c' & E & G & S0 & R & L & B).
  - rewrite EG. apply w_int.
  - rewrite EG. apply f_num.
  - repeat constructor; cbn; lia.
  - rewrite EG. repeat constructor. lia.
  - auto.
  - assert (LP : length (repeat zero p ++ la ++ repeat zero p) = length la + 2 * p) by (rewrite !app_length, !repeat_length; lia).
    assert (ES : d_gshape y = [Z.of_nat (length la + 2 * p)]).
    { rewrite G, EG. unfold padded_shape, PadSpec.lo, PadSpec.hi. cbn [length seq map repeat nth fst snd]. f_equal. lia. }
    exists y, c'. split; [exact E|]. split; [exact S0|]. split.
    + split; [rewrite ES, LP; auto|]. unfold rep in *. eapply ShapeProofs3.represents_ext; [|exact R]. intros idx Hidx. rewrite ES in Hidx. inversion Hidx as [|n0 i0 l0 l1 Hi Hnil]; subst. inversion Hnil; subst.
      unfold padded, in_frame, PadSpec.lo, PadSpec.hi. rewrite EG. cbn [length seq rev app find repeat nth fst snd map]. rewrite nth_padded.
      destruct (Z.ltb_spec i0 (Z.of_nat p)) as [H|H]; cbn [orb].
      { destruct (Nat.leb_spec p (Z.to_nat i0)); [lia|]. now destruct (_ <? _)%Z. }
      destruct (Z.leb_spec (Z.of_nat p + Z.of_nat (length la)) i0) as [H2|H2].
      { destruct (Nat.leb_spec p (Z.to_nat i0)); [|lia]. rewrite nth_overflow by lia. now destruct (_ <? _)%Z. }
      destruct (Nat.leb_spec p (Z.to_nat i0)); [|lia]. f_equal. lia.
    + split; [auto|]. split; [congruence|]. intros _ HS. destruct (d_split a) as [s|] eqn:Es; [|congruence]. destruct (vec_split zero a la ca s HV Es) as (-> & _). rewrite (B ltac:(intros X; injection X; lia) 0 eq_refl). rewrite <- G, ES. reflexivity.
Qed.

Variables (add mul : V -> V -> V).
Hypothesis HL : conv_laws zero add mul.
Notation corr := (correlate zero add mul).
Lemma total_app (l k : list V) : total zero add (l ++ k) = add (total zero add l) (total zero add k).
Proof.
  destruct HL as (LA & LC & LZ & _). induction l as [|x l IH]; cbn [app total fold_right]; [now rewrite LZ|]. fold (total zero add (l ++ k)) (total zero add l). now rewrite IH, LA.
Qed.
Lemma total_zeros (l : list V) : (forall x, In x l -> x = zero) -> total zero add l = zero.
Proof.
  destruct HL as (LA & LC & LZ & _). induction l as [|x l IH]; intros H; [reflexivity|]. cbn [total fold_right]. fold (total zero add l). rewrite (H x) by (now left). rewrite LZ. apply IH. intros y Hy. apply H. now right.
Qed.
(** the first t terms of a correlation *)
Definition psumm (A rv : list V) (p t : nat) : V := total zero add (map (fun j => mul (nth (p + j) A zero) (nth j rv zero)) (seq 0 t)).
Lemma piece_sum (A rv : list V) p off cnt L q : cnt <= L -> off + cnt <= length rv -> p + off = q + (L - cnt) ->
  add (psumm A rv p off) (corr A (repeat zero (L - cnt) ++ sub rv off cnt) q) = psumm A rv p (off + cnt).
Proof.
  intros H1 H2 H3. unfold psumm. rewrite seq_app, map_app, total_app. f_equal. unfold correlate. rewrite app_length, repeat_length, sub_length by auto.
  rewrite seq_app, map_app. fold (total zero add). change (fold_right add zero) with (total zero add). rewrite total_app. rewrite total_zeros.
  - destruct HL as (_ & _ & LZ & _). rewrite LZ. cbn [Nat.add]. rewrite (seq_shift' off), (seq_shift' (L - cnt)), !map_map. f_equal. apply map_ext_in. intros k Hk. apply in_seq in Hk.
    rewrite app_nth2 by (rewrite repeat_length; lia). rewrite repeat_length. replace (L - cnt + k - (L - cnt)) with k by lia. rewrite sub_nth by lia. f_equal. f_equal. lia.
  - intros x Hx. apply in_map_iff in Hx as (k & <- & Hk). apply in_seq in Hk. rewrite app_nth1 by (rewrite repeat_length; lia). rewrite nth_repeat. destruct HL as (_ & _ & _ & _ & LM). apply LM.
Qed.

Section Acc.
Variables (a v : dnd V) (sigs : dist V) (A lv : list V) (P : nat).
Hypothesis HP : 1 <= P.
Hypothesis EX : extent v = length lv.
Hypothesis EL : length (d_locals v) = P.
Hypothesis H1 : 1 <= length lv.
Hypothesis HA : length lv <= length A.
Let M := length lv.
Let cs := counts_of M P.
Let L := nth 0 cs 0.
Let n := length A - M + 1.
Hypothesis HF : forall r, r < P -> exists rest, filtered zero add mul a v sigs r = Ok (map (corr A (kernel_piece zero lv P r)) (seq 0 (length A - L + 1)) ++ rest).
Lemma cs_len : length cs = P. Proof. clear - P. apply counts_of_length. Qed.
Lemma cs_sum : list_sum cs = M. Proof. clear - HP. apply counts_of_sum. lia. Qed.
Lemma acc_steps r : r <= P -> exists st,
  fold_left (accumulate zero add mul a v sigs n) (seq 0 r) (Ok (repeat zero n, 0)) = Ok (map (fun p => psumm A (rev lv) p (psum cs r)) (seq 0 n), st) /\
  (r < P -> st = psum cs (S r) - L).
Proof.
  induction r as [|r IH]; intros Hr.
  - exists 0. cbn [seq fold_left]. split.
    + do 2 f_equal. apply (nth_ext _ _ zero zero); [now rewrite repeat_length, map_length, seq_length|]. intros i Hi. rewrite repeat_length in Hi. rewrite nth_repeat. now rewrite (@nth_map_seq _ (fun p => psumm A (rev lv) p (psum cs 0))) by auto.
    + intros _. rewrite psum_S by (rewrite cs_len; lia). unfold L. change (psum cs 0) with 0. lia.
  - destruct (IH ltac:(lia)) as (st & E & Es). specialize (Es ltac:(lia)). rewrite seq_S, fold_left_app. cbn [fold_left Nat.add]. rewrite E. unfold accumulate at 1. cbn [bind].
    destruct (HF r ltac:(lia)) as (rest & F). rewrite F. cbn [bind]. rewrite EX, EL. fold M cs.
    pose proof (cs_off M P r ltac:(lia)) as [C1 C2]. pose proof (cs_L M P r ltac:(lia)) as [C3 C4]. pose proof (L_pos M P H1 HP) as LP. fold cs in C1, C2, C3, C4, LP. fold L in C2, C3, C4, LP.
    set (g := map (corr A (kernel_piece zero lv P r)) (seq 0 (length A - L + 1))).
    assert (LG : length g = length A - L + 1) by (unfold g; now rewrite map_length, seq_length).
    assert (BD : st + n <= length g) by (rewrite LG, Es; unfold n; unfold M in *; lia).
    assert (SL : sub (g ++ rest) st n = map (fun p => corr A (kernel_piece zero lv P r) (st + p)) (seq 0 n)).
    { apply (nth_ext _ _ zero zero); [rewrite sub_length by (rewrite app_length; lia); now rewrite map_length, seq_length|].
      intros i Hi. rewrite sub_length in Hi by (rewrite app_length; lia). rewrite sub_nth, app_nth1 by lia. unfold g. rewrite (@nth_map_seq _ (corr A (kernel_piece zero lv P r))) by lia. now rewrite (@nth_map_seq _ (fun p => corr A (kernel_piece zero lv P r) (st + p))) by auto. }
    rewrite SL. rewrite map_length, seq_length, Nat.eqb_refl. eexists. split.
    + do 2 f_equal. rewrite combine_map, map_map. apply map_ext_in. intros i Hi. cbn [fst snd].
      rewrite psum_S in * by (rewrite cs_len; lia). unfold kernel_piece. fold M cs. fold L. rewrite sub_length by (rewrite rev_length; fold M; lia).
      apply piece_sum; [lia|rewrite rev_length; fold M; lia|]. rewrite Es. lia.
    + intros Hr2. rewrite (psum_S cs (k := S r)) by (rewrite cs_len; lia). rewrite Es. lia.
Qed.
Lemma acc_all : exists st, fold_left (accumulate zero add mul a v sigs n) (seq 0 P) (Ok (repeat zero n, 0)) = Ok (map (corr A (rev lv)) (seq 0 n), st).
Proof.
  destruct (acc_steps P ltac:(lia)) as (st & E & _). exists st. rewrite E. do 2 f_equal. apply map_ext. intros p. unfold psumm, correlate. rewrite rev_length. rewrite psum_all by (rewrite cs_len; auto). now rewrite cs_sum.
Qed.
End Acc.
Lemma every_map (f : nat -> V) n s : 1 <= s -> every zero s (map f (seq 0 (S n))) = map (fun k => f (k * s)) (seq 0 (n / s + 1)).
Proof.
  intros Hs. unfold every. rewrite map_length, seq_length. change ((S n + s - 1) / s) with (mults s (S n)). rewrite mults_S by auto. apply map_ext_in. intros k Hk. apply in_seq in Hk.
  apply (@nth_map_seq _ f). assert (DM := Nat.div_mod n s ltac:(lia)). assert (k * s <= (n / s) * s) by (apply Nat.mul_le_mono_r; lia). lia.
Qed.
(** what one rank filters with one piece of the kernel *)
Lemma filtered_split (a v : dnd V) (d : dist V) lv P r K : length d = P -> 2 <= P -> glob (pieces v) = lv -> length (d_locals v) = P -> 1 <= K -> length (kernel_piece zero lv P r) = K ->
  (forall q, q < P -> K - K / 2 <= length (nth q d [])) ->
  forall sigs, length sigs = P -> (forall q, q < P -> with_halo d (K / 2) q = Ok (nth q sigs [])) ->
  filtered zero add mul a v sigs r = Ok (map (corr (glob d) (kernel_piece zero lv P r)) (seq 0 (length (glob d) - K + 1))).
Proof.
  intros Ld HP EV EL HK EK HC sigs Ls Hs. unfold filtered. rewrite EV, EL, Ls. set (w := kernel_piece zero lv P r) in *.
  destruct (ranks_cover zero add mul d K (K / 2) HK eq_refl ltac:(lia) ltac:(intros; apply HC; lia) w 1 EK ltac:(lia)) as (ls & E & Ll & G).
  assert (EQ : map (fun q => do o <- conv1d zero add mul (nth q sigs []) w 1; Ok (if negb (q =? 0) && Nat.even (length w) then skipn 1 o else o)) (seq 0 P)
             = map (rank_out zero add mul d K (K / 2) w 1) (seq 0 (length d))).
  { rewrite Ld. apply map_ext_in. intros q Hq. apply in_seq in Hq. unfold rank_out. rewrite Hs by lia. cbn [bind Nat.ltb Nat.leb Nat.eqb]. rewrite EK, andb_true_r.
    pose proof (window zero add mul d K (K / 2) HK eq_refl ltac:(lia) ltac:(intros; apply HC; lia) q ltac:(lia)) as W. rewrite Hs in W by lia. apply Ok_inj in W.
    pose proof (len_window zero add mul d K (K / 2) HK eq_refl ltac:(lia) ltac:(intros; apply HC; lia) q ltac:(lia)) as (L1 & L2 & L3).
    destruct (Nat.leb_spec K (length (nth q sigs []))) as [F|F]; [reflexivity|]. exfalso. rewrite W, sub_length in F by lia. lia. }
  rewrite EQ, E. cbn [bind]. rewrite G. rewrite Nat.div_1_r. f_equal. apply map_ext. intros k. f_equal. lia.
Qed.
Lemma filtered_none (a v : dnd V) (A : list V) lv P r K : 1 <= P -> glob (pieces v) = lv -> length (d_locals v) = P -> 1 <= K <= length A -> length (kernel_piece zero lv P r) = K ->
  exists rest, filtered zero add mul a v (repeat A P) r = Ok (map (corr A (kernel_piece zero lv P r)) (seq 0 (length A - K + 1)) ++ rest).
Proof.
  intros HP EV EL HK EK. unfold filtered. rewrite EV, EL, repeat_length. set (w := kernel_piece zero lv P r) in *.
  assert (C : conv1d zero add mul A w 1 = Ok (map (corr A w) (seq 0 (length A - K + 1)))).
  { unfold conv1d. rewrite EK. destruct (Nat.ltb_spec (length A) K); [lia|]. rewrite Nat.div_1_r. f_equal. apply map_ext. intros k. f_equal. lia. }
  set (o := map (corr A w) (seq 0 (length A - K + 1))) in *.
  assert (EQ : map (fun q => do o <- conv1d zero add mul (nth q (repeat A P) []) w 1; Ok (if negb (q =? 0) && Nat.even (length w) then skipn 1 o else o)) (seq 0 P)
             = map (fun q => Ok (if negb (q =? 0) && Nat.even (length w) then skipn 1 o else o)) (seq 0 P)).
  { apply map_ext_in. intros q Hq. apply in_seq in Hq. rewrite (nth_indep _ [] A) by (rewrite repeat_length; lia). rewrite nth_repeat, C. reflexivity. }
  rewrite EQ. destruct P as [|P']; [lia|]. cbn [seq map all_ok bind].
  assert (AO : forall l, exists ys, all_ok (map (fun q => Ok (if negb (q =? 0) && Nat.even (length w) then skipn 1 o else o)) l) = Ok ys).
  { induction l as [|x l [ys IH]]; [exists []; reflexivity|]. cbn [map all_ok bind]. rewrite IH. cbn [bind]. eauto. }
  destruct (AO (seq 1 P')) as [ys Ey]. rewrite Ey. cbn [bind Nat.eqb negb andb]. exists (concat ys). reflexivity.
Qed.
End V3.
