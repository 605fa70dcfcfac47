(** C62: padding a distributed array is padding the global array. *)
From Verif Require Import Base BaseLemmas LayoutModel TensorSpec NdSpec TensorLemmas NdLemmas OpsModel OpsProofs2 OpsProofs4 ShapeModel ShapeProps BinModel BinProofs BinProofs2 ReshapeModel ReshapeProofs RollModel RollProofs3 FactoryModel FactoryProps MatmulProofs2 SplitProps PadSpec PadModel PadProofs PadProofs2 PadProofs3.
Open Scope Z_scope.

(** the layout lets the first rank write the frame's beginning and one later rank its end: rank 0
    and rank min(extent, P) - 1 > 0 hold data and no rank after the latter does *)
Definition two_ends (N : Z) (cnts : list Z) : Prop :=
  let q := (Nat.min (Z.to_nat N) (length cnts) - 1)%nat in
  (0 < q)%nat /\ 1 <= nth 0 cnts 0 /\ 1 <= nth q cnts 0 /\ forall r, (q < r < length cnts)%nat -> nth r cnts 0 = 0.
(** conditions on the layout: nothing to do along the split axis, one process, or [two_ends] *)
Definition pad_ready (gsh : list Z) (split : option nat) (cnts : list Z) (p : pad_arg) : Prop :=
  match split with
  | None => True
  | Some s => (s < length gsh - addressed (length gsh) p)%nat \/ length cnts = 1%nat \/ two_ends (nth s gsh 0) cnts
  end.

Lemma rank_widths_ok n m w gsh s P r (ws : list (Z * Z)) : length w = (2 * m)%nat -> (m <= n)%nat -> (n - m <= s < n)%nat -> (r < P)%nat ->
  Forall (fun z => 0 <= z) w -> (forall k, (k < n)%nat -> before n w k = lo ws k /\ after n w k = hi ws k) -> 1 <= nth s gsh 0 ->
  let q := (Nat.min (Z.to_nat (nth s gsh 0%Z)) P - 1)%nat in (0 < q)%nat ->
  let wr := rank_widths n w gsh s P r in
  length wr = (2 * m)%nat /\ Forall (fun z => 0 <= z) wr /\ (forall k, (k < n)%nat -> k <> s -> before n wr k = lo ws k /\ after n wr k = hi ws k) /\
  before n wr s = (if (r =? 0)%nat then lo ws s else 0) /\ after n wr s = (if (r =? q)%nat then hi ws s else 0).
Proof.
  intros Lw Hm Hs Hr Wp B N1 q Hq wr.
  assert (EQ : (Z.of_nat r =? last_with_data gsh s P) = (r =? q)%nat).
  { unfold last_with_data, q. destruct (Z.leb_spec (nth s gsh 0) (Z.of_nat P)); destruct (Nat.eqb_spec r (Nat.min (Z.to_nat (nth s gsh 0%Z)) P - 1)); lia. }
  unfold wr, rank_widths. rewrite EQ. set (i := (2 * (n - s - 1))%nat).
  assert (Fu : forall l k, Forall (fun z : Z => 0 <= z) l -> Forall (fun z => 0 <= z) (upd l k 0)).
  { intros l k Hl. apply Forall_nth. intros j d0 Hj. rewrite upd_length in Hj. rewrite (nth_indep _ d0 0) by (now rewrite upd_length). rewrite RedistProofs.upd_nth. destruct (_ && _); [lia|]. rewrite Forall_forall in Hl. apply Hl, nth_In. auto. }
  assert (OT : forall l k, (k < n)%nat -> k <> s -> before n (upd l i 0) k = before n l k /\ after n (upd l i 0) k = after n l k /\
                 before n (upd l (i + 1) 0) k = before n l k /\ after n (upd l (i + 1) 0) k = after n l k).
  { intros l k Hk Nk. unfold before, after, i. rewrite !upd_other by lia. auto. }
  assert (HB : forall l, length l = (2 * m)%nat -> before n (upd l i 0) s = 0 /\ after n (upd l i 0) s = after n l s /\ before n (upd l (i + 1) 0) s = before n l s /\ after n (upd l (i + 1) 0) s = 0).
  { intros l Hl. unfold before, after, i. replace (n - 1 - s)%nat with (n - s - 1)%nat by lia. rewrite !upd_same by lia. rewrite !upd_other by lia. auto. }
  destruct (Nat.eqb_spec r 0) as [->|R0]; [|destruct (Nat.eqb_spec r q) as [->|Rq]].
  - rewrite upd_length. destruct (Nat.eqb_spec 0 q); [lia|]. destruct (HB w Lw) as (h1 & h2 & h3 & h4). split; [auto|]. split; [auto|]. split; [|rewrite h3, h4; split; [apply B; lia|auto]].
    intros k Hk Nk. destruct (OT w k Hk Nk) as (_ & _ & -> & ->). apply B; auto.
  - rewrite upd_length. destruct (HB w Lw) as (h1 & h2 & h3 & h4). split; [auto|]. split; [auto|]. split; [|rewrite h1, h2; split; [auto|apply B; lia]].
    intros k Hk Nk. destruct (OT w k Hk Nk) as (-> & -> & _). apply B; auto.
  - rewrite !upd_length. destruct (HB w Lw) as (h1 & h2 & h3 & h4). destruct (HB (upd w i 0)) as (h5 & h6 & h7 & h8); [now rewrite upd_length|]. split; [auto|]. split; [auto|]. split; [|rewrite h7, h8, h1; auto].
    intros k Hk Nk. destruct (OT (upd w i 0) k Hk Nk) as (_ & _ & -> & ->). destruct (OT w k Hk Nk) as (-> & -> & _). apply B; auto.
Qed.
Lemma no_zero (l : list Z) : Forall (fun z => 1 <= z) l -> existsb (Z.eqb 0) l = false.
Proof. intros H. apply not_true_is_false. intros E. apply existsb_exists in E as (z & I & E). rewrite Forall_forall in H. specialize (H z I). lia. Qed.

(** ht.pad(x, p, constant_values=c) is the padded global array, for every number of dimensions, of
    processes and of padded elements; the result is balanced, unless the width is the integer 0,
    when the array itself is returned. *)
Theorem C62_pad_partial : forall (A : Type) (dflt junk : A) (x : dnd A) (G : list Z -> A) (cnts : list Z) (p : pad_arg) (c : fill_arg A) (ws : list (Z * Z)) (vs : list (A * A)),
  rep x cnts G -> (0 < length cnts)%nat ->
  let n := length (d_gshape x) in
  widths n p ws -> fills n (addressed n p) c vs -> Forall (fun q => 0 <= fst q /\ 0 <= snd q) ws ->
  Forall (fun z => 1 <= z) (d_gshape x) ->
  pad_ready (d_gshape x) (d_split x) cnts p ->
  exists y cnts', pad dflt junk x p c = Ok y /\ d_gshape y = padded_shape (d_gshape x) ws /\ d_split y = d_split x /\
    rep y cnts' (padded G (d_gshape x) ws vs dflt) /\ length cnts' = length cnts /\
    (p <> PInt 0 -> forall s, d_split x = Some s -> cnts' = zcounts (nth s (padded_shape (d_gshape x) ws) 0) (length cnts)).
Proof.
  intros A dflt junk x G cnts p c ws vs HR HP n HW HV Hws H1 HY. unfold rep in *. set (gsh := d_gshape x) in *.
  destruct (flat_widths_ok n p ws HW) as (Lws & w & Ew & Lw & Hm & Bw). set (m := addressed n p) in *.
  pose proof (nonneg_widths n p ws w HW Ew Hws) as Wp.
  destruct (flat_values_ok n m c vs dflt HV Hm) as (Lvs & vt & Ev & Hc).
  destruct (match p with PInt 0 => true | _ => false end) eqn:EP.
  { assert (p = PInt 0) as -> by (destruct p as [[| |]| |]; try discriminate; auto). exists x, cnts. split; [reflexivity|].
    assert (Z1 : forall k, (k < n)%nat -> lo ws k = 0 /\ hi ws k = 0).
    { intros k Hk. inversion HW as [z Ez Ew'| | | |]. subst. unfold lo, hi. rewrite nth_repeat. auto. }
    assert (ES : padded_shape gsh ws = gsh).
    { unfold padded_shape. fold n. apply (idx_eq _ _ n); [now rewrite map_length, seq_length|auto|]. intros k Hk. rewrite (@nth_map_seq _ (fun k => lo ws k + nth k gsh 0 + hi ws k)) by auto. destruct (Z1 k Hk) as [-> ->]. lia. }
    split; [now rewrite ES|]. split; [auto|]. split; [|split; [auto|congruence]]. fold gsh. eapply ShapeProofs3.represents_ext; [|exact HR].
    intros idx Hidx. apply in_bounds_nth in Hidx as [LI Hidx]. rewrite padded_pel. fold n. rewrite pel_none.
    + f_equal. apply (idx_eq _ _ n); [auto|now rewrite map_length, seq_length|]. intros k Hk. rewrite (@nth_map_seq _ (fun k => nth k idx 0 - lo ws k)) by auto. destruct (Z1 k Hk) as [-> _]. lia.
    + intros k Hk. apply frame_false. destruct (Z1 k Hk) as [-> _]. specialize (Hidx k Hk). lia. }
  assert (EF : pad dflt junk x p c =
     (do ls <- all_ok (map (fun q => pad_rank junk gsh (d_split x) (length (d_locals x)) w c vt (fst q) (snd q)) (combine (seq 0 (length (d_locals x))) (d_locals x)));
      match d_split x with
      | None => Ok (mk_dnd ls (ash (hd (mk_arr [] (fun _ => junk)) ls)) None)
      | Some s => do yb <- array_is_split ls s; balance_nd dflt (fst yb) s
      end)).
  { unfold pad. fold gsh n. rewrite Ew. cbn [bind]. rewrite Lw, div2_2, Ev. cbn [bind]. destruct p as [[| |]| |]; try discriminate; reflexivity. }
  rewrite EF. clear EF. pose proof HR as (HL & Hn & HRs). destruct (d_split x) as [s|] eqn:Es.
  - (* split along s *)
    pose proof HRs as (Hs & Hcp & Hsum & HRr). fold n in Hs. assert (HPl : (0 < length (d_locals x))%nat) by lia.
    assert (N1 : 1 <= nth s gsh 0) by (rewrite Forall_forall in H1; apply H1, nth_In; auto).
    assert (OTHER : exists q, (q < length (d_locals x))%nat /\ forall r t, nth_error (d_locals x) r = Some t ->
        exists y, pad_rank junk gsh (Some s) (length (d_locals x)) w c vt r t = Ok y /\ rank_ok dflt G gsh cnts s (d_locals x) vs ws q r y).
    { destruct (pads_axis n w s && negb (length (d_locals x) =? 1)%nat) eqn:PC.
      - (* frame written by two ranks *)
        apply andb_true_iff in PC as [PA PN]. unfold pads_axis in PA. rewrite Lw, div2_2 in PA. apply Nat.leb_le in PA. apply negb_true_iff, Nat.eqb_neq in PN.
        assert (T : two_ends (nth s gsh 0) cnts) by (destruct HY as [HY|[HY|HY]]; [fold n m in HY; lia|lia|auto]).
        destruct T as (T0 & T1 & T2 & T3). rewrite <- HL in *. set (q := (Nat.min (Z.to_nat (nth s gsh 0%Z)) (length (d_locals x)) - 1)%nat) in *.
        exists q. split; [unfold q; lia|]. intros r t Ht. assert (Hr : (r < length (d_locals x))%nat) by (apply nth_error_Some; congruence).
        pose proof (Forall_nth0 cnts r Hcp) as C0. destruct (Z.eq_dec (nth r cnts 0) 0) as [CZ|CZ].
        + eapply empty_rank; eauto; intros ->; lia.
        + assert (EX : existsb (Z.eqb 0) (ash t) = false).
          { destruct (HRr r t Ht) as [-> _]. apply no_zero. apply OpsProofs5.Forall_upd; [auto|lia]. }
          unfold pad_rank. rewrite EX. fold n. replace (pads_axis n w s) with true by (symmetry; unfold pads_axis; rewrite Lw, div2_2; now apply Nat.leb_le).
          replace (length (d_locals x) =? 1)%nat with false by (symmetry; now apply Nat.eqb_neq). cbn [negb andb].
          destruct (rank_widths_ok n m w gsh s (length (d_locals x)) r ws Lw Hm ltac:(lia) Hr Wp Bw N1 T0) as (W1 & W2 & W3 & W4 & W5). fold q in W5.
          eapply full_rank with (w := w); eauto; try lia.
      - (* every rank pads all axes *)
        assert (PL : forall r t, nth_error (d_locals x) r = Some t -> nth r cnts 0 <> 0 -> pad_rank junk gsh (Some s) (length (d_locals x)) w c vt r t = pad_local n t w c vt).
        { intros r t Ht CZ. assert (EX : existsb (Z.eqb 0) (ash t) = false).
          { destruct (HRr r t Ht) as [-> _]. apply no_zero. apply OpsProofs5.Forall_upd; [auto|]. pose proof (Forall_nth0 cnts r Hcp). lia. }
          unfold pad_rank. rewrite EX. fold n. now rewrite PC. }
        destruct (Nat.eq_dec (length (d_locals x)) 1) as [E1|NE].
        + exists 0%nat. split; [lia|]. intros r t Ht. assert (Hr : (r < length (d_locals x))%nat) by (apply nth_error_Some; congruence). assert (r = 0%nat) as -> by lia.
          assert (C1 : nth 0 cnts 0 = nth s gsh 0) by (rewrite <- Hsum; destruct cnts as [|c0 [|]]; cbn in HL, HP; try lia; unfold zsum; cbn; lia).
          rewrite (PL 0%nat t Ht) by lia. eapply full_rank with (w := w); eauto; try lia; cbn [Nat.eqb]; apply Bw; auto.
        + assert (PA : pads_axis n w s = false) by (apply andb_false_iff in PC as [PC|PC]; [auto|]; apply negb_false_iff, Nat.eqb_eq in PC; contradiction).
          unfold pads_axis in PA. rewrite Lw, div2_2 in PA. apply Nat.leb_gt in PA.
          assert (Z0 : lo ws s = 0 /\ hi ws s = 0).
          { destruct (Bw s Hs) as [<- <-]. unfold before, after. rewrite !nth_overflow by lia. auto. }
          destruct Z0 as [Z0 Z0']. exists (length (d_locals x) - 1)%nat. split; [lia|]. intros r t Ht. assert (Hr : (r < length (d_locals x))%nat) by (apply nth_error_Some; congruence).
          pose proof (Forall_nth0 cnts r Hcp) as C0. destruct (Z.eq_dec (nth r cnts 0) 0) as [CZ|CZ].
          * eapply empty_rank; eauto.
          * rewrite (PL r t Ht CZ). destruct (Bw s Hs) as [B1 B2]. eapply full_rank with (w := w); eauto; try lia.
            { fold n. rewrite B1, Z0. now destruct (r =? 0)%nat. } { fold n. rewrite B2, Z0'. now destruct (r =? _)%nat. } }
    destruct OTHER as (q & Hq & RK).
    destruct (all_ok_list (fun q0 => pad_rank junk gsh (Some s) (length (d_locals x)) w c vt (fst q0) (snd q0)) (rank_ok dflt G gsh cnts s (d_locals x) vs ws q)
                (combine (seq 0 (length (d_locals x))) (d_locals x)) 0) as (ys & Ey & Ly & Iy).
    { intros r [r' t] Hrt. apply nth_error_pairs in Hrt as [HA HB]. assert (Hr : (r < length (d_locals x))%nat) by (apply nth_error_Some; congruence).
      rewrite (nth_error_nth' _ 0%nat) in HA by (now rewrite seq_length). rewrite seq_nth in HA by auto. injection HA as <-. cbn [fst snd Nat.add]. apply RK; auto. }
    rewrite combine_length, seq_length, Nat.min_id in Ly. cbn [Nat.add] in Iy. rewrite Ey. cbn [bind].
    assert (R' : represents (padded G gsh ws vs dflt) (padded_shape gsh ws) (Some s) (owner_counts cnts s (d_locals x) ws q) ys) by (eapply ranks_represent; eauto).
    destruct (C55_array_is_split A ys s _ _ _ R' ltac:(lia)) as (z & bal & Ez & Gz & Sz & Lz & Rz & _). rewrite Ez. cbn [bind fst].
    unfold rep in Rz. rewrite Gz, Sz, Lz in Rz.
    assert (Lc : length (owner_counts cnts s (d_locals x) ws q) = length cnts) by (unfold owner_counts; rewrite map_length, seq_length; auto).
    destruct (RollProofs3.balance_nd_ok dflt z (padded G gsh ws vs dflt) (owner_counts cnts s (d_locals x) ws q) s) as (y & Eb & Gy & Sy & Ry); [now rewrite Gz, Lz|lia|].
    exists y, (zcounts (nth s (padded_shape gsh ws) 0) (length cnts)). rewrite Eb. split; [auto|]. split; [congruence|]. split; [congruence|].
    rewrite Gz, Lc in Ry. split; [rewrite Gy, Gz, Sy, Sz; exact Ry|]. split.
    { apply zcounts_ok; [lia|]. destruct R' as (_ & Hn' & Hs' & _). rewrite Forall_forall in Hn'. apply Hn', nth_In. auto. }
    intros _ s' E. injection E as <-. auto.
  - (* not split *)
    assert (RK : forall r t, nth_error (d_locals x) r = Some t -> exists y, pad_rank junk gsh None (length (d_locals x)) w c vt r t = Ok y /\ agrees y (padded_shape gsh ws) (padded G gsh ws vs dflt)).
    { intros r t Ht. destruct (HRs t ltac:(eapply nth_error_In; eauto)) as [St Dt]. unfold pad_rank. rewrite St, no_zero by auto. fold n.
      destruct (pad_local_ok t n m w c vt vs dflt) as (y & E & Sy & Dy); auto; [now rewrite St|now rewrite St|].
      exists y. split; [exact E|].
      assert (SH : ash y = padded_shape gsh ws).
      { rewrite Sy, St. unfold ext_of, padded_shape. fold n. apply map_ext_in. intros k Hk. apply in_seq in Hk. destruct (Bw k) as [-> ->]; lia. }
      split; [exact SH|]. intros idx Hidx. rewrite Dy by (now rewrite SH). rewrite padded_pel. fold n. rewrite St. apply pel_ext; auto.
      - intros k Hk. apply Bw; auto.
      - intros NF. apply Dt. apply in_bounds_nth. rewrite map_length, seq_length. split; [auto|]. intros k Hk. rewrite (@nth_map_seq _ (fun k => nth k idx 0 - before n w k)) by auto.
        specialize (NF k Hk). apply frame_false in NF. lia. }
    destruct (all_ok_list (fun q0 => pad_rank junk gsh None (length (d_locals x)) w c vt (fst q0) (snd q0)) (fun _ y => agrees y (padded_shape gsh ws) (padded G gsh ws vs dflt))
                (combine (seq 0 (length (d_locals x))) (d_locals x)) 0) as (ys & Ey & Ly & Iy).
    { intros r [r' t] Hrt. apply nth_error_pairs in Hrt as [HA HB]. assert (Hr : (r < length (d_locals x))%nat) by (apply nth_error_Some; congruence).
      rewrite (nth_error_nth' _ 0%nat) in HA by (now rewrite seq_length). rewrite seq_nth in HA by auto. injection HA as <-. cbn [fst snd Nat.add]. apply RK; auto. }
    rewrite combine_length, seq_length, Nat.min_id in Ly. rewrite Ey. cbn [bind].
    destruct ys as [|y0 ys]; [cbn in Ly; lia|]. destruct (Iy 0%nat y0 eq_refl) as [S0 _]. cbn [hd]. rewrite S0.
    exists (mk_dnd (y0 :: ys) (padded_shape gsh ws) None), cnts. split; [reflexivity|]. split; [reflexivity|]. split; [reflexivity|]. cbn [d_gshape d_split d_locals].
    split; [|split; [auto|discriminate]]. split; [lia|]. split.
    + apply Forall_forall. intros z Hz. unfold padded_shape in Hz. fold n in Hz. apply in_map_iff in Hz as (k & <- & Hk). apply in_seq in Hk.
      assert (1 <= nth k gsh 0) by (rewrite Forall_forall in H1; apply H1, nth_In; fold n; lia).
      assert (0 <= lo ws k /\ 0 <= hi ws k) by (rewrite Forall_forall in Hws; apply Hws; apply nth_In; lia). lia.
    + intros t Ht. apply In_nth_error in Ht as (r & Hr). apply (Iy r t Hr).
Qed.
Print Assumptions C62_pad_partial.

(** the usual case: a balanced array, every extent at least 1, at least two elements along a
    padded split axis *)
Theorem C62_balanced_ready : forall (gsh : list Z) (s P : nat) (p : pad_arg), (0 < P)%nat -> 2 <= nth s gsh 0 ->
  pad_ready gsh (Some s) (zcounts (nth s gsh 0) P) p.
Proof.
  intros gsh s P p HP HN. cbn [pad_ready]. set (N := nth s gsh 0) in *. destruct (zcounts_ok N P HP ltac:(lia)) as (L & F & SM). rewrite L.
  destruct (Nat.eq_dec P 1) as [E1|NE]; [right; left; auto|]. right. right. unfold two_ends. rewrite L.
  assert (DV := Z.div_mod N (Z.of_nat P) ltac:(lia)). assert (MB := Z.mod_pos_bound N (Z.of_nat P) ltac:(lia)).
  split; [lia|]. rewrite !zcounts_nth by lia.
  destruct (Z.lt_ge_cases N (Z.of_nat P)) as [LT|GE].
  - rewrite Z.div_small, Z.mod_small by lia. replace (Nat.min (Z.to_nat N) P - 1)%nat with (Z.to_nat N - 1)%nat by lia.
    split; [destruct (Z.ltb_spec (Z.of_nat 0) N); lia|]. split; [destruct (Z.ltb_spec (Z.of_nat (Z.to_nat N - 1)) N); lia|].
    intros r Hr. rewrite zcounts_nth by lia. rewrite Z.div_small, Z.mod_small by lia. destruct (Z.ltb_spec (Z.of_nat r) N); lia.
  - assert (1 <= N / Z.of_nat P) by (apply Z.div_le_lower_bound; lia). split; [destruct (_ <? _); lia|]. split; [destruct (_ <? _); lia|]. intros r Hr. lia.
Qed.
Print Assumptions C62_balanced_ready.
