(** C90: trace. *)
From Verif Require Import Base ShapeSpec BaseLemmas LayoutModel NdSpec TensorSpec TensorLemmas NdLemmas OpsModel OpsProofs4 OpsProofs5 RedistModel ShapeModel ShapeProofs3 ShapeProps VmapSpec VmapProofs PtpProofs BinModel BinProofs2 BinOutModel BcProps MeshProps FactoryModel FactoryProps TraceSpec TraceModel TraceProofs.
Open Scope Z_scope.

Lemma norm_axis n a b : names_axis n a b -> (if a <? 0 then a mod Z.of_nat n else a) = Z.of_nat b.
Proof.
  intros [Hb [-> | ->]].
  - now rewrite (proj2 (Z.ltb_ge _ _)) by lia.
  - rewrite (proj2 (Z.ltb_lt _ _)) by lia. replace (Z.of_nat b - Z.of_nat n) with (Z.of_nat b + -1 * Z.of_nat n) by lia. rewrite Z.mod_add by lia. apply Z.mod_small. lia.
Qed.
Lemma diag_swap (F : Z -> Z -> Z) n m k : 0 <= n -> 0 <= m -> diag_sum (fun i j => F j i) m n k = diag_sum F n m (- k).
Proof.
  intros Hn Hm. rewrite <- !diag_pos_sum by auto. unfold diag_pos. rewrite !map_map. cbn [fst snd]. rewrite Z.opp_involutive, (Z.min_comm (n - _)). reflexivity.
Qed.
(** both orders of the axes *)
Lemma trace_of_swap sh G k a1 a2 idx : (a1 <> a2) -> Forall (fun n => 0 <= n) sh -> (a1 < length sh)%nat -> (a2 < length sh)%nat -> trace_of sh G k a2 a1 idx = trace_of sh G (- k) a1 a2 idx.
Proof.
  intros N Hn H1 H2. unfold trace_of. rewrite <- (diag_swap (fun i j => G (at_axes a1 a2 i j idx))) by (rewrite Forall_forall in Hn; apply Hn, nth_In; auto).
  apply diag_sum_ext. intros i j _ _. unfold at_axes. destruct (Nat.ltb_spec a2 a1), (Nat.ltb_spec a1 a2); try lia; reflexivity.
Qed.
Lemma start_trace x k a1 a2 b1 b2 : names_axis (length (d_gshape x)) a1 b1 -> names_axis (length (d_gshape x)) a2 b2 -> b1 <> b2 ->
  exists m M, (m < M)%nat /\ (M < length (d_gshape x))%nat /\ (m = b1 /\ M = b2 \/ m = b2 /\ M = b1) /\
  trace x k a1 a2 = (let n := length (d_gshape x) in let P := length (d_locals x) in
  if (n =? 2)%nat then Ok (Scalar (trace2 x k))
  else if is_dist x && match d_split x with Some s => (s =? m)%nat || (s =? M)%nat | None => false end
  then match d_split x with
       | Some s =>
         do ts <- all_ok (map (fun p => one_diag (snd p) (moved_offset x m (fst p) k) m M) (combine (seq 0 P) (d_locals x)));
         do y <- array_split P (sum_all ts) (AxInt (Z.of_nat (Nat.min s (n - 3))));
         Ok (Array y)
       | None => Err RuntimeError end
  else
  let ys := map (fun t => diag_sums t k m M) (d_locals x) in
  match d_split x with
  | Some s =>
      if is_dist x
      then let g := if (s <? M)%nat then s else (s - 2)%nat in
           do y <- array_is_split ys (Nat.min g (n - 3)); Ok (Array (fst y))
      else Ok (Array (mk_dnd ys (ash (nth 0 ys (mk_arr [] (fun _ => 0)))) (Some (Nat.min s (n - 3)))))
  | None => Ok (Array (mk_dnd ys (ash (nth 0 ys (mk_arr [] (fun _ => 0)))) None))
  end).
Proof.
  intros A1 A2 N. exists (Nat.min b1 b2), (Nat.max b1 b2). pose proof (proj1 A1) as B1. pose proof (proj1 A2) as B2. split; [lia|]. split; [lia|]. split; [lia|].
  unfold trace. rewrite (norm_axis _ _ _ A1), (norm_axis _ _ _ A2). rewrite (proj2 (Nat.ltb_ge _ _)) by lia. rewrite (proj2 (Z.eqb_neq (Z.of_nat b1) (Z.of_nat b2))) by lia. rewrite !(proj2 (Z.leb_gt _ _)) by lia. cbn [orb].
  replace (Z.to_nat (Z.min (Z.of_nat b1) (Z.of_nat b2))) with (Nat.min b1 b2) by lia. replace (Z.to_nat (Z.max (Z.of_nat b1) (Z.of_nat b2))) with (Nat.max b1 b2) by lia. reflexivity.
Qed.
(** what the code computes, at2 with sorted axes, is what the specification says if the axes are in
    order or the offset is zero *)
Lemma sorted_trace sh G k b1 b2 m M idx : (m < M)%nat -> (M < length sh)%nat -> Forall (fun n => 0 <= n) sh -> (m = b1 /\ M = b2 \/ m = b2 /\ M = b1) -> ((b1 < b2)%nat \/ k = 0) ->
  diag_sum (fun i j => G (at2 m M i j idx)) (nth m sh 0) (nth M sh 0) k = trace_of sh G k b1 b2 idx.
Proof.
  intros H1 H2 Hn HB HK. assert (E : diag_sum (fun i j => G (at2 m M i j idx)) (nth m sh 0) (nth M sh 0) k = trace_of sh G k m M idx) by (unfold trace_of, at_axes; rewrite (proj2 (Nat.ltb_lt m M) H1); reflexivity). rewrite E.
  destruct HB as [[-> ->]|[-> ->]]; [reflexivity|]. destruct HK as [HK|HK]; [lia|]. subst k. rewrite (trace_of_swap sh G 0 b2 b1) by (auto; lia). reflexivity.
Qed.
Lemma without_sorted b1 b2 m M sh : (m < M)%nat -> (m = b1 /\ M = b2 \/ m = b2 /\ M = b1) -> without b1 b2 sh = del m (del M sh).
Proof. intros H [[-> ->]|[-> ->]]; unfold without; destruct (Nat.ltb_spec b1 b2); try lia; reflexivity. Qed.

(** sums over the processes *)
Lemma parts_sum {A} (f : nat -> arr A -> Z) (ls : list (arr A)) (g : nat -> Z) : (forall r t, nth_error ls r = Some t -> f r t = g r) ->
  zsum (map (fun p => f (fst p) (snd p)) (combine (seq 0 (length ls)) ls)) = zsum (map g (seq 0 (length ls))).
Proof.
  intros H. f_equal. apply nth_error_ext'. intros r. rewrite !nth_error_map. destruct (nth_error ls r) as [t|] eqn:E.
  - assert (Hr : (r < length ls)%nat) by (apply nth_error_Some; congruence). assert (Es : nth_error (seq 0 (length ls)) r = Some r) by (rewrite (nth_error_nth' _ 0%nat) by (now rewrite seq_length); now rewrite seq_nth).
    rewrite Es. assert (Ec : nth_error (combine (seq 0 (length ls)) ls) r = Some (r, t)) by (apply nthc; auto). rewrite Ec. cbn. f_equal. auto.
  - apply nth_error_None in E. assert (E1 : nth_error (combine (seq 0 (length ls)) ls) r = None) by (apply nth_error_None; rewrite combine_length, seq_length; lia). assert (E2 : nth_error (seq 0 (length ls)) r = None) by (apply nth_error_None; rewrite seq_length; lia). now rewrite E1, E2.
Qed.
Lemma total_sum (F : Z -> Z -> Z) gsh s b1 b2 c k : (s = b1 \/ s = b2) -> b1 <> b2 -> (b1 < length gsh)%nat -> (b2 < length gsh)%nat -> Forall (fun n => 0 <= n) c -> zsum c = nth s gsh 0 ->
  zsum (map (fun r => diag_sum (fun i j => if (s =? b1)%nat then F (i + zsum (firstn r c)) j else F i (j + zsum (firstn r c))) (nth b1 (upd gsh s (nth r c 0)) 0) (nth b2 (upd gsh s (nth r c 0)) 0) (if (s =? b1)%nat then k + zsum (firstn r c) else k - zsum (firstn r c))) (seq 0 (length c)))
  = diag_sum F (nth b1 gsh 0) (nth b2 gsh 0) k.
Proof.
  intros HS N H1 H2 Hc Hsum. destruct HS as [-> | ->].
  - rewrite Nat.eqb_refl, <- Hsum, <- diag_rows by exact Hc. apply zsum_ext. intros r _. rewrite upd_same, upd_other by auto. reflexivity.
  - rewrite (proj2 (Nat.eqb_neq b2 b1)) by auto. rewrite <- Hsum, <- diag_cols by exact Hc. apply zsum_ext. intros r _. rewrite upd_same, upd_other by auto. reflexivity.
Qed.
Lemma moved_ok x b1 r k s : d_split x = Some s -> (1 < length (d_locals x))%nat -> (r < length (d_locals x))%nat -> let o := zsum (firstn r (zcounts (nth s (d_gshape x) 0) (length (d_locals x)))) in
  @moved_offset Z x b1 r k = if (s =? b1)%nat then k + o else k - o.
Proof. intros E HP Hr. unfold moved_offset, is_dist. rewrite E, (proj2 (Nat.ltb_lt _ _) HP). unfold chunk_off. destruct (chunk_counts (d_gshape x) s r (length (d_locals x)) ltac:(lia) Hr) as [_ ->]. reflexivity. Qed.
Lemma dist_cases {A} (x : dnd A) : (exists s, d_split x = Some s /\ (1 < length (d_locals x))%nat /\ is_dist x = true) \/ (is_dist x = false /\ (d_split x = None \/ (length (d_locals x) <= 1)%nat)).
Proof. unfold is_dist. destruct (d_split x) as [s|]; [|auto]. destruct (Nat.ltb_spec 1 (length (d_locals x))); [left; eauto|right; split; [reflexivity|right; lia]]. Qed.
Lemma whole {A} (x : dnd A) c G : rep x c G -> (d_split x = None \/ (length (d_locals x) <= 1)%nat) -> forall t, In t (d_locals x) -> agrees t (d_gshape x) G.
Proof.
  intros R [E|L] t Ht; [unfold rep in R; rewrite E in R; now apply R|]. eapply one_rank_whole; [exact R| |exact Ht]. destruct (d_locals x) as [|a [|b l]]; [destruct Ht|reflexivity|cbn in L; lia].
Qed.

(** A matrix, replicated or split along either axis in the balanced layout: every process gets the
    sum of the elements [i, i + offset].  Partial: the code ignores the order of the axes (so the
    offset must be 0 or the axes in order) and the actual layout, see the refutations. *)
Theorem C90_trace_matrix_partial : forall (x : dnd Z) (G : list Z -> Z) (c : list Z) (n m k a1 a2 : Z) (b1 b2 : nat),
  rep x c G -> d_gshape x = [n; m] -> (forall s, d_split x = Some s -> c = zcounts (nth s [n; m] 0) (length (d_locals x))) ->
  names_axis 2 a1 b1 -> names_axis 2 a2 b2 -> b1 <> b2 -> ((b1 < b2)%nat \/ k = 0) ->
  trace x k a1 a2 = Ok (Scalar (repeat (trace_of [n; m] G k b1 b2 []) (length (d_locals x)))).
Proof.
  intros x G c n m k a1 a2 b1 b2 R GS HC A1 A2 N HK. assert (A1' := A1). assert (A2' := A2).
  destruct (start_trace x k a1 a2 b1 b2) as (b & B & H1 & H2 & HB & E); [now rewrite GS|now rewrite GS|exact N|]. rewrite E. rewrite GS. cbn [length Nat.eqb]. cbn zeta. f_equal. f_equal. clear E.
  rewrite GS in H2. cbn in H2. assert (b = 0%nat /\ B = 1%nat) as [-> ->] by lia.
  assert (Hn : Forall (fun n => 0 <= n) [n; m]) by (destruct R as (_ & Hn & _); rewrite GS in Hn; exact Hn).
  rewrite <- (sorted_trace [n; m] G k b1 b2 0 1) by (auto; cbn; lia). cbn [nth]. assert (0 <= n /\ 0 <= m) as [N0 M0] by (inversion Hn as [|? ? ? Hn']; subst; inversion Hn'; subst; auto).
  unfold trace2. rewrite GS. cbn [nth].
  (* the shortcut for offsets outside the matrix *)
  assert (OUT : (k <=? - n) || (m <=? k) = true -> diag_sum (fun i j => G (at2 0 1 i j [])) n m k = 0).
  { intros HO. apply zsum_0. intros i Hi. apply in_zr in Hi. apply orb_true_iff in HO as [HO|HO]; apply Z.leb_le in HO; destruct (Z.leb_spec 0 (i + k)), (Z.ltb_spec (i + k) m); cbn; try reflexivity; lia. }
  destruct (dist_cases x) as [(s & Es & HP & ED)|[ED HW]]; rewrite ED.
  - f_equal. assert (HS : s = 0%nat \/ s = 1%nat) by (unfold rep in R; rewrite Es, GS in R; destruct R as (_ & _ & Hs & _); cbn in Hs; lia).
    pose proof (HC s Es) as EC. unfold rep in R. rewrite Es, GS in R. destruct R as (L & _ & Hs & Hc & Hsum & HR).
    destruct ((k <=? - n) || (m <=? k)) eqn:EO; [rewrite OUT by reflexivity; apply zsum_0; intros; reflexivity|].
    rewrite (parts_sum (fun r t => loc_trace t (moved_offset x 0 r k)) (d_locals x) (fun r => diag_sum (fun i j => if (s =? 0)%nat then G (at2 0 1 (i + zsum (firstn r c)) j []) else G (at2 0 1 i (j + zsum (firstn r c)) []))
       (nth 0 (upd [n; m] s (nth r c 0)) 0) (nth 1 (upd [n; m] s (nth r c 0)) 0) (if (s =? 0)%nat then k + zsum (firstn r c) else k - zsum (firstn r c)))).
    + rewrite L. apply (total_sum (fun i j => G (at2 0 1 i j [])) [n; m] s 0 1 c k HS); auto; cbn; lia.
    + intros r t Et. assert (Hr : (r < length (d_locals x))%nat) by (apply nth_error_Some; congruence). rewrite (moved_ok x 0 r k s Es HP Hr). rewrite GS, <- EC.
      pose proof (HR r t Et) as AG. assert (Hcr : 0 <= nth r c 0) by (rewrite Forall_forall in Hc; apply Hc, nth_In; lia).
      assert (SH : ash t = [nth 0 (upd [n; m] s (nth r c 0)) 0; nth 1 (upd [n; m] s (nth r c 0)) 0]) by (rewrite (proj1 AG); destruct HS as [-> | ->]; reflexivity).
      rewrite (loc_trace_ok t _ _ _ SH) by (destruct HS as [-> | ->]; cbn; auto). apply diag_sum_ext. intros i j Hi Hj.
      pose proof (agrees_at2 t [n; m] G 0 1 s c r _ ltac:(lia) ltac:(cbn; lia) HS AG eq_refl i j [] Hi Hj) as EQ. change (at2 0 1 i j []) with [i; j] in EQ. rewrite EQ by constructor. destruct (s =? 0)%nat; reflexivity.
  - pose proof (whole x c G R HW) as AG. rewrite GS in AG.
    assert (EL : forall t r, In t (d_locals x) -> (if (k <=? - n) || (m <=? k) then 0 else loc_trace t (moved_offset x 0 r k)) = diag_sum (fun i j => G (at2 0 1 i j [])) n m k).
    { intros t r Ht. destruct ((k <=? - n) || (m <=? k)) eqn:EO; [now rewrite OUT|]. unfold moved_offset. rewrite ED. destruct (AG t Ht) as [S D]. rewrite (loc_trace_ok t k n m S N0 M0). apply diag_sum_ext. intros i j Hi Hj. apply D. repeat constructor; lia. }
    clear - EL. assert (GEN : forall q, (forall t r, In t (d_locals x) -> (if (k <=? - n) || (m <=? k) then 0 else loc_trace t (moved_offset x 0 r k)) = diag_sum (fun i j => G (at2 0 1 i j [])) n m k) ->
       map (fun p : nat * arr Z => if (k <=? - n) || (m <=? k) then 0 else loc_trace (snd p) (moved_offset x 0 (fst p) k)) (combine (seq q (length (d_locals x))) (d_locals x)) = repeat (diag_sum (fun i j => G (at2 0 1 i j [])) n m k) (length (d_locals x))); [|now apply GEN].
    generalize (moved_offset x 0). intros mo. induction (d_locals x) as [|t ls IH]; intros q H; [reflexivity|]. cbn [length seq combine map repeat fst snd]. rewrite H by now left. f_equal. apply IH; [intros; apply EL; now right|]. intros t' r Ht. apply H. now right.
Qed.
Print Assumptions C90_trace_matrix_partial.

(** More than two dimensions, the split axis (if any) before or behind both axes, or one process:
    any layout, also unbalanced.  Partial: see C90_trace_split_partial for the remaining case, and
    the refutations. *)
Theorem C90_trace_partial : forall (x : dnd Z) (G : list Z -> Z) (c : list Z) (k a1 a2 : Z) (b1 b2 : nat),
  rep x c G -> (0 < length (d_locals x))%nat -> (2 < length (d_gshape x))%nat ->
  names_axis (length (d_gshape x)) a1 b1 -> names_axis (length (d_gshape x)) a2 b2 -> b1 <> b2 -> ((b1 < b2)%nat \/ k = 0) ->
  (length (d_locals x) = 1%nat \/ forall s, d_split x = Some s -> (s < b1 /\ s < b2 \/ b1 < s /\ b2 < s)%nat) ->
  exists y cy, trace x k a1 a2 = Ok (Array y) /\ d_gshape y = without b1 b2 (d_gshape x) /\ length (d_locals y) = length (d_locals x) /\
    (forall s, d_split x = Some s -> (1 < length (d_locals x))%nat -> cy = c /\ d_split y = Some (if (s <? b1)%nat then s else s - 2)%nat) /\
    (d_split x = None -> d_split y = None) /\ rep y cy (trace_of (d_gshape x) G k b1 b2).
Proof.
  intros x G c k a1 a2 b1 b2 R HP HN A1 A2 N HK HS.
  destruct (start_trace x k a1 a2 b1 b2 A1 A2 N) as (b & B & H1 & H2 & HB & E). rewrite E. clear E. cbn zeta. rewrite (proj2 (Nat.eqb_neq _ _)) by lia.
  assert (Hn : Forall (fun n => 0 <= n) (d_gshape x)) by apply R.
  assert (TR : forall idx, diag_sum (fun i j => G (at2 b B i j idx)) (nth b (d_gshape x) 0) (nth B (d_gshape x) 0) k = trace_of (d_gshape x) G k b1 b2 idx) by (intros idx; now apply sorted_trace).
  rewrite (without_sorted b1 b2 b B) by auto.
  pose proof (del_length B (d_gshape x) H2) as L2. assert (L1 : S (length (del b (del B (d_gshape x)))) = length (del B (d_gshape x))) by (apply del_length; lia).
  destruct (dist_cases x) as [(s & Es & P1 & ED)|[ED HW]].
  - destruct HS as [HS|HS]; [lia|]. specialize (HS s Es). rewrite ED, Es. rewrite (proj2 (Nat.eqb_neq s b)), (proj2 (Nat.eqb_neq s B)) by lia. cbn [andb orb].
    assert (EG : Nat.min (if (s <? B)%nat then s else (s - 2)%nat) (length (d_gshape x) - 3) = down2 b B s).
    { assert (s < length (d_gshape x))%nat by (unfold rep in R; rewrite Es in R; apply R). unfold down2, down. destruct (Nat.ltb_spec s B), (Nat.ltb_spec B s); try lia; destruct (Nat.ltb_spec b (s - 1)), (Nat.ltb_spec b s); lia. }
    rewrite EG. unfold rep in R. rewrite Es in R.
    pose proof (traces_represent (d_gshape x) G k b B s c (d_locals x) H1 H2 ltac:(lia) ltac:(lia) R) as RT.
    destruct (C55_array_is_split Z _ _ _ _ _ RT) as (y & bal & EY & GY & SY & LY & RY & _); [rewrite map_length; lia|]. rewrite EY. cbn [bind fst]. exists y, c.
    split; [reflexivity|]. split; [exact GY|]. split; [rewrite LY; apply map_length|]. split.
    + intros s' [= <-] _. split; [reflexivity|]. rewrite SY. f_equal. unfold down2, down. destruct (Nat.ltb_spec s b1), (Nat.ltb_spec B s); try lia; [destruct (Nat.ltb_spec b s)|destruct (Nat.ltb_spec b (s - 1))]; lia.
    + split; [intros HX; discriminate HX|]. unfold rep in *. eapply represents_ext; [|exact RY]. intros idx _. apply TR.
  - rewrite ED. cbn [andb]. pose proof (whole x c G R HW) as AG.
    assert (AY : forall t, In t (map (fun t => diag_sums t k b B) (d_locals x)) -> agrees t (del b (del B (d_gshape x))) (trace_of (d_gshape x) G k b1 b2)).
    { intros t Ht. apply in_map_iff in Ht as (t0 & <- & Ht). destruct (diag_sums_ok t0 (d_gshape x) G k b B H1 H2 Hn (AG t0 Ht)) as [S D]. split; [exact S|]. intros idx Hi. rewrite D by exact Hi. apply TR. }
    assert (E0 : ash (nth 0 (map (fun t => diag_sums t k b B) (d_locals x)) (mk_arr [] (fun _ => 0))) = del b (del B (d_gshape x))) by (apply AY, nth_In; rewrite map_length; exact HP).
    assert (HL : length (d_locals x) = length c) by apply R.
    assert (HN' : Forall (fun n => 0 <= n) (del b (del B (d_gshape x)))) by now apply del_all, del_all.
    destruct (d_split x) as [s|] eqn:Es.
    + destruct HW as [HW|HW]; [discriminate HW|]. assert (EP : length (d_locals x) = 1%nat) by lia. eexists. exists [nth (Nat.min s (length (d_gshape x) - 3)) (del b (del B (d_gshape x))) 0]. split; [reflexivity|]. cbn [d_gshape d_split d_locals]. split; [exact E0|]. split; [apply map_length|].
      split; [intros; lia|]. split; [intros HX; discriminate HX|]. unfold rep. cbn [d_gshape d_split d_locals]. rewrite E0. split; [rewrite map_length; exact EP|]. split; [exact HN'|]. split; [lia|]. split; [repeat constructor; rewrite Forall_forall in HN'; apply HN', nth_In; lia|]. split; [unfold zsum; cbn; lia|].
      intros [|r] t Et; [|exfalso; assert (S r < length (map (fun t => diag_sums t k b B) (d_locals x)))%nat by (apply nth_error_Some; congruence); rewrite map_length in *; lia].
      destruct (AY t (nth_error_In _ _ Et)) as [S D]. cbn [nth firstn]. rewrite upd_self. split; [exact S|]. intros idx Hi. rewrite D by exact Hi. unfold move_axis_idx. change (zsum []) with 0. now rewrite Z.add_0_r, upd_self.
    + eexists. exists c. split; [reflexivity|]. cbn [d_gshape d_split d_locals]. split; [exact E0|]. split; [apply map_length|]. split; [intros s HX; discriminate HX|]. split; [reflexivity|]. unfold rep. cbn [d_gshape d_split d_locals]. rewrite E0. split; [rewrite map_length; exact HL|]. split; [exact HN'|]. exact AY.
Qed.
Print Assumptions C90_trace_partial.

Lemma one_diag_ok t sh F k b1 b2 : (b1 < b2)%nat -> (b2 < length sh)%nat -> Forall (fun n => 0 <= n) sh -> Forall (fun n => 1 <= n) (del b1 (del b2 sh)) -> (nth b1 sh 0 <= 1 \/ nth b2 sh 0 <= 1) -> ash t = sh ->
  (forall i j idx, 0 <= i < nth b1 sh 0 -> 0 <= j < nth b2 sh 0 -> in_bounds (del b1 (del b2 sh)) idx -> adat t (at2 b1 b2 i j idx) = F i j idx) ->
  exists z, one_diag t k b1 b2 = Ok z /\ agrees z (del b1 (del b2 sh)) (fun idx => diag_sum (fun i j => F i j idx) (nth b1 sh 0) (nth b2 sh 0) k).
Proof.
  intros H1 H2 Hn Hp H3 SS D. unfold one_diag. rewrite SS. set (rest := del b1 (del b2 sh)) in *.
  assert (E0 : existsb (Z.eqb 0) rest = false). { apply not_true_is_false. intros HE. apply existsb_exists in HE as (v & Hv & HE). apply Z.eqb_eq in HE. rewrite Forall_forall in Hp. specialize (Hp v Hv). lia. }
  assert (EM : map (fun n => if n =? 0 then 1 else n) rest = rest). { rewrite <- map_id. apply map_ext_in. intros v Hv. rewrite Forall_forall in Hp. specialize (Hp v Hv). rewrite (proj2 (Z.eqb_neq v 0)) by lia. reflexivity. }
  assert (N1 : 0 <= nth b1 sh 0) by (rewrite Forall_forall in Hn; apply Hn, nth_In; lia). assert (N2 : 0 <= nth b2 sh 0) by (rewrite Forall_forall in Hn; apply Hn, nth_In; lia).
  assert (LD : (length (diag_pos (nth b1 sh 0) (nth b2 sh 0) k)%Z <= 1)%nat) by (unfold diag_pos; rewrite map_length, length_zr; lia).
  assert (SD : forall idx, zsum (map (fun p => F (fst p) (snd p) idx) (diag_pos (nth b1 sh 0) (nth b2 sh 0) k)) = diag_sum (fun i j => F i j idx) (nth b1 sh 0) (nth b2 sh 0) k) by (intros idx; apply (diag_pos_sum (fun i j => F i j idx)); auto).
  assert (IN : forall p, In p (diag_pos (nth b1 sh 0) (nth b2 sh 0) k) -> 0 <= fst p < nth b1 sh 0 /\ 0 <= snd p < nth b2 sh 0) by (intros p Hq; apply in_diag_pos in Hq; tauto).
  destruct (diag_pos (nth b1 sh 0) (nth b2 sh 0) k) as [|p [|q l]].
  - cbn [length Nat.eqb orb]. eexists. split; [reflexivity|]. rewrite EM. split; [reflexivity|]. intros idx Hi. cbn [adat]. rewrite <- SD. reflexivity.
  - cbn [length Nat.eqb orb]. rewrite E0. eexists. split; [reflexivity|]. split; [reflexivity|]. intros idx Hi. cbn [adat]. rewrite <- SD. cbn [map]. rewrite zsum_cons. change (zsum []) with 0. rewrite Z.add_0_r. destruct (IN p) as [I1 I2]; [now left|]. apply (D _ _ _ I1 I2 Hi).
  - cbn in LD. lia.
Qed.
(** the split axis is one of the two axes and every process holds at most one element of it
    (balanced).  Partial: two elements on a process raise, see C90_split_axis_raises_refuted. *)
Theorem C90_trace_split_partial : forall (x : dnd Z) (G : list Z -> Z) (k a1 a2 : Z) (b1 b2 s : nat),
  let P := length (d_locals x) in let n := length (d_gshape x) in
  rep x (zcounts (nth s (d_gshape x) 0) P) G -> (1 < P)%nat -> (2 < n)%nat -> d_split x = Some s ->
  names_axis n a1 b1 -> names_axis n a2 b2 -> b1 <> b2 -> ((b1 < b2)%nat \/ k = 0) -> (s = b1 \/ s = b2) ->
  nth s (d_gshape x) 0 <= Z.of_nat P -> Forall (fun n => 1 <= n) (without b1 b2 (d_gshape x)) ->
  exists y, trace x k a1 a2 = Ok (Array y) /\ d_gshape y = without b1 b2 (d_gshape x) /\ d_split y = Some (Nat.min s (n - 3)) /\
    rep y (zcounts (nth (Nat.min s (n - 3)) (d_gshape y) 0) P) (trace_of (d_gshape x) G k b1 b2).
Proof.
  intros x G k a1 a2 b1 b2 s P n R HP HN Es A1 A2 N HK HS HE Hp. set (c := zcounts (nth s (d_gshape x) 0) P) in *.
  destruct (start_trace x k a1 a2 b1 b2 A1 A2 N) as (b & B & H1 & H2 & HB & E). rewrite E. clear E. cbn zeta. rewrite (proj2 (Nat.eqb_neq _ _)) by (fold n; lia).
  rewrite (without_sorted b1 b2 b B) in * by auto. assert (HS' : s = b \/ s = B) by lia. fold P n.
  assert (ED : is_dist x = true) by (unfold is_dist; rewrite Es; apply Nat.ltb_lt; exact HP). rewrite ED, Es.
  assert (EO : (s =? b)%nat || (s =? B)%nat = true) by (destruct HS' as [-> | ->]; rewrite Nat.eqb_refl, ?orb_true_r; reflexivity). rewrite EO. cbn [andb].
  assert (Hn : Forall (fun n => 0 <= n) (d_gshape x)) by apply R. unfold rep in R. rewrite Es in R. destruct R as (L & _ & Hs & Hc & Hsum & HR).
  assert (N0 : 0 <= nth s (d_gshape x) 0) by (rewrite Forall_forall in Hn; apply Hn, nth_In; auto).
  assert (C1 : forall r, nth r c 0 <= 1).
  { intros r. destruct (Nat.ltb_spec r P) as [Hr|Hr]; [|rewrite nth_overflow; [lia|lia]]. unfold c, zcounts. change 0 with (Z.of_nat 0). rewrite map_nth. unfold counts_of.
    set (q := Z.to_nat (nth s (d_gshape x) 0)) in *. assert (Hq : (q <= P)%nat) by lia. assert (Er : nth_error (map (fun r => q / P + (if r <? q mod P then 1 else 0)) (seq 0 P))%nat r = Some (q / P + (if r <? q mod P then 1 else 0))%nat) by (rewrite nth_error_map, (nth_error_nth' _ 0%nat) by (now rewrite seq_length); rewrite seq_nth by exact Hr; reflexivity). rewrite (nth_error_nth _ _ _ Er).
    destruct (Nat.eq_dec q P) as [->|Ne]; [rewrite Nat.div_same, Nat.mod_same by lia; cbn; lia|]. rewrite Nat.div_small, Nat.mod_small by lia. destruct (r <? q)%nat; cbn; lia. }
  set (rest := del b (del B (d_gshape x))) in *.
  set (LS := fun r idx => diag_sum (fun i j => if (s =? b)%nat then G (at2 b B (i + zsum (firstn r c)) j idx) else G (at2 b B i (j + zsum (firstn r c)) idx)) (nth b (upd (d_gshape x) s (nth r c 0)) 0) (nth B (upd (d_gshape x) s (nth r c 0)) 0) (if (s =? b)%nat then k + zsum (firstn r c) else k - zsum (firstn r c))).
  destruct (all_ok_Qn (fun p => one_diag (snd p) (moved_offset x b (fst p) k) b B) (fun r z => agrees z rest (LS r)) (combine (seq 0 P) (d_locals x))) as (ts & ET & LT & QT).
  { intros r [r' t] Ep. apply nth_error_combine in Ep as [Er Et]. cbn [fst snd] in *. assert (Hr : (r < P)%nat) by (apply nth_error_Some; congruence). assert (r' = r) as -> by (apply (nth_error_nth _ _ 0%nat) in Er; rewrite seq_nth in Er by exact Hr; cbn in Er; lia).
    assert (Hcr : 0 <= nth r c 0) by (rewrite Forall_forall in Hc; apply Hc, nth_In; lia). pose proof (HR r t Et) as AG.
    assert (RE : del b (del B (upd (d_gshape x) s (nth r c 0))) = rest). { unfold rest. destruct HS' as [-> | ->]; [|now rewrite del_upd]. rewrite (del_upd_other _ _ B b) by lia. assert (DN : down B b = b) by (unfold down; destruct (Nat.ltb_spec B b); lia). now rewrite DN, del_upd. }
    destruct (one_diag_ok t (upd (d_gshape x) s (nth r c 0)) (fun i j idx => G (if (s =? b)%nat then at2 b B (i + zsum (firstn r c)) j idx else at2 b B i (j + zsum (firstn r c)) idx)) (moved_offset x b r k) b B) as (z & Ez & Az).
    - exact H1.
    - now rewrite upd_length.
    - now apply Forall_upd.
    - rewrite RE. exact Hp.
    - specialize (C1 r). destruct HS' as [-> | ->]; [left|right]; rewrite upd_same by lia; lia.
    - apply AG.
    - intros i j idx Hi Hj Hx. rewrite RE in Hx. apply (agrees_at2 t (d_gshape x) G b B s c r _ H1 H2 HS' AG eq_refl i j idx Hi Hj Hx).
    - exists z. split; [exact Ez|]. rewrite RE in Az. destruct Az as [S D]. split; [exact S|]. intros idx Hi. rewrite D by exact Hi. unfold LS. rewrite (moved_ok x b r k s Es HP Hr). fold P c. apply diag_sum_ext. intros i j _ _. destruct (s =? b)%nat; reflexivity. }
  rewrite ET. cbn [bind]. assert (LT' : length ts = P) by (rewrite LT, combine_length, seq_length; fold P; lia).
  assert (SHA : ash (sum_all ts) = rest). { cbn [sum_all ash]. destruct (nth_error ts 0) as [t0|] eqn:E0; [|apply nth_error_None in E0; lia]. rewrite (nth_error_nth _ _ _ E0). apply (QT 0%nat t0 E0). }
  pose proof (del_length B (d_gshape x) H2) as L2. assert (L1 : S (length rest) = length (del B (d_gshape x))) by (apply del_length; lia).
  destruct (C55_array_split Z P (sum_all ts) (AxInt (Z.of_nat (Nat.min s (n - 3)))) (Some (Nat.min s (n - 3)))) as (y & EY & GY & SY & RY).
  - lia.
  - rewrite SHA. eapply Forall_impl; [|exact Hp]. cbn. intros; lia.
  - rewrite SHA. split; [unfold valid_axis; lia|]. f_equal. unfold norm. rewrite (proj2 (Z.ltb_ge _ _)) by lia. lia.
  - rewrite EY. cbn [bind]. exists y. split; [reflexivity|]. rewrite GY, SHA. split; [reflexivity|]. split; [exact SY|]. rewrite SHA in RY. cbn [balanced_counts] in RY. unfold rep in *. rewrite GY, SHA in *.
    eapply represents_ext; [|exact RY]. intros idx Hi. cbn [sum_all adat].
    rewrite <- (sorted_trace (d_gshape x) G k b1 b2 b B idx H1 H2 Hn HB HK). rewrite <- (total_sum (fun i j => G (at2 b B i j idx)) (d_gshape x) s b B c k HS' ltac:(lia) ltac:(lia) H2 Hc Hsum). fold P in L. rewrite <- L.
    f_equal. apply nth_error_ext'. intros r. rewrite !nth_error_map. destruct (nth_error ts r) as [t|] eqn:Et.
    + assert (Hr : (r < P)%nat) by (rewrite <- LT'; apply nth_error_Some; congruence). rewrite (nth_error_nth' _ 0%nat) by (now rewrite seq_length). rewrite seq_nth by exact Hr. cbn [option_map Nat.add]. f_equal. apply (QT r t Et). exact Hi.
    + apply nth_error_None in Et. rewrite (proj2 (nth_error_None (seq 0 P) r)) by (rewrite seq_length; lia). reflexivity.
Qed.
Print Assumptions C90_trace_split_partial.

(** a bad axis raises, as does an array of fewer than two dimensions *)
Theorem C90_raises : forall (x : dnd Z) (k a1 a2 : Z), let n := Z.of_nat (length (d_gshape x)) in
  n < 2 \/ n <= a1 \/ n <= a2 \/ (exists b, names_axis (length (d_gshape x)) a1 b /\ names_axis (length (d_gshape x)) a2 b) -> trace x k a1 a2 = Err ValueError.
Proof.
  intros x k a1 a2 n H. unfold trace. destruct (Nat.ltb_spec (length (d_gshape x)) 2) as [L|L]; [reflexivity|]. unfold n in *. destruct H as [H|[H|[H|(b & B1 & B2)]]]; [lia| | |].
  - rewrite (proj2 (Z.ltb_ge a1 0)) by lia. rewrite (proj2 (Z.leb_le _ a1)) by lia. rewrite orb_true_r. reflexivity.
  - rewrite (proj2 (Z.ltb_ge a2 0)) by lia. rewrite (proj2 (Z.leb_le _ a2)) by lia. rewrite orb_true_r. reflexivity.
  - rewrite (norm_axis _ _ _ B1), (norm_axis _ _ _ B2), Z.eqb_refl. reflexivity.
Qed.
Print Assumptions C90_raises.

(** ** concrete cases *)
Definition gm (i : list Z) : Z := 100 * nth 0 i 0 + 10 * nth 1 i 0 + nth 2 i 0 + 1.
Definition m33 := b_arr (cutg [3; 3] gm 1 [2; 1] None).
Example C90_matrix_instance : trace m33 (-1) (-2) 1 = Ok (Scalar (repeat (trace_of [3; 3] gm (-1) 0 1 []) 2)).
Proof.
  apply (C90_trace_matrix_partial m33 gm [2; 1] 3 3 (-1) (-2) 1 0 1).
  - apply cutg_rep; try (repeat constructor; cbn; lia).
  - reflexivity.
  - intros s [= <-]. vm_compute. reflexivity.
  - split; [lia|right; reflexivity].
  - split; [lia|left; reflexivity].
  - discriminate.
  - left. lia.
Qed.
Example C90_matrix_value : trace m33 (-1) (-2) 1 = Ok (Scalar [312; 312]).
Proof. vm_compute. reflexivity. Qed.
(** the split axis behind the two axes, unbalanced *)
Definition cube := b_arr (cutg [2; 2; 3] gm 2 [1; 2] None).
Example C90_cube_instance : exists y, trace cube 0 0 1 = Ok (Array y) /\ d_split y = Some 0%nat /\ rep y [1; 2] (trace_of [2; 2; 3] gm 0 0 1).
Proof.
  destruct (C90_trace_partial cube gm [1; 2] 0 0 1 0 1) as (y & cy & E & _ & _ & S & _ & R).
  - apply cutg_rep; try (repeat constructor; cbn; lia).
  - cbn. lia.
  - cbn. lia.
  - split; [cbn; lia|left; reflexivity].
  - split; [cbn; lia|left; reflexivity].
  - discriminate.
  - left. lia.
  - right. intros s [= <-]. lia.
  - destruct (S 2%nat eq_refl ltac:(cbn; lia)) as [-> S']. exists y. auto.
Qed.
Example C90_cube_values : match trace cube 0 0 1 with Ok (Array y) => map flat (d_locals y) | _ => [] end = [[112]; [114; 116]].
Proof. vm_compute. reflexivity. Qed.
(** the split axis among the two *)
Definition slab := b_arr (cutg [2; 2; 2] gm 0 [1; 1] None).
Example C90_slab_instance : exists y, trace slab 0 0 1 = Ok (Array y) /\ rep y [1; 1] (trace_of [2; 2; 2] gm 0 0 1).
Proof.
  destruct (C90_trace_split_partial slab gm 0 0 1 0 1 0) as (y & E & Gy & _ & R).
  - apply cutg_rep; try (repeat constructor; cbn; lia).
  - cbn. lia.
  - cbn. lia.
  - reflexivity.
  - split; [cbn; lia|left; reflexivity].
  - split; [cbn; lia|left; reflexivity].
  - discriminate.
  - left. lia.
  - left. reflexivity.
  - cbn. lia.
  - repeat constructor; lia.
  - exists y. split; [exact E|]. rewrite Gy in R. exact R.
Qed.
Example C90_slab_values : match trace slab 0 0 1 with Ok (Array y) => map flat (d_locals y) | _ => [] end = [[112]; [114]].
Proof. vm_compute. reflexivity. Qed.

(** The full claim has no conditions on layout, order of the axes and split axis.
    A 2x2 matrix all rows of which are on process 1: the diagonal is taken at the offset of the
    balanced layout *)
Theorem C90_unbalanced_refuted : exists x G, rep x [0; 2] G /\ d_gshape x = [2; 2] /\ trace x 0 0 1 = Ok (Scalar [11; 11]) /\ trace_of [2; 2] G 0 0 1 [] = 112.
Proof. exists (b_arr (cutg [2; 2] gm 0 [0; 2] None)), gm. split; [apply cutg_rep; try (repeat constructor; cbn; lia)|]. split; [reflexivity|]. split; vm_compute; reflexivity. Qed.
(** axis1=1, axis2=0 and offset 1, on one process: NumPy sums the elements [i + 1, i] *)
Theorem C90_axis_order_refuted : exists x G, rep x [2] G /\ d_gshape x = [2; 2] /\ d_split x = None /\ trace x 1 1 0 = Ok (Scalar [11]) /\ trace_of [2; 2] G 1 1 0 [] = 101.
Proof. exists (b_arr (replg 1 [2; 2] gm None)), gm. split; [apply replg_rep; [repeat constructor; lia|reflexivity]|]. split; [reflexivity|]. split; [reflexivity|]. split; vm_compute; reflexivity. Qed.
Theorem C90_axis_order_nd_refuted : exists x G, rep x [2] G /\ d_gshape x = [2; 2; 1] /\ d_split x = None /\
  exists y, trace x 1 1 0 = Ok (Array y) /\ map flat (d_locals y) = [[11]] /\ trace_of [2; 2; 1] G 1 1 0 [0] = 101.
Proof. exists (b_arr (replg 1 [2; 2; 1] gm None)), gm. split; [apply replg_rep; [repeat constructor; lia|reflexivity]|]. split; [reflexivity|]. split; [reflexivity|]. eexists. split; [vm_compute; reflexivity|]. split; vm_compute; reflexivity. Qed.
(** the split axis is one of the two and a process holds two elements of the diagonal *)
Theorem C90_split_axis_raises_refuted : exists x G, rep x [2; 2] G /\ d_gshape x = [4; 4; 2] /\ d_split x = Some 0%nat /\ trace x 0 0 1 = Err RuntimeError.
Proof. exists (b_arr (cutg [4; 4; 2] gm 0 [2; 2] None)), gm. split; [apply cutg_rep; try (repeat constructor; cbn; lia)|]. split; [reflexivity|]. split; [reflexivity|]. vm_compute. reflexivity. Qed.
(** the split axis between the two: the pieces are put together along the wrong axis, the result
    has shape (1, 2) instead of (2, 1) *)
Theorem C90_split_between_refuted : exists x G, rep x [1; 1] G /\ d_gshape x = [2; 2; 1; 2] /\ d_split x = Some 1%nat /\
  exists y, trace x 0 0 3 = Ok (Array y) /\ d_gshape y = [1; 2] /\ without 0 3 (d_gshape x) = [2; 1].
Proof. exists (b_arr (cutg [2; 2; 1; 2] gm 1 [1; 1] None)), gm. split; [apply cutg_rep; try (repeat constructor; cbn; lia)|]. split; [reflexivity|]. split; [reflexivity|]. eexists. split; [vm_compute; reflexivity|]. split; reflexivity. Qed.
(** axis1 = -4 of a matrix is accepted (NumPy: AxisError) *)
Theorem C90_negative_axis_refuted : exists x G, rep x [2] G /\ d_gshape x = [2; 2] /\ ~ (exists b, names_axis 2 (-4) b) /\ exists v, trace x 0 (-4) 1 = Ok v.
Proof. exists (b_arr (replg 1 [2; 2] gm None)), gm. split; [apply replg_rep; [repeat constructor; lia|reflexivity]|]. split; [reflexivity|]. split; [intros (b & Hb & [H|H]); lia|]. eexists. vm_compute. reflexivity. Qed.
