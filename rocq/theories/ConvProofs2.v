(** Vectors as distributed arrays; the correlation of the padded signal with the reversed kernel. *)
From Verif Require Import Base BaseLemmas LayoutModel NdSpec TensorSpec TensorLemmas NdLemmas OpsModel ShapeModel ShapeProps BinModel BinProofs HaloModel PadSpec PadModel ConvSpec ConvModel ConvProofs MatmulProofs2.
From Coq Require Import Permutation.
Open Scope nat_scope.

(** the one-dimensional distributed array [x] is the list [l], with [cnts] elements on the ranks *)
Definition vec {V} (zero : V) (x : dnd V) (l : list V) (cnts : list Z) : Prop :=
  d_gshape x = [Z.of_nat (length l)] /\ rep x cnts (fun idx => nth (Z.to_nat (nth 0 idx 0%Z)) l zero).

Lemma row_major_1 n : row_major [n] = map (fun i => [i]) (zr n).
Proof. cbn [row_major map]. induction (zr n) as [|i l IH]; [reflexivity|]. cbn. now rewrite IH. Qed.
Lemma flat_1 {V} (t : arr V) c : ash t = [c] -> flat t = map (fun i => adat t [Z.of_nat i]) (seq 0 (Z.to_nat c)).
Proof. intros E. unfold flat. rewrite E, row_major_1. unfold zr. now rewrite !map_map. Qed.
Section V2.
Context {V : Type} (zero : V).
Lemma nth_pieces (x : dnd V) r t : nth_error (d_locals x) r = Some t -> nth r (pieces x) [] = flat t.
Proof. intros E. unfold pieces. apply nth_error_nth. now apply map_nth_error. Qed.
Lemma vec_extent x l cnts : vec zero x l cnts -> extent x = length l.
Proof. intros [E _]. unfold extent. rewrite E. cbn [nth]. lia. Qed.
Lemma vec_len x l cnts : vec zero x l cnts -> length (d_locals x) = length cnts.
Proof. intros [_ (H & _)]. auto. Qed.
Lemma vec_none x l cnts r : vec zero x l cnts -> d_split x = None -> r < length cnts -> nth r (pieces x) [] = l.
Proof.
  intros [E (L & _ & H)] S0 Hr. rewrite S0 in H. destruct (nth_error (d_locals x) r) as [t|] eqn:Et; [|apply nth_error_None in Et; lia].
  rewrite (nth_pieces x r t Et). destruct (H t ltac:(eapply nth_error_In; eauto)) as [S1 D1]. rewrite E in S1, D1. rewrite (flat_1 t _ S1), Nat2Z.id.
  transitivity (map (fun i => nth i l zero) (seq 0 (length l))); [|apply map_nth_seq]. apply map_ext_in. intros i Hi. apply in_seq in Hi. rewrite D1.
  - cbn [nth]. now rewrite Nat2Z.id.
  - constructor; [lia|constructor].
Qed.
Lemma vec_split x l cnts s : vec zero x l cnts -> d_split x = Some s ->
  s = 0 /\ glob (pieces x) = l /\ lens (pieces x) = map Z.to_nat cnts /\ Forall (fun c => (0 <= c)%Z) cnts /\ zsum cnts = Z.of_nat (length l).
Proof.
  intros [E (L & _ & H)] S0. rewrite S0, E in H. destruct H as (Hs & Hc & Sm & H). cbn [length] in Hs. assert (s = 0) as -> by lia. split; [auto|].
  cbn [nth upd] in *. set (c := map Z.to_nat cnts).
  assert (PS := psum_zsum cnts Hc). fold c in PS.
  assert (LS : list_sum c = length l).
  { apply Nat2Z.inj. rewrite <- (psum_all c (k := length c)) by auto. rewrite PS. unfold c. rewrite map_length, firstn_all. auto. }
  assert (Q : forall r, r < length cnts -> nth r (pieces x) [] = sub l (psum c r) (nth r c 0)).
  { intros r Hr. destruct (nth_error (d_locals x) r) as [t|] eqn:Et; [|apply nth_error_None in Et; lia].
    rewrite (nth_pieces x r t Et). destruct (H r t Et) as [S1 D1]. rewrite (flat_1 t _ S1).
    assert (EC : nth r c 0 = Z.to_nat (nth r cnts 0%Z)) by (unfold c; change 0 with (Z.to_nat 0); apply map_nth).
    assert (BD : psum c r + nth r c 0 <= length l) by (rewrite <- LS, <- psum_S by (unfold c; rewrite map_length; auto); apply psum_le_sum).
    rewrite <- EC. apply (nth_ext _ _ zero zero). { rewrite map_length, seq_length, sub_length; auto. }
    intros i Hi. rewrite map_length, seq_length in Hi. rewrite (@nth_map_seq _ (fun i => adat t [Z.of_nat i])) by auto. rewrite sub_nth by auto. rewrite D1 by (constructor; [lia|constructor]).
    unfold move_axis_idx. cbn [nth upd]. f_equal. rewrite <- PS. lia. }
  assert (EQ : pieces x = map (fun r => sub l (psum c r) (nth r c 0)) (seq 0 (length c))).
  { assert (LP : length (pieces x) = length cnts) by (unfold pieces; rewrite map_length; auto). unfold c at 3. rewrite map_length.
    apply (nth_ext _ _ [] []); [rewrite map_length, seq_length; auto|]. intros r Hr. rewrite LP in Hr. rewrite (@nth_map_seq _ (fun r => sub l (psum c r) (nth r c 0))) by auto. auto. }
  split; [|split; [|auto]].
  - rewrite EQ. apply concat_blocks. auto.
  - rewrite EQ. unfold lens. rewrite map_map. transitivity (map (fun i => nth i c 0) (seq 0 (length c))); [|apply map_nth_seq]. apply map_ext_in. intros r Hr. apply in_seq in Hr. apply sub_length. rewrite <- LS, <- psum_S by lia. apply psum_le_sum.
Qed.
Lemma vec_lmap x l cnts r : vec zero x l cnts -> r < length cnts -> lmap x r = match d_split x with Some _ => Z.to_nat (nth r cnts 0%Z) | None => length l end.
Proof.
  intros H Hr. unfold lmap. destruct (d_split x) eqn:E; [|eapply vec_extent; eauto]. destruct (vec_split _ _ _ _ H E) as (_ & _ & L & _). rewrite <- lens_nth, L. change 0 with (Z.to_nat 0). apply map_nth.
Qed.

Lemma nth_padded (a : list V) p q i : nth i (repeat zero p ++ a ++ repeat zero q) zero = if p <=? i then nth (i - p) a zero else zero.
Proof.
  destruct (Nat.leb_spec p i) as [H|H].
  - rewrite app_nth2; rewrite repeat_length; [|lia]. destruct (Nat.lt_ge_cases (i - p) (length a)) as [H2|H2]; [now rewrite app_nth1 by auto|].
    rewrite app_nth2 by auto. rewrite nth_repeat. now rewrite nth_overflow by auto.
  - rewrite app_nth1 by (now rewrite repeat_length). apply nth_repeat.
Qed.

Variables (add mul : V -> V -> V).
Hypothesis HA : forall x y z, add x (add y z) = add (add x y) z.
Hypothesis HCm : forall x y, add x y = add y x.
Lemma total_perm l l' : Permutation l l' -> total zero add l = total zero add l'.
Proof.
  induction 1 as [|x l l' H IH|x y l|l1 l2 l3 H1 IH1 H2 IH2]; cbn [total fold_right]; auto.
  - fold (total zero add). unfold total in *. now rewrite IH.
  - rewrite !HA. now rewrite (HCm y x).
  - congruence.
Qed.
Lemma total_rev (f : nat -> V) n : total zero add (map f (seq 0 n)) = total zero add (map (fun j => f (n - 1 - j)) (seq 0 n)).
Proof.
  rewrite <- (map_map (fun j => n - 1 - j) f). apply total_perm, Permutation_map.
  transitivity (rev (seq 0 n)); [apply Permutation_rev|].
  assert (E : rev (seq 0 n) = map (fun j => n - 1 - j) (seq 0 n)); [|now rewrite E].
  apply (nth_ext _ _ 0 0); [now rewrite rev_length, map_length|]. intros i Hi. rewrite rev_length, seq_length in Hi. rewrite rev_nth by (now rewrite seq_length). rewrite seq_length, seq_nth by lia.
  rewrite (@nth_map_seq _ (fun j => n - 1 - j)) by auto. lia.
Qed.
Lemma corr_conv (a v : list V) p q k : 1 <= length v -> p <= length v - 1 ->
  correlate zero add mul (repeat zero p ++ a ++ repeat zero q) (rev v) k = conv_at zero add mul a v (k + (length v - 1 - p)).
Proof.
  intros Hv Hp. unfold conv_at. rewrite total_rev. unfold correlate, total. rewrite rev_length. f_equal. apply map_ext_in. intros j Hj. apply in_seq in Hj.
  rewrite rev_nth by lia. rewrite nth_padded. f_equal; [|f_equal; lia].
  destruct (Nat.leb_spec p (k + j)); destruct (Nat.leb_spec (length v - 1 - j) (k + (length v - 1 - p))); try lia; [f_equal; lia|reflexivity].
Qed.
Lemma corr_convolution (m : conv_mode) (stride : nat) (a v : list V) : 1 <= length v -> length v <= length a -> (m = Same -> Nat.even (length v) = false) ->
  let p := pad_size m (length v) in
  let A := repeat zero p ++ a ++ repeat zero p in
  map (fun k => correlate zero add mul A (rev v) (k * stride)) (seq 0 ((length A - length v) / stride + 1)) = convolution zero add mul m stride a v
  /\ length A - length v = length a + 2 * p - length v /\ length v <= length A.
Proof.
  intros Hv Hva HS p A. assert (LA : length A = length a + 2 * p) by (unfold A; rewrite !app_length, !repeat_length; lia).
  assert (OD : m = Same -> length v = 2 * (length v / 2) + 1).
  { intros E. specialize (HS E). assert (O : Nat.odd (length v) = true) by (unfold Nat.odd; now rewrite HS). apply Nat.odd_spec in O as [j ->]. replace (2 * j + 1) with (1 + j * 2) by lia. rewrite Nat.div_add by lia. cbn. lia. }
  split; [|split; lia]. unfold convolution. rewrite LA.
  assert (E1 : length a + 2 * p - length v = num_pos m (length a) (length v) - 1) by (unfold p, pad_size, num_pos; destruct m; [lia|rewrite OD at 2 by auto; lia|lia]).
  rewrite E1. apply map_ext. intros k. unfold A. rewrite corr_conv; [|auto|unfold p, pad_size; destruct m; [lia|rewrite OD at 2 by auto; lia|lia]].
  f_equal. unfold p, first_pos, pad_size. destruct m; [lia| |lia]. specialize (OD eq_refl). lia.
Qed.
End V2.
