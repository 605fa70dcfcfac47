(** Proofs for C47, part 2: the rows written by one process. *)
From Verif Require Import Base BaseLemmas NdSpec TensorSpec TensorLemmas ShapeModel CsvSpec SaveSpec SaveModel SaveProofs.
Open Scope nat_scope.

Section Tile.
Variables (V : Type) (fld : V -> list nat) (W sep n c : nat) (A : nat -> nat -> V) (HD : list nat).
Hypothesis HW : forall i j, i < n -> j < c -> length (fld (A i j)) = W.
Hypothesis HC : 0 < c.

Definition items i := map (fun j => fld (A i j)) (seq 0 c).
Definition line i := join [sep] (items i) ++ [10].
Definition E := HD ++ concat (map line (seq 0 n)).
Definition cell i j := fld (A i j) ++ [if j =? c - 1 then 10 else sep].

Lemma items_nth i j : j < c -> nth j (items i) [] = fld (A i j).
Proof. intros H. unfold items. now rewrite (@nth_map_seq _ (fun j => fld (A i j))). Qed.
Lemma line_cells i : line i = concat (map (cell i) (seq 0 c)).
Proof.
  unfold line. rewrite join_cells by (unfold items; destruct c; [lia|discriminate]).
  assert (L : length (items i) = c) by (unfold items; now rewrite map_length, seq_length). rewrite L. f_equal. apply map_ext_in. intros j Hj. apply in_seq in Hj.
  now rewrite items_nth by lia.
Qed.
Lemma cell_len i j : i < n -> j < c -> length (cell i j) = W + 1.
Proof. intros Hi Hj. unfold cell. now rewrite app_length, HW. Qed.
Lemma line_len i : i < n -> length (line i) = c * (W + 1).
Proof.
  intros H. rewrite line_cells, (concat_len (W + 1)); [now rewrite map_length, seq_length|].
  intros b Hb. apply in_map_iff in Hb as (j & <- & Hj). apply in_seq in Hj. apply cell_len; lia.
Qed.
Lemma E_len : length E = length HD + n * (c * (W + 1)).
Proof.
  unfold E. rewrite app_length, (concat_len (c * (W + 1))); [now rewrite map_length, seq_length|].
  intros b Hb. apply in_map_iff in Hb as (j & <- & Hj). apply in_seq in Hj. apply line_len; lia.
Qed.
Lemma sub_map_seq {B} (f : nat -> B) k a m : a + m <= k -> sub (map f (seq 0 k)) a m = map (fun j => f (a + j)) (seq 0 m).
Proof.
  intros H. unfold sub. apply (nth_ext _ _ (f 0) (f 0)).
  - rewrite firstn_length, skipn_length, !map_length, !seq_length. lia.
  - intros p Hp. rewrite firstn_length, skipn_length, map_length, seq_length in Hp. rewrite nth_firstn_lt by lia. rewrite nth_skipn_at.
    rewrite nth_map_seq by lia. now rewrite (@nth_map_seq _ (fun j => f (a + j))) by lia.
Qed.
(** columns e .. e+w-1 of row i *)
Definition segment i e w := join [sep] (map (fun j => fld (A i (e + j))) (seq 0 w)) ++ [if e + w =? c then 10 else sep].
Lemma segment_cells i e w : 0 < w -> e + w <= c -> segment i e w = concat (sub (map (cell i) (seq 0 c)) e w).
Proof.
  intros Hw He. rewrite sub_map_seq by lia. unfold segment. rewrite join_cells by (destruct w; [lia|discriminate]).
  rewrite map_length, seq_length. f_equal. apply map_ext_in. intros j Hj. apply in_seq in Hj. unfold cell.
  rewrite (@nth_map_seq _ (fun j => fld (A i (e + j)))) by lia. do 2 f_equal.
  destruct (Nat.eqb_spec j (w - 1)), (Nat.eqb_spec (e + w) c), (Nat.eqb_spec (e + j) (c - 1)); auto; lia.
Qed.
Lemma segment_len i e w : i < n -> 0 < w -> e + w <= c -> length (segment i e w) = w * (W + 1).
Proof.
  intros Hi Hw He. rewrite segment_cells by auto. rewrite sub_map_seq by lia. rewrite (concat_len (W + 1)); [now rewrite map_length, seq_length|].
  intros b Hb. apply in_map_iff in Hb as (j & <- & Hj). apply in_seq in Hj. apply cell_len; lia.
Qed.
Lemma segment_piece i e w : i < n -> 0 < w -> e + w <= c ->
  piece E (length HD + i * (c * (W + 1)) + e * (W + 1), segment i e w).
Proof.
  intros Hi Hw He.
  destruct (concat_blocks (c * (W + 1)) (map line (seq 0 n)) i 1) as (p1 & q1 & E1 & L1).
  { intros b Hb. apply in_map_iff in Hb as (j & <- & Hj). apply in_seq in Hj. apply line_len; lia. }
  { rewrite map_length, seq_length. lia. }
  destruct (concat_blocks (W + 1) (map (cell i) (seq 0 c)) e w) as (p2 & q2 & E2 & L2).
  { intros b Hb. apply in_map_iff in Hb as (j & <- & Hj). apply in_seq in Hj. apply cell_len; lia. }
  { rewrite map_length, seq_length. lia. }
  rewrite sub_map_seq in E1 by lia. cbn [seq map concat] in E1. rewrite Nat.add_0_r, app_nil_r in E1.
  rewrite <- segment_cells in E2 by auto. rewrite <- line_cells in E2. rewrite E2 in E1.
  replace (length HD + i * (c * (W + 1)) + e * (W + 1)) with (length (HD ++ p1 ++ p2)) by (rewrite !app_length; lia).
  apply (piece_app E _ _ (q2 ++ q1)). unfold E. rewrite E1. now rewrite <- !app_assoc.
Qed.

(** one process: rows d .. d+m-1, columns e .. e+w-1 *)
Variables (t : arr V) (d m e w : nat).
Hypothesis Hash : ash t = [Z.of_nat m; Z.of_nat w].
Hypothesis Hdat : forall i j, i < m -> j < w -> adat t [Z.of_nat i; Z.of_nat j] = A (d + i) (e + j).
Hypothesis Hd : d + m <= n.
Hypothesis He : e + w <= c.
Definition tile := row_writes fld [sep] (e + w =? c) (Z.of_nat (c * (W + 1))) t (Z.of_nat (length HD + d * (c * (W + 1)) + e * (W + 1))).

Lemma tile_in o bs : In (o, bs) tile <-> 0 < w /\ exists i, i < m /\ o = Z.of_nat (length HD + (d + i) * (c * (W + 1)) + e * (W + 1)) /\ bs = segment (d + i) e w.
Proof.
  unfold tile, row_writes. rewrite Hash. destruct (Z.eqb_spec (Z.of_nat w) 0) as [Z0|Z0].
  - split; [intros []|intros [X _]; lia].
  - rewrite in_map_iff. rewrite !Nat2Z.id. split.
    + intros (i & X & Hi). apply in_seq in Hi. split; [lia|]. exists i. split; [lia|]. injection X as <- <-. split; [lia|].
      unfold segment. f_equal.
      * f_equal. apply map_ext_in. intros j Hj. apply in_seq in Hj. rewrite Hdat by lia. reflexivity.
      * now destruct (e + w =? c).
    + intros (Hw & i & Hi & -> & ->). exists i. split; [|apply in_seq; lia]. f_equal; [lia|].
      unfold segment. f_equal.
      * f_equal. apply map_ext_in. intros j Hj. apply in_seq in Hj. rewrite Hdat by lia. reflexivity.
      * now destruct (e + w =? c).
Qed.
Lemma tile_piece x : In x tile -> (0 <= fst x)%Z /\ piece E (Z.to_nat (fst x), snd x).
Proof.
  destruct x as [o bs]. intros H. apply tile_in in H as (Hw & i & Hi & -> & ->). cbn [fst snd]. split; [lia|]. rewrite Nat2Z.id.
  apply segment_piece; lia.
Qed.
Lemma tile_covers i j k : d <= i < d + m -> e <= j < e + w -> k < W + 1 ->
  exists x, In x tile /\ covers (Z.to_nat (fst x), snd x) (length HD + i * (c * (W + 1)) + j * (W + 1) + k).
Proof.
  intros Hi Hj Hk. exists (Z.of_nat (length HD + (d + (i - d)) * (c * (W + 1)) + e * (W + 1)), segment (d + (i - d)) e w). split.
  - apply tile_in. split; [lia|]. exists (i - d). split; [lia|]. auto.
  - unfold covers. cbn [fst snd]. rewrite Nat2Z.id. rewrite segment_len by lia. replace (d + (i - d)) with i by lia.
    assert (e * (W + 1) <= j * (W + 1)) by (apply Nat.mul_le_mono_r; lia).
    assert ((j + 1) * (W + 1) <= (e + w) * (W + 1)) by (apply Nat.mul_le_mono_r; lia). lia.
Qed.
End Tile.
