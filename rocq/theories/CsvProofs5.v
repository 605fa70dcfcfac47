(** Proofs about load_csv: when the call succeeds; the text modes. *)
From Verif Require Import Base BaseLemmas LayoutModel LayoutProofs RedistModel RedistProofs NdSpec OpsModel OpsProofs2 OpsProofs4 ShapeModel BinModel BinProofs2 FactoryModel FactoryProps ShapeProps CsvSpec CsvModel CsvProofs CsvProofs2 CsvProofs3 CsvProofs4.
Open Scope nat_scope.

Lemma share_start_eq n r P : 0 < P -> r <= P -> share_start n r P = cstart n r P.
Proof.
  intros HP Hr. unfold share_start, cstart, chunk_1d. assert (n mod P < P) by (apply Nat.mod_upper_bound; lia).
  set (q := n / P) in *. set (m := n mod P) in *. clearbody q m.
  destruct (Nat.ltb_spec r m); cbn [fst]; nia.
Qed.

Lemma occ_in_iff e l p : p < length l -> nth p l 0 = e -> In p (occ e 0 l).
Proof.
  intros Hp Hn. rewrite occ_flat. apply in_flat_map. exists p. split; [apply in_seq; lia|]. rewrite Nat.sub_0_r, Hn, Nat.eqb_refl. now left.
Qed.
Lemma two_in {A} (l : list A) x y : x <> y -> In x l -> In y l -> 2 <= length l.
Proof. intros N Hx Hy. destruct l as [|a [|b l]]; cbn in *; [contradiction| |lia]. destruct Hx as [<-|[]], Hy as [<-|[]]. congruence. Qed.

(** every stretch of the file as long as the longest line holds a terminator *)
Lemma window k lines : k = 1 \/ k = 2 -> forall M w, 1 <= M -> (forall l, In l lines -> length l + k <= M) ->
  w + M <= length (join (eol k) (lines ++ [[]])) -> exists q, w <= q < w + M /\ nth q (join (eol k) (lines ++ [[]])) 0 = e0 k.
Proof.
  intros HK. induction lines as [|l lines IH]; intros M w HM HL HF; [cbn in HF; lia|].
  assert (EJ : join (eol k) ((l :: lines) ++ [[]]) = l ++ eol k ++ join (eol k) (lines ++ [[]])) by (cbn [app]; apply join_cons; destruct lines; discriminate).
  rewrite EJ in *. rewrite !app_length, eol_length in HF by auto. assert (L0 := HL l ltac:(now left)).
  assert (E0 : nth (length l) (l ++ eol k ++ join (eol k) (lines ++ [[]])) 0 = e0 k).
  { rewrite app_nth2, Nat.sub_diag by lia. destruct HK as [-> | ->]; reflexivity. }
  assert (SH : forall q, nth (length l + k + q) (l ++ eol k ++ join (eol k) (lines ++ [[]])) 0 = nth q (join (eol k) (lines ++ [[]])) 0).
  { intros q. rewrite app_nth2 by lia. rewrite app_nth2 by (rewrite eol_length by auto; lia). rewrite eol_length by auto. f_equal. lia. }
  destruct (le_lt_dec w (length l)) as [A|A]; [exists (length l); split; [lia|exact E0]|].
  destruct (le_lt_dec (length l + k) w) as [B|B].
  - destruct (IH M (w - (length l + k)) HM ltac:(intros; apply HL; now right) ltac:(lia)) as (q & Q1 & Q2). exists (length l + k + q). split; [lia|]. now rewrite SH.
  - destruct lines as [|l2 lines]; [cbn in HF; lia|]. assert (L2 := HL l2 ltac:(right; now left)).
    exists (length l + k + length l2). split; [lia|]. rewrite SH.
    assert (EJ2 : join (eol k) ((l2 :: lines) ++ [[]]) = l2 ++ eol k ++ join (eol k) (lines ++ [[]])) by (cbn [app]; apply join_cons; destruct lines; discriminate).
    rewrite EJ2, app_nth2, Nat.sub_diag by lia. destruct HK as [-> | ->]; reflexivity.
Qed.

Section Complete.
Variables (V : Type) (dv : V) (fl : list nat -> res V) (sep c k P : nat).
Variables (heads : list (list nat)) (tbl : list (list (list nat))) (vals : list (list V)).
Hypothesis HP : 0 < P.
Hypothesis HK : k = 1 \/ k = 2.
Hypothesis FE : forall x, fl [] <> Ok x.
Hypothesis FC : k = 2 -> forall f, fl (f ++ [CR]) = fl f.
Hypothesis S1 : sep <> LF.
Hypothesis S2 : sep <> CR.
Hypothesis HH : forall l, In l heads -> one_line l.
Hypothesis HT : is_table (fun f x => fl f = Ok x) sep c tbl vals.
Hypothesis HB : ~ In [] tbl.
Hypothesis HV : vals <> [].
Let lines := heads ++ map (join [sep]) tbl.
Let pieces := lines ++ [[]].
Let file := join (eol k) pieces.
Let fs := length file.
Let h := length heads.
Hypothesis HW : forall r, r < P -> whole k (sub file (cstart fs r P) (clen fs r P)).
Hypothesis HL : forall l, In l lines -> 2 * (length l + k) <= fs / P.
Hypothesis H32 : (Z.of_nat fs <= 2 ^ 31)%Z.

Lemma rows_of_tbl : rows_of tbl = tbl.
Proof.
  unfold rows_of. apply filter_all_iff. intros r Hr. destruct r; [contradiction|reflexivity].
Qed.
Lemma HT' : is_table (fun f x => fl f = Ok x) sep c (rows_of tbl) vals.
Proof. rewrite rows_of_tbl. exact HT. Qed.
Lemma tbl_ne' : tbl <> [].
Proof. intros E. assert (T := HT). rewrite E in T. inversion T. congruence. Qed.

Lemma PC : forall p, In p pieces -> clean p.
Proof. exact (pieces_clean V fl sep c k P heads tbl vals true S1 S2 HH HT' HW). Qed.
Lemma share_bounds r : r < P -> length (sub file (cstart fs r P) (clen fs r P)) = clen fs r P /\ fs / P <= clen fs r P.
Proof.
  intros Hr. split.
  - exact (share_length P k pieces HP HK PC HW r Hr).
  - rewrite clen_val. destruct (r <? fs mod P); lia.
Qed.
Lemma two_each r : r < P -> 2 <= length (occ (e0 k) 0 (sub file (cstart fs r P) (clen fs r P))).
Proof.
  intros Hr. set (M := (fs / P) / 2). destruct (share_bounds r Hr) as [SL SB].
  assert (M2 : 2 * M <= fs / P) by (unfold M; apply Nat.mul_div_le; lia).
  assert (ML : forall l, In l lines -> length l + k <= M) by (intros l Hl; specialize (HL l Hl); unfold M; apply Nat.div_le_lower_bound; lia).
  assert (M1 : 1 <= M).
  { assert (T := tbl_ne'). unfold lines in ML. destruct tbl as [|row t] eqn:E; [congruence|]. specialize (ML (join [sep] row)). assert (I : In (join [sep] row) (heads ++ map (join [sep]) (row :: t))) by (apply in_or_app; right; now left).
    specialize (ML I). lia. }
  assert (EN : cstart fs r P + clen fs r P <= fs).
  { rewrite <- cstart_S by lia. assert (D := d_mono P k pieces HP HK PC HW (S r) P ltac:(lia)). cbv beta in D. change (cstart fs (S r) P <= cstart fs P P) in D. rewrite (@cstart_P fs P HP) in D. exact D. }
  destruct (window k lines HK M (cstart fs r P) M1 ML) as (q1 & A1 & A2); [change (cstart fs r P + M <= fs); lia|].
  destruct (window k lines HK M (cstart fs r P + M) M1 ML) as (q2 & B1 & B2); [change (cstart fs r P + M + M <= fs); lia|].
  change (nth q1 file 0 = e0 k) in A2. change (nth q2 file 0 = e0 k) in B2.
  apply (two_in _ (q1 - cstart fs r P) (q2 - cstart fs r P)); [lia| |].
  - apply occ_in_iff; [rewrite SL; lia|]. rewrite sub_nth by lia. rewrite <- A2. f_equal. lia.
  - apply occ_in_iff; [rewrite SL; lia|]. rewrite sub_nth by lia. rewrite <- B2. f_equal. lia.
Qed.
Lemma lstarts_two r : r < P -> 2 <= length (lstarts P k pieces r).
Proof. intros Hr. unfold lstarts. rewrite app_length, map_length. assert (T := two_each r Hr). unfold file, fs in T. fold file fs. unfold file, fs. lia. Qed.

Lemma complete : exists y, load_rows dv fl sep P h file = Ok y /\ d_gshape y = [Z.of_nat (length vals); Z.of_nat c] /\ d_split y = Some 0 /\ rep y (zcounts (Z.of_nat (length vals)) P) (table dv vals).
Proof.
  assert (PN : pieces <> []) by (unfold pieces; destruct lines; discriminate).
  assert (HB' : k = 2 -> ~ In [] tbl) by auto.
  assert (LP : length pieces = h + length tbl + 1) by (unfold pieces, lines, h; rewrite !app_length, map_length; cbn; lia).
  assert (LT : 1 <= length tbl) by (assert (T := tbl_ne'); destruct tbl; [congruence|cbn; lia]).
  destruct (holder_some P k pieces HP HK PN PC HW V fl h ltac:(lia)) as [st HS].
  assert (EN : enough P k pieces st).
  { intros r Hr. assert (T := lstarts_two r ltac:(lia)). split; [intros E; rewrite E in T; cbn in T; lia|].
    unfold int32_ok. apply Z.ltb_lt. assert (I : In (hd 0 (lstarts P k pieces r)) (lstarts P k pieces r)) by (destruct (lstarts P k pieces r); [cbn in T; lia|now left]).
    apply (lstarts_bound P k pieces HP HK PC HW r _ ltac:(lia)) in I. cbv beta in I. fold file fs in I.
    assert (D := d_mono P k pieces HP HK PC HW (S r) P ltac:(lia)). cbv beta in D. fold file fs in D. rewrite (@cstart_S fs r P HP), (@cstart_P fs P HP) in D. fold file fs.
    assert (FP : 1 <= fs). { destruct (share_bounds 0 ltac:(lia)) as [_ SB]. assert (T0 := two_each 0 ltac:(lia)). destruct (share_bounds 0 ltac:(lia)) as [SL _].
      assert (OL : forall e l p, length (occ e p l) <= length l) by (clear; intros e l; induction l as [|b l IH]; intros p; cbn; [lia|]; specialize (IH (S p)); destruct (b =? e); cbn; lia).
      specialize (OL (e0 k) (sub file (cstart fs 0 P) (clen fs 0 P)) 0). rewrite SL in OL. assert (D0 := d_mono P k pieces HP HK PC HW 1 P ltac:(lia)). cbv beta in D0. fold file fs in D0. rewrite (@cstart_S fs 0 P HP), (@cstart_P fs P HP) in D0. lia. }
    destruct I as [[_ I]|I]; lia. }
  assert (TW : exists a b t, lsh P k pieces h st (P - 1) = a :: b :: t).
  { assert (SP := holder_spec P k pieces HP HK PC HW V fl h st HS). destruct SP as [SP1 SP2].
    assert (LL : 2 <= length (lsh P k pieces h st (P - 1))).
    { unfold lsh. destruct (Nat.ltb_spec (P - 1) st); [lia|]. destruct (Nat.eqb_spec (P - 1) st) as [E|]; [|apply lstarts_two; lia].
      rewrite skipn_length. assert (TT : psum (map (@length _) (map (lstarts P k pieces) (seq 0 P))) (S st) = length pieces).
      { rewrite psum_all by (rewrite !map_length, seq_length; lia).
        assert (GA := gg_all P k pieces HP HK PN PC HW). apply (f_equal (@length _)) in GA. rewrite begins_length, map_length in GA. rewrite <- GA.
        rewrite map_map. clear. induction (seq 0 P) as [|r l IH]; [reflexivity|]. cbn [map concat]. rewrite list_sum_cons, app_length, IH. now rewrite map_length. }
      rewrite psum_S in TT by (rewrite !map_length, seq_length; lia). rewrite map_map, (@nth_map_seq _ (fun x => length (lstarts P k pieces x))) in TT by lia. rewrite <- map_map in TT. rewrite E. lia. }
    destruct (lsh P k pieces h st (P - 1)) as [|a [|b t]]; cbn in LL; [lia|lia|]. eauto. }
  destruct TW as (a & b & t & TW).
  assert (CE : cols P k pieces sep h st = c).
  { assert (CL := cols_le V dv fl sep c k P heads tbl vals true HP HK FE FC S1 S2 HH HT' HB' HV HW st HS EN).
    destruct (two_starts V dv fl sep c k P heads tbl vals true HP HK FE FC S1 S2 HH HT' HB' HV HW st (P - 1) a b t HS EN ltac:(lia) TW) as (l & Il & EC).
    assert (NE : nonempty l = true).
    { apply in_map_iff in Il as (row & <- & Hr). assert (J := join_ne V fl sep c tbl vals FE HT' row ltac:(rewrite rows_of_tbl; exact Hr)). destruct (join [sep] row); [congruence|reflexivity]. }
    rewrite (count_piece V fl sep c tbl vals FE HT' l Il), NE in EC. assert (CP := c_pos V dv fl sep c k P heads tbl vals true HP HK FE FC S1 S2 HH HT' HB' HV HW).
    assert (LE : count_columns sep (sub file (cstart fs (P - 1) P) (clen fs (P - 1) P)) (lsh P k pieces h st (P - 1)) <= cols P k pieces sep h st).
    { unfold cols. fold file fs. assert (G : forall (f : nat -> nat) l r, In r l -> f r <= fold_right Nat.max 0 (map f l)).
      { clear. intros f l r. induction l as [|x l IH]; intros H; [contradiction|]. destruct H as [H|H]; cbn; [subst; lia|]. specialize (IH H). lia. }
      apply (G (fun r => count_columns sep (sub file (cstart fs r P) (clen fs r P)) (lsh P k pieces h st r)) (seq 0 P) (P - 1)). apply in_seq. lia. }
    unfold fs, file, pieces, lines, h in *. cbv beta iota in *. lia. }
  exact (rows_complete V dv fl sep c k P heads tbl vals true HP HK FE FC S1 S2 HH HT' HB' HV HW st HS EN CE).
Qed.
End Complete.
