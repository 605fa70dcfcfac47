(** Proofs about load_csv: shares that cut no terminator; the text modes (split=None, split=1). *)
From Verif Require Import Base BaseLemmas LayoutModel LayoutProofs RedistModel RedistProofs NdSpec TensorLemmas OpsModel OpsProofs2 OpsProofs4 ShapeModel BinModel BinProofs2 FactoryModel FactoryProps ShapeProps CsvSpec CsvModel CsvProofs CsvProofs2 CsvProofs3 CsvProofs4.
Open Scope nat_scope.

Lemma in_join {A} (x : A) glue ps : In x (join glue ps) -> In x glue \/ exists p, In p ps /\ In x p.
Proof.
  induction ps as [|p ps IH]; intros H; [contradiction|]. destruct ps as [|p' ps]; [right; exists p; split; [now left|exact H]|].
  rewrite join_cons in H by discriminate. apply in_app_or in H as [H|H]; [right; exists p; split; [now left|exact H]|].
  apply in_app_or in H as [H|H]; [now left|]. destruct (IH H) as [G|(q & Q1 & Q2)]; [now left|]. right. exists q. split; [now right|exact Q2].
Qed.
Lemma in_sub {A} (x : A) l a n : In x (sub l a n) -> In x l.
Proof. unfold sub. intros H. assert (H1 : In x (skipn a l)) by (rewrite <- (firstn_skipn n (skipn a l)); apply in_or_app; now left). rewrite <- (firstn_skipn a l). apply in_or_app. now right. Qed.
Lemma whole1 pieces a n : (forall p, In p pieces -> clean p) -> whole 1 (sub (join (eol 1) pieces) a n).
Proof.
  intros HC. cbn. intros H. apply in_sub in H. apply in_join in H as [H|(p & Hp & H)]; [destruct H as [H|[]]; discriminate|]. now apply (HC p).
Qed.
Lemma whole2_file pieces : (forall p, In p pieces -> clean p) -> whole 2 (join (eol 2) pieces).
Proof.
  intros HC. induction pieces as [|p ps IH]; [split; cbn; lia|]. specialize (IH ltac:(intros; apply HC; now right)).
  destruct (HC p ltac:(now left)) as [C1 C2].
  destruct ps as [|p' ps].
  - cbn [join]. split; intros q Hq E; exfalso; [apply C2|apply C1]; rewrite <- E; apply nth_In; auto.
  - rewrite join_cons by discriminate. set (J := join (eol 2) (p' :: ps)) in *. unfold whole in IH. cbn [Nat.eqb] in IH. destruct IH as [I1 I2]. unfold whole. cbn [Nat.eqb].
    assert (NS : forall i, nth (length p + 2 + i) (p ++ eol 2 ++ J) 0 = nth i J 0).
    { intros i. rewrite app_nth2 by lia. change (eol 2) with [CR; LF]. replace (length p + 2 + i - length p) with (S (S i)) by lia. reflexivity. }
    assert (N0 : nth (length p) (p ++ eol 2 ++ J) 0 = CR) by (rewrite app_nth2, Nat.sub_diag by lia; reflexivity).
    assert (N1 : nth (length p + 1) (p ++ eol 2 ++ J) 0 = LF) by (rewrite app_nth2 by lia; replace (length p + 1 - length p) with 1 by lia; reflexivity).
    assert (LL : length (p ++ eol 2 ++ J) = length p + 2 + length J) by (rewrite !app_length; change (length (eol 2)) with 2; clear; lia). rewrite LL.
    assert (CS : forall q, q < length p + 2 + length J -> q < length p \/ q = length p \/ q = length p + 1 \/ exists i, q = length p + 2 + i /\ i < length J).
    { intros q Hq. destruct (le_lt_dec (length p + 2) q); [right; right; right; exists (q - (length p + 2)); clear - Hq l; lia|]. clear - l; lia. }
    split; intros q Hq E; destruct (CS q Hq) as [L|[->|[->|(i & -> & Hi)]]].
    + exfalso. apply C2. rewrite app_nth1 in E by lia. rewrite <- E. apply nth_In; auto.
    + split; [lia|exact N1].
    + rewrite N1 in E. discriminate.
    + rewrite NS in E. destruct (I1 i Hi E) as [A B]. split; [lia|]. replace (length p + 2 + i + 1) with (length p + 2 + (i + 1)) by lia. now rewrite NS.
    + exfalso. apply C1. rewrite app_nth1 in E by lia. rewrite <- E. apply nth_In; auto.
    + rewrite N0 in E. discriminate.
    + exists (length p). split; [reflexivity|exact N0].
    + rewrite NS in E. destruct (I2 i Hi E) as (j & -> & Hj). exists (length p + 2 + j). split; [lia|]. now rewrite NS.
Qed.
Lemma whole2 pieces P r : 0 < P -> r < P -> (forall p, In p pieces -> clean p) ->
  let file := join (eol 2) pieces in let fs := length file in
  (forall q, 0 < q < P -> nth (cstart fs q P - 1) file 0 <> CR) -> whole 2 (sub file (cstart fs r P) (clen fs r P)).
Proof.
  intros HP Hr HC file fs HB. destruct (whole2_file pieces HC) as [W1 W2]. fold file in W1, W2. fold fs in W1, W2. cbn [whole Nat.eqb].
  assert (D : forall a b, a <= b -> cstart fs a P <= cstart fs b P).
  { intros a b H. induction H; [lia|]. rewrite cstart_S by lia. lia. }
  assert (DE : cstart fs r P + clen fs r P <= fs) by (rewrite <- cstart_S by lia; assert (CP := @cstart_P fs P HP); specialize (D (S r) P ltac:(lia)); lia).
  rewrite sub_length by exact DE.
  split; intros p Hp E; rewrite sub_nth in E by lia.
  - destruct (W1 (cstart fs r P + p) ltac:(lia) E) as [A B].
    assert (p + 1 < clen fs r P).
    { destruct (Nat.eq_dec (p + 1) (clen fs r P)) as [EQ|]; [|lia]. exfalso. destruct (Nat.eq_dec (S r) P) as [EP|NP].
      - assert (cstart fs (S r) P = fs) by (rewrite EP; apply cstart_P; lia). rewrite cstart_S in H by lia. lia.
      - apply (HB (S r) ltac:(lia)). rewrite cstart_S by lia. rewrite <- EQ. replace (cstart fs r P + (p + 1) - 1) with (cstart fs r P + p) by lia. exact E. }
    split; [lia|]. rewrite sub_nth by lia. replace (cstart fs r P + (p + 1)) with (cstart fs r P + p + 1) by lia. exact B.
  - destruct (W2 (cstart fs r P + p) ltac:(lia) E) as (q & Q1 & Q2). destruct p as [|p].
    + exfalso. destruct r as [|r]; [rewrite cstart_0 in Q1 by lia; lia|]. apply (HB (S r) ltac:(lia)). replace (cstart fs (S r) P - 1) with q by lia. exact Q2.
    + exists p. split; [lia|]. rewrite sub_nth by lia. replace (cstart fs r P + p) with q by lia. exact Q2.
Qed.

(** * text modes *)
Lemma text_lines_line k l rest : k = 1 \/ k = 2 -> clean l -> forall cur, text_lines cur (l ++ eol k ++ rest) = (cur ++ l) :: text_lines [] rest.
Proof.
  intros HK. induction l as [|b l IH]; intros [C1 C2] cur.
  - rewrite app_nil_r. destruct HK as [-> | ->]; reflexivity.
  - cbn [app text_lines]. destruct (Nat.eqb_spec b LF) as [->|]; [exfalso; apply C1; now left|]. destruct (Nat.eqb_spec b CR) as [->|]; [exfalso; apply C2; now left|].
    rewrite IH by (split; intros H; [apply C1|apply C2]; now right). now rewrite <- app_assoc.
Qed.
Lemma text_lines_last l : clean l -> forall cur, text_lines cur l = match cur ++ l with [] => [] | _ => [cur ++ l] end.
Proof.
  induction l as [|b l IH]; intros [C1 C2] cur; [cbn; rewrite app_nil_r; reflexivity|].
  cbn [text_lines]. destruct (Nat.eqb_spec b LF) as [->|]; [exfalso; apply C1; now left|]. destruct (Nat.eqb_spec b CR) as [->|]; [exfalso; apply C2; now left|].
  rewrite IH by (split; intros H; [apply C1|apply C2]; now right). now rewrite <- app_assoc.
Qed.
Lemma text_lines_file k lines (term : bool) : k = 1 \/ k = 2 -> (forall l, In l lines -> clean l) -> (term = false -> lines <> [] -> last lines [] <> []) ->
  text_lines [] (file_of (eol k) term lines) = lines.
Proof.
  intros HK HC HL. unfold file_of. induction lines as [|l lines IH]; [destruct term; reflexivity|].
  destruct lines as [|l' lines].
  - destruct term; cbn [app join].
    + change (l ++ eol k ++ []) with (l ++ eol k ++ []). rewrite text_lines_line; auto. apply HC; now left.
    + rewrite text_lines_last by (apply HC; now left). cbn. specialize (HL eq_refl ltac:(discriminate)). cbn in HL. destruct l; [congruence|reflexivity].
  - change ((l :: l' :: lines) ++ (if term then [[]] else [])) with (l :: ((l' :: lines) ++ (if term then [[]] else []))).
    rewrite join_cons by discriminate. rewrite text_lines_line; [|auto|apply HC; now left]. cbn [app]. f_equal. apply IH; [intros; apply HC; now right|].
    intros T _. apply (HL T). discriminate.
Qed.

Section Text.
Variables (V : Type) (dv : V) (fl : list nat -> res V) (sep c k P : nat).
Variables (heads : list (list nat)) (tbl : list (list (list nat))) (vals : list (list V)) (term : bool).
Hypothesis HP : 0 < P.
Hypothesis HK : k = 1 \/ k = 2.
Hypothesis FE : forall x, fl [] <> Ok x.
Hypothesis S1 : sep <> LF.
Hypothesis S2 : sep <> CR.
Hypothesis HH : forall l, In l heads -> one_line l.
Hypothesis HT : is_table (fun f x => fl f = Ok x) sep c tbl vals.
Hypothesis HB : ~ In [] tbl.
Hypothesis HV : vals <> [].
Let lines := heads ++ map (join [sep]) tbl.
Let file := file_of (eol k) term lines.
Let h := length heads.

Lemma rows_tbl : rows_of tbl = tbl.
Proof. unfold rows_of. apply filter_all_iff. intros r Hr. destruct r; [contradiction|reflexivity]. Qed.
Lemma HTr : is_table (fun f x => fl f = Ok x) sep c (rows_of tbl) vals.
Proof. rewrite rows_tbl. exact HT. Qed.
Lemma tbl_nonempty : tbl <> [].
Proof. intros E. assert (T := HT). rewrite E in T. inversion T. congruence. Qed.
Lemma lines_read : skipn h (text_lines [] file) = map (join [sep]) tbl.
Proof.
  unfold file. rewrite text_lines_file; auto.
  - unfold lines, h. now rewrite skipn_app, skipn_all, Nat.sub_diag.
  - intros l Hl. unfold lines in Hl. apply in_app_or in Hl as [Hl|Hl]; [exact (HH l Hl)|]. apply in_map_iff in Hl as (row & <- & Hr).
    exact (join_clean V fl sep c tbl vals S1 S2 HTr row Hr).
  - intros _ _. unfold lines. assert (T := tbl_nonempty). rewrite (app_removelast_last [] T), map_app. cbn [map]. rewrite app_assoc, last_last.
    apply (join_ne V fl sep c tbl vals FE HTr). rewrite rows_tbl. rewrite (app_removelast_last [] T) at 2. apply in_or_app. right. now left.
Qed.
Lemma parse_all t w : is_table (fun f x => fl f = Ok x) sep c t w -> ~ In [] t -> all_ok (map (parse fl sep) (map (join [sep]) t)) = Ok w.
Proof.
  intros H N. replace (map (parse fl sep) (map (join [sep]) t)) with (map (@Ok (list V)) w); [apply all_ok_Ok|].
  induction H as [|r v t w (A & B & C) H IH]; [reflexivity|]. cbn [map]. rewrite IH by (intros ?; apply N; now right). f_equal.
  rewrite <- (app_nil_r (join [sep] r)). symmetry. apply (parse_row V fl sep); auto; [intros ->; apply N; now left|intros f; now rewrite app_nil_r].
Qed.
Lemma vals_length v : In v vals -> length v = c.
Proof. intros Hv. exact (vals_len V fl sep c tbl vals HTr v Hv). Qed.

Lemma none_ok : exists y, load_none dv fl sep P h file = Ok y /\ d_gshape y = [Z.of_nat (length vals); Z.of_nat c] /\ d_split y = None /\
  rep y (balanced_counts P [Z.of_nat (length vals); Z.of_nat c] None) (table dv vals).
Proof.
  unfold load_none. rewrite lines_read, (parse_all tbl vals HT HB). cbn [bind].
  assert (ET : tensor_of dv vals = Ok (of_rows dv c vals)).
  { unfold tensor_of. assert (VL := vals_length). clear - HV VL. destruct vals as [|v vs]; [congruence|].
    rewrite (VL v) by (now left). replace (forallb (fun r => length r =? c) (v :: vs)) with true; [reflexivity|]. symmetry. apply forallb_forall.
    intros r Hr. apply Nat.eqb_eq. auto. }
  rewrite ET. cbn [bind].
  destruct (C55_array_split V P (of_rows dv c vals) AxNone None HP) as (y & E & G1 & G2 & G3); [repeat constructor; cbn; lia|reflexivity|].
  exists y. split; [exact E|]. split; [exact G1|]. split; [exact G2|]. exact G3.
Qed.

Lemma cols_ok : exists y, load_cols dv fl sep P h file = Ok y /\ d_gshape y = [Z.of_nat (length vals); Z.of_nat c] /\ d_split y = Some 1 /\
  rep y (balanced_counts P [Z.of_nat (length vals); Z.of_nat c] (Some 1)) (table dv vals).
Proof.
  unfold load_cols. rewrite lines_read. assert (T := tbl_nonempty). assert (VL := vals_length).
  assert (PA := parse_all tbl vals HT HB).
  destruct tbl as [|row t] eqn:ET; [congruence|]. destruct vals as [|v vs] eqn:EV; [congruence|].
  cbn [map tl]. cbn [map all_ok] in PA. destruct (parse fl sep (join [sep] row)) as [v'|]; [|discriminate]. cbn [bind] in PA |- *.
  destruct (all_ok (map (parse fl sep) (map (join [sep]) t))) as [vs'|]; [|discriminate]. cbn [bind] in PA |- *. injection PA as -> ->.
  assert (LV : length v = c) by (apply VL; now left). rewrite LV. unfold counts_displs_shape. cbn [nth].
  rewrite <- EV in *. set (n := length vals) in *.
  assert (D : forall r, r < P -> nth r (displs_from 0 (counts_of c P)) 0 = cstart c r P).
  { intros r Hr. rewrite displs_from_nth by (now rewrite counts_of_length). rewrite counts_of_psum by lia. reflexivity. }
  assert (C : forall r, r < P -> nth r (counts_of c P) 0 = clen c r P) by (intros; now rewrite counts_of_nth).
  assert (DE : forall r, r < P -> cstart c r P + clen c r P <= c).
  { intros r Hr. rewrite <- cstart_S by lia. assert (CPP := @cstart_P c P HP). assert (DD : forall a b, a <= b -> cstart c a P <= cstart c b P).
    { intros a b H. induction H; [lia|]. rewrite cstart_S by lia. lia. } specialize (DD (S r) P ltac:(lia)). lia. }
  set (loc r := of_rows dv (clen c r P) (map (fun w => sub w (cstart c r P) (clen c r P)) vals)).
  assert (ETs : all_ok (map (fun r => tensor_of dv (map (fun v0 => sub v0 (nth r (displs_from 0 (counts_of c P)) 0) (nth r (counts_of c P) 0)) (v :: vs))) (seq 0 P)) = Ok (map loc (seq 0 P))).
  { apply all_ok_map. intros r Hr. apply in_seq in Hr. rewrite D, C by lia. rewrite <- EV. unfold tensor_of, loc.
    assert (LS : forall w, In w vals -> length (sub w (cstart c r P) (clen c r P)) = clen c r P) by (intros w Hw; apply sub_length; rewrite (VL w Hw); apply DE; lia).
    clear - LS HV. destruct vals as [|w ws]; [congruence|]. cbn [map]. rewrite (LS w) by (now left).
    replace (forallb (fun r0 => length r0 =? clen c r P) (sub w (cstart c r P) (clen c r P) :: map (fun w0 => sub w0 (cstart c r P) (clen c r P)) ws)) with true; [reflexivity|].
    symmetry. change (sub w (cstart c r P) (clen c r P) :: map (fun w0 => sub w0 (cstart c r P) (clen c r P)) ws) with (map (fun w0 => sub w0 (cstart c r P) (clen c r P)) (w :: ws)).
    apply forallb_forall. intros x Hx. apply in_map_iff in Hx as (w0 & <- & Hw). apply Nat.eqb_eq. auto. }
  match goal with |- context[all_ok ?l] => match type of ETs with all_ok ?l' = _ => change l with l' end end. rewrite ETs. cbn [bind].
  assert (RP : represents (table dv vals) [Z.of_nat n; Z.of_nat c] (Some 1) (zcounts (Z.of_nat c) P) (map loc (seq 0 P))).
  { destruct (zcounts_ok (Z.of_nat c) P HP ltac:(lia)) as (L1 & L2 & L3).
    split; [rewrite map_length, seq_length; lia|]. split; [repeat constructor; lia|]. split; [cbn; lia|]. split; [exact L2|]. split; [exact L3|].
    intros r t0 Ht. rewrite nth_error_map in Ht. destruct (nth_error (seq 0 P) r) as [r'|] eqn:Er; [|discriminate]. cbn in Ht. injection Ht as <-.
    assert (Hr : r < P) by (assert (nth_error (seq 0 P) r <> None) by congruence; apply nth_error_Some in H; now rewrite seq_length in H).
    rewrite (nth_error_nth' _ 0) in Er by (now rewrite seq_length). rewrite seq_nth in Er by auto. injection Er as <-. cbn [plus].
    assert (ZN : nth r (zcounts (Z.of_nat c) P) 0%Z = Z.of_nat (clen c r P)).
    { unfold zcounts. rewrite Nat2Z.id. change 0%Z with (Z.of_nat 0). rewrite map_nth, C by auto. reflexivity. }
    assert (ZF : zsum (firstn r (zcounts (Z.of_nat c) P)) = Z.of_nat (cstart c r P)).
    { assert (RP : r <= P) by lia. rewrite <- (counts_of_psum c HP RP). unfold zcounts. rewrite Nat2Z.id, firstn_map. unfold psum. clear. induction (firstn r (counts_of c P)) as [|x l IH]; [reflexivity|].
      cbn [map]. rewrite list_sum_cons. change (zsum (Z.of_nat x :: map Z.of_nat l)) with (Z.of_nat x + zsum (map Z.of_nat l))%Z. lia. }
    rewrite ZN, ZF. split; [cbn [upd ash loc of_rows]; unfold loc, of_rows; cbn [ash]; now rewrite map_length|].
    intros idx Hi. cbn [upd] in Hi. apply in_bounds_nth in Hi as [Hl Hi]. destruct idx as [|i [|j [|]]]; try discriminate Hl.
    specialize (Hi 0%nat ltac:(cbn; lia)) as H0. specialize (Hi 1%nat ltac:(cbn; lia)) as Hj. cbn [nth] in H0, Hj.
    unfold loc, of_rows, table, move_axis_idx. cbn [adat upd nth].
    rewrite (nth_indep _ [] (sub [] (cstart c r P) (clen c r P))) by (rewrite map_length; unfold n in H0; lia). rewrite (map_nth (fun w => sub w (cstart c r P) (clen c r P))).
    rewrite sub_nth by lia. f_equal. lia. }
  destruct (C55_array_is_split V (map loc (seq 0 P)) 1 (table dv vals) [Z.of_nat n; Z.of_nat c] (zcounts (Z.of_nat c) P) RP ltac:(rewrite map_length, seq_length; lia)) as (y & bal & E & G1 & G2 & _ & G3 & _).
  rewrite E. cbn [bind fst]. exists y. split; [reflexivity|]. split; [exact G1|]. split; [exact G2|]. exact G3.
Qed.
End Text.
