(** Property theorems C47: save_csv.  Specification: SaveSpec.v (text of numbers, file writes in
    any order), CsvSpec.v (what a CSV file is), [rep] of NdSpec.v. *)
From Coq Require Import String Ascii NArith QArith Qround Qabs Qminmax Lia Psatz.
From Verif Require Import Base BaseLemmas LayoutModel NdSpec TensorSpec TensorLemmas OpsModel ShapeModel ShapeProps FactoryModel FactoryProps CsvSpec CsvModel CsvProofs5 CsvProps SaveSpec SaveModel SaveProofs SaveProofs3 SaveProofs4 SaveProofs5 SaveProofs6.
Open Scope nat_scope.

Definition ints : numtype Z := {| nt_kind := KInt; nt_val := inject_Z; nt_text := int_text |}.
Definition floats (decimals : nat) : numtype fnum := {| nt_kind := KFloat decimals; nt_val := fval; nt_text := fixed_text decimals |}.
(** a header given as a list: every enumeration yields the same lines *)
Definition as_list (head : option (list (list nat))) := option_map (fun h => (h, h)) head.
Definition lines_of_header (head : option (list (list nat))) := match head with Some h => h | None => [] end.
(** a 1-D or 2-D shape with at least one element *)
Definition csv_shape (gsh : list Z) : Prop := (length gsh = 1 \/ length gsh = 2) /\ Forall (fun n => 0 < n)%Z gsh.

Lemma csv_shape_ok gsh : csv_shape gsh -> one_or_two gsh.
Proof.
  intros [[L|L] F]; destruct gsh as [|a [|b [|? ?]]]; try discriminate; inversion F as [|? ? Ha F']; subst.
  - left. exists (Z.to_nat a - 1). f_equal. lia.
  - right. inversion F'; subst. exists (Z.to_nat a - 1), (Z.to_nat b - 1). f_equal; [lia|f_equal; lia].
Qed.
Lemma twice_as_list h : twice h = as_list h.
Proof. now destruct h. Qed.
Lemma saved_generic (V : Type) lg enc (nt : numtype V) gsh (G : list Z -> V) head sep :
  log10_ok lg -> (forall l, length (enc l) = length l) -> csv_shape gsh ->
  (forall lo hi, extremes (nt_val nt) gsh G lo hi -> forall idx, in_bounds gsh idx -> (Z.of_nat (length (nt_text nt (G idx))) <= width lg (nt_kind nt) lo hi)%Z) ->
  exists w, forall x cnts, d_gshape x = gsh -> 0 < length (d_locals x) -> rep x cnts G ->
  exists writes, save_csv lg enc nt x (as_list head) [sep] = Ok writes /\ forall old f, outcome old writes f ->
    let text := csv_text enc (lines_of_header head) sep w (nt_text nt) (array_rows gsh G) in f = text ++ skipn (length text) old.
Proof.
  intros LG HE HG HF. destruct (save_generic V lg enc nt gsh G head sep (proj1 LG) HE (csv_shape_ok _ HG) HF) as (w & H). exists w. rewrite <- twice_as_list. exact H.
Qed.

(** C47 for integer arrays: there is a column width such that, for every distribution of the
    array over any number of processes and every order in which MPI performs the writes, the file
    is the header followed by the rows in global order, each number right justified, with nothing
    between or overwritten; bytes of an older, longer file follow (none when it was truncated). *)
Theorem C47_integers : forall (lg : Q -> Z) (enc : list nat -> list nat) (gsh : list Z) (G : list Z -> Z) (head : option (list (list nat))) (sep : nat),
  log10_ok lg -> (forall l, length (enc l) = length l) -> csv_shape gsh ->
  exists w, forall (x : dnd Z) (cnts : list Z), d_gshape x = gsh -> 0 < length (d_locals x) -> rep x cnts G ->
  exists writes, save_csv lg enc ints x (as_list head) [sep] = Ok writes /\ forall old f, outcome old writes f ->
    let text := csv_text enc (lines_of_header head) sep w int_text (array_rows gsh G) in f = text ++ skipn (length text) old.
Proof.
  intros lg enc gsh G head sep LG HE HG. apply (saved_generic Z lg enc ints gsh G head sep LG HE HG).
  intros lo hi (B & (i1 & _ & E1) & (i2 & _ & E2)) idx Hi. cbn [ints nt_val nt_kind nt_text] in *. destruct (B idx Hi) as [B1 B2].
  assert (HA := absmax lo hi _ B1 B2). unfold width, item_size. set (M := Qmax (Qabs hi) (Qabs lo)) in *.
  assert (HM : (M == 0 \/ 11 # 100 <= M)%Q).
  { assert (INT : exists z : Z, M = inject_Z z).
    { unfold M. rewrite E1, E2. unfold Qmax, GenericMinMax.gmax. destruct (Qabs (inject_Z (G i2)) ?= Qabs (inject_Z (G i1)))%Q; [exists (Z.abs (G i2))|exists (Z.abs (G i1))|exists (Z.abs (G i2))]; reflexivity. }
    destruct INT as (z & ->). assert (Z0 : (inject_Z 0 <= inject_Z z)%Q) by (eapply Qle_trans; [apply (Qabs_nonneg (inject_Z (G idx)))|exact HA]). rewrite <- Zle_Qle in Z0.
    destruct (Z.eq_dec z 0) as [->|N]; [left; reflexivity|right]. assert (Y : (inject_Z 1 <= inject_Z z)%Q) by (rewrite <- Zle_Qle; lia). eapply Qle_trans; [|exact Y]. unfold Qle; cbn; lia. }
  destruct (ppd_ok lg lo hi LG HM) as [_ PD]. fold M in PD. specialize (PD (Z.abs_N (G idx))). rewrite N2Z.inj_abs_N in PD.
  assert (HA' : (inject_Z (Z.abs (G idx)) <= M)%Q) by exact HA. specialize (PD HA').
  assert (SG := sign_nonneg lo). unfold int_text. rewrite app_length. destruct (Z.ltb_spec (G idx) 0) as [L|L]; cbn [length]; [|lia].
  rewrite (sign_one lo (inject_Z (G idx)) B1); [lia|]. change 0%Q with (inject_Z 0). rewrite <- Zlt_Qlt. exact L.
Qed.
Print Assumptions C47_integers.

(** C47 for floating point arrays, provided (see the refutations below) the largest magnitude is zero or at least 0.11,
    rounding to the requested decimals gives no element more digits before the point than the
    elements have, and a negative zero only occurs beside a negative number. *)
Theorem C47_floats : forall (lg : Q -> Z) (enc : list nat -> list nat) (decimals : nat) (gsh : list Z) (G : list Z -> fnum) (head : option (list (list nat))) (sep : nat),
  log10_ok lg -> (forall l, length (enc l) = length l) -> csv_shape gsh ->
  (forall idx, in_bounds gsh idx -> 0 <= mag (G idx))%Q ->
  ((forall idx, in_bounds gsh idx -> mag (G idx) == 0) \/ exists idx, in_bounds gsh idx /\ 11 # 100 <= mag (G idx))%Q ->
  (forall idx, in_bounds gsh idx -> exists idx', in_bounds gsh idx' /\
     length (digits (scaled decimals (G idx) / 10 ^ N.of_nat decimals)) <= length (digits (Z.to_N (Qfloor (mag (G idx')))))) ->
  (forall idx, in_bounds gsh idx -> neg (G idx) = true -> exists idx', in_bounds gsh idx' /\ (fval (G idx') < 0)%Q) ->
  exists w, forall (x : dnd fnum) (cnts : list Z), d_gshape x = gsh -> 0 < length (d_locals x) -> rep x cnts G ->
  exists writes, save_csv lg enc (floats decimals) x (as_list head) [sep] = Ok writes /\ forall old f, outcome old writes f ->
    let text := csv_text enc (lines_of_header head) sep w (fixed_text decimals) (array_rows gsh G) in f = text ++ skipn (length text) old.
Proof.
  intros lg enc decimals gsh G head sep LG HE HG H0 HM HR HN. apply (saved_generic fnum lg enc (floats decimals) gsh G head sep LG HE HG).
  intros lo hi (B & (i1 & I1 & E1) & (i2 & I2 & E2)) idx Hi. cbn [floats nt_val nt_kind nt_text] in *.
  assert (FA : forall i, in_bounds gsh i -> (Qabs (fval (G i)) == mag (G i))%Q).
  { intros i Hb. unfold fval. destruct (neg (G i)); [rewrite Qabs_opp|]; apply Qabs_pos; auto. }
  set (M := Qmax (Qabs hi) (Qabs lo)). assert (LE : forall i, in_bounds gsh i -> (mag (G i) <= M)%Q).
  { intros i Hb. rewrite <- (FA i Hb). destruct (B i Hb). now apply absmax. }
  assert (HM' : (M == 0 \/ 11 # 100 <= M)%Q).
  { destruct HM as [HM|(i & Hb & HM)]; [left|right; eapply Qle_trans; [exact HM|auto]]. unfold M. rewrite E1, E2, !FA, !HM by auto. reflexivity. }
  destruct (ppd_ok lg lo hi LG HM') as [_ PD]. fold M in PD. destruct (HR idx Hi) as (i' & Hb' & LD).
  specialize (PD (Z.to_N (Qfloor (mag (G i'))))). assert (F0 : (0 <= Qfloor (mag (G i')))%Z).
  { replace 0%Z with (Qfloor 0) by reflexivity. apply Qfloor_resp_le. auto. }
  rewrite Z2N.id in PD by exact F0. assert (X : (inject_Z (Qfloor (mag (G i'))) <= M)%Q) by (eapply Qle_trans; [apply Qfloor_le|auto]). specialize (PD X).
  unfold width, item_size. assert (SG := sign_nonneg lo). unfold fixed_text. rewrite !app_length.
  assert (TL : length (match decimals with O => [] | _ => point :: digits_fixed decimals (scaled decimals (G idx) mod 10 ^ N.of_nat decimals) end) <= decimals + 1).
  { destruct decimals; cbn [length]; [lia|]. rewrite digits_fixed_len. lia. }
  destruct (neg (G idx)) eqn:EN; cbn [length]; [|lia]. destruct (HN idx Hi EN) as (j & Hj & Lt). rewrite (sign_one lo (fval (G j)) (proj1 (B j Hj)) Lt). lia.
Qed.
Print Assumptions C47_floats.

(** Saving and loading again.  [fl] is float(): it reads integers up to 2^53 exactly, leading
    blanks ignored, and rejects the empty text. *)
Definition reads_ints (fl : list nat -> res Z) : Prop :=
  (forall z, fl [] <> Ok z) /\ forall k z, (Z.abs z <= 2 ^ 53)%Z -> fl (repeat blank k ++ int_text z) = Ok z.
(** a separator that cannot be part of a number or end a line *)
Definition separates (sep : nat) : Prop := ~ In sep [10; 13; blank; minus] /\ ~ (48 <= sep <= 57).

Lemma justify_chars w z ch : In ch (justify w (int_text z)) -> ch = blank \/ ch = minus \/ 48 <= ch <= 57.
Proof.
  unfold justify, int_text. intros H. apply in_app_or in H as [H|H]; [apply repeat_spec in H; auto|]. apply in_app_or in H as [H|H].
  - destruct (z <? 0)%Z; [destruct H as [<-|[]]; auto|contradiction].
  - destruct (digits_read (Z.abs_N z)) as [_ F]. rewrite Forall_forall in F. specialize (F ch H). auto.
Qed.
Definition fields (w : nat) (rows : list (list Z)) := map (map (fun v => justify w (int_text v))) rows.
Lemma saved_table fl sep w gsh (G : list Z -> Z) c : reads_ints fl -> separates sep ->
  (forall idx, in_bounds gsh idx -> (Z.abs (G idx) <= 2 ^ 53)%Z) ->
  (forall r, In r (array_rows gsh G) -> length r = c) ->
  is_table (fun f z => fl f = Ok z) sep c (fields w (array_rows gsh G)) (array_rows gsh G).
Proof.
  intros [_ RI] [S1 S2] HB HL. assert (MEM : forall r v, In r (array_rows gsh G) -> In v r -> exists idx, in_bounds gsh idx /\ v = G idx).
  { intros r v Hr Hv. unfold array_rows in Hr. destruct gsh as [|a [|b [|? ?]]]; try contradiction.
    - apply in_map_iff in Hr as (i & <- & Hi). apply in_seq in Hi. destruct Hv as [<-|[]]. exists [Z.of_nat i]. split; auto. repeat constructor; cbn; lia.
    - apply in_map_iff in Hr as (i & <- & Hi). apply in_seq in Hi. apply in_map_iff in Hv as (j & <- & Hj). apply in_seq in Hj. eexists. split; [|reflexivity]. repeat constructor; cbn; lia. }
  unfold is_table, fields. revert MEM HL. generalize (array_rows gsh G) as rows. induction rows as [|r rows IH]; intros MEM HL; [constructor|]. cbn [map]. constructor.
  - split; [rewrite map_length; apply HL; now left|]. split.
    + assert (MR : forall v, In v r -> (Z.abs v <= 2 ^ 53)%Z) by (intros v Hv; destruct (MEM r v (or_introl eq_refl) Hv) as (idx & Hb & ->); auto).
      clear -RI MR. induction r as [|v r IH]; [constructor|]. cbn [map]. constructor; [|apply IH; intros; apply MR; now right]. unfold justify. apply RI, MR. now left.
    + intros f Hf. apply in_map_iff in Hf as (v & <- & _). unfold one_line. repeat split; intros Hc; apply justify_chars in Hc; unfold blank, minus in *; cbn [In] in S1; try lia.
  - apply IH; intros; [eapply MEM; eauto; now right|apply HL; now right].
Qed.

Section Saved.
Variables (lg : Q -> Z) (fl : list nat -> res Z) (n c : nat) (G : list Z -> Z) (heads : list (list nat)) (sep : nat) (x : dnd Z) (cnts : list Z) (writes : list (list (nat * list nat))) (f : list nat).
Hypothesis LG : log10_ok lg. Hypothesis RI : reads_ints fl. Hypothesis SP : separates sep. Hypothesis Hn : 0 < n. Hypothesis Hc : 0 < c.
Hypothesis HP : 0 < length (d_locals x). Hypothesis HH : forall l, In l heads -> one_line l.
Hypothesis HG : d_gshape x = [Z.of_nat n; Z.of_nat c]. Hypothesis HR : rep x cnts G.
Hypothesis HB : forall idx, in_bounds (d_gshape x) idx -> (Z.abs (G idx) <= 2 ^ 53)%Z.
Hypothesis HS : save_csv lg (fun l => l) ints x (as_list (Some heads)) [sep] = Ok writes. Hypothesis HO : outcome [] writes f.
Let rows := array_rows (d_gshape x) G.
Lemma saved_rows : length rows = n /\ (forall r, In r rows -> length r = c).
Proof using HG.
  unfold rows. rewrite HG. cbn [array_rows]. rewrite map_length, seq_length, Nat2Z.id. split; [reflexivity|].
  intros r Hr. apply in_map_iff in Hr as (i & <- & _). now rewrite map_length, seq_length, Nat2Z.id.
Qed.
Lemma saved_file : exists w, f = file_of [10] true (heads ++ map (join [sep]) (fields w rows)) /\ ~ In [] (fields w rows) /\
  is_table (fun g z => fl g = Ok z) sep c (fields w rows) rows.
Proof.
  destruct (C47_integers lg (fun l => l) (d_gshape x) G (Some heads) sep LG) as (w & HI); [reflexivity| |].
  { rewrite HG. split; [now right|]. repeat constructor; lia. }
  destruct (HI x cnts eq_refl HP HR) as (ws & E1 & E2). rewrite E1 in HS. injection HS as HS'. rewrite HS' in *. specialize (E2 [] f HO). cbn zeta in E2.
  rewrite skipn_nil, app_nil_r in E2. fold rows in E2. destruct saved_rows as [RN LR]. exists w. split; [|split].
  - rewrite E2. unfold csv_text. cbn [lines_of_header]. rewrite !file_of_true, map_app, concat_app. f_equal.
    + f_equal. apply map_ext_in. intros l Hl. destruct (HH l Hl) as [N _]. unfold with_newline. destruct (rev l) as [|a q] eqn:ER; [reflexivity|].
      assert (In a l) by (apply in_rev; rewrite ER; now left). destruct a as [|[|[|[|[|[|[|[|[|[|[|a]]]]]]]]]]]; try reflexivity. contradiction.
    + unfold fields. rewrite !map_map. reflexivity.
  - unfold fields. intros X. apply in_map_iff in X as (r & X & Hr). apply map_eq_nil in X. subst. specialize (LR _ Hr). cbn in LR. lia.
  - exact (saved_table fl sep w (d_gshape x) G c RI SP HB LR).
Qed.
Lemma saved_elements idx : in_bounds (d_gshape x) idx -> table 0%Z rows idx = G idx.
Proof using HG.
  clear - HG. intros Hb. rewrite HG in Hb. assert (LI := in_bounds_length _ _ Hb). destruct idx as [|i [|j [|? ?]]]; try discriminate.
  apply in_bounds_nth in Hb as [_ Hb]. assert (B0 := Hb 0 ltac:(cbn; lia)). assert (B1 := Hb 1 ltac:(cbn; lia)). cbn [nth] in B0, B1.
  unfold table, rows. rewrite HG. cbn [array_rows nth]. rewrite !Nat2Z.id. rewrite (@nth_map_seq _ (fun i => map (fun j => G [Z.of_nat i; Z.of_nat j]) (seq 0 c))) by lia.
  rewrite (@nth_map_seq _ (fun j => G [Z.of_nat (Z.to_nat i); Z.of_nat j])) by lia. do 2 f_equal; [lia|f_equal; lia].
Qed.
Lemma saved_loaded P' split y : loaded 0%Z P' split c rows y ->
  d_gshape y = d_gshape x /\ d_split y = split /\ rep y (balanced_counts P' (d_gshape x) split) G.
Proof using HG.
  destruct saved_rows as [RN LR]. intros (G1 & G2 & G3). rewrite RN in G1, G3. rewrite <- HG in G1, G3. split; [exact G1|]. split; [exact G2|].
  unfold rep in *. rewrite G1, G2 in *. eapply RollProofs2.represents_ext; [|exact G3]. apply saved_elements.
Qed.
Lemma saved_nonempty : rows <> [].
Proof using Hn HG. clear - Hn HG. destruct saved_rows as [RN _]. destruct rows; [cbn in RN; lia|discriminate]. Qed.
End Saved.

(** ... with split=None and split=1 the saved integers come back, whatever the layouts and the
    numbers of processes that wrote and read the file *)
Theorem C47_roundtrip : forall (lg : Q -> Z) (fl : list nat -> res Z) (n c : nat) (G : list Z -> Z) (heads : list (list nat)) (sep : nat) (P' : nat) (split : option nat)
    (x : dnd Z) (cnts : list Z) (writes : list (list (nat * list nat))) (f : list nat),
  log10_ok lg -> reads_ints fl -> separates sep -> 0 < n -> 0 < c -> 0 < P' -> 0 < length (d_locals x) ->
  (forall l, In l heads -> one_line l) ->
  d_gshape x = [Z.of_nat n; Z.of_nat c] -> rep x cnts G -> (forall idx, in_bounds (d_gshape x) idx -> (Z.abs (G idx) <= 2 ^ 53)%Z) ->
  save_csv lg (fun l => l) ints x (as_list (Some heads)) [sep] = Ok writes -> outcome [] writes f ->
  split = None \/ split = Some 1 ->
  exists y, load_csv 0%Z fl sep split P' (length heads) f = Ok y /\ d_gshape y = d_gshape x /\ d_split y = split /\
    rep y (balanced_counts P' (d_gshape x) split) G.
Proof.
  intros lg fl n c G heads sep P' split x cnts writes f LG RI SP Hn Hc HP' HP HH HG HR HB HS HO HSp.
  destruct (saved_file lg fl n c G heads sep x cnts writes f LG RI SP Hn Hc HP HH HG HR HB HS HO) as (w & F & NE & TB).
  assert (SP' := SP). destruct SP' as [SP1 SP2]. cbn [In] in SP1.
  destruct (C46_text_modes Z 0%Z fl sep c P' false true heads _ _ split HP' (proj1 RI) ltac:(lia) ltac:(lia) HH TB) as (y & L1 & L2); auto.
  { eapply saved_nonempty; [exact Hn|exact HG]. }
  cbn [terminator] in L1. rewrite <- F in L1. exists y. split; [exact L1|]. eapply saved_loaded; [exact HG|exact L2].
Qed.
Print Assumptions C47_roundtrip.
(** ... and with split=0, whenever the file can be read in that way (C46) and has two columns *)
Theorem C47_roundtrip_rows : forall (lg : Q -> Z) (fl : list nat -> res Z) (n c : nat) (G : list Z -> Z) (heads : list (list nat)) (sep : nat) (P' : nat)
    (x : dnd Z) (cnts : list Z) (writes : list (list (nat * list nat))) (f : list nat) (y : dnd Z),
  log10_ok lg -> reads_ints fl -> separates sep -> 0 < n -> 2 <= c -> 0 < P' -> 0 < length (d_locals x) ->
  (forall l, In l heads -> one_line l) ->
  d_gshape x = [Z.of_nat n; Z.of_nat c] -> rep x cnts G -> (forall idx, in_bounds (d_gshape x) idx -> (Z.abs (G idx) <= 2 ^ 53)%Z) ->
  save_csv lg (fun l => l) ints x (as_list (Some heads)) [sep] = Ok writes -> outcome [] writes f ->
  load_csv 0%Z fl sep (Some 0) P' (length heads) f = Ok y ->
  d_gshape y = d_gshape x /\ d_split y = Some 0 /\ rep y (balanced_counts P' (d_gshape x) (Some 0)) G.
Proof.
  intros lg fl n c G heads sep P' x cnts writes f y LG RI SP Hn Hc HP' HP HH HG HR HB HS HO HL.
  destruct (saved_file lg fl n c G heads sep x cnts writes f LG RI SP Hn ltac:(lia) HP HH HG HR HB HS HO) as (w & F & NE & TB).
  assert (SP' := SP). destruct SP' as [SP1 SP2]. cbn [In] in SP1. rewrite F in HL.
  eapply saved_loaded; [exact HG|].
  refine (C46_rows_sound Z 0%Z fl sep c P' true heads _ _ y HP' (proj1 RI) _ _ HH _ _ HL _); try lia.
  - replace (rows_of (fields w (array_rows (d_gshape x) G))) with (fields w (array_rows (d_gshape x) G)); [exact TB|].
    symmetry. unfold rows_of. apply filter_all_iff. intros r Hr. destruct r; [contradiction|reflexivity].
  - eapply saved_nonempty; [exact Hn|exact HG].
Qed.
Print Assumptions C47_roundtrip_rows.

(** * concrete instances *)
(** int(log10(q)) computed exactly *)
Definition lg10 (q : Q) : Z :=
  if Qle_bool 1 q then Z.of_nat (length (digits (Z.to_N (Qfloor q)))) - 1
  else - (Z.of_nat (length (digits (Z.to_N (Qfloor (/ q))))) - 1).
Example C47_log10 : log10_ok lg10.
Proof.
  split.
  - intros p q E. unfold lg10. rewrite (Qfloor_comp p q E), (Qfloor_comp (/ p) (/ q)) by now rewrite E.
    assert (X : Qle_bool 1 p = Qle_bool 1 q) by (apply bool_iff; rewrite !Qle_bool_iff, E; tauto). now rewrite X.
  - intros q Hq. unfold lg10. destruct (Qle_bool 1 q) eqn:E1.
    + apply Qle_bool_iff in E1. assert (F : (1 <= Qfloor q)%Z) by (replace 1%Z with (Qfloor 1) by reflexivity; now apply Qfloor_resp_le).
      set (k := Z.to_N (Qfloor q)). assert (D := digits_bound k). assert (D1 := digits_pos k). split; [lia|].
      replace (Z.of_nat (length (digits k)) - 1 + 1)%Z with (Z.of_nat (length (digits k))) by lia.
      eapply Qlt_le_trans; [apply Qlt_floor|]. rewrite <- Zle_Qle.
      assert (Y : (Z.of_N (10 ^ N.of_nat (length (digits k))) = 10 ^ Z.of_nat (length (digits k)))%Z) by (rewrite N2Z.inj_pow; f_equal; lia).
      assert (Z.of_N k = Qfloor q) by (unfold k; apply Z2N.id; lia). lia.
    + assert (L : (q < 1)%Q) by (apply Qnot_le_lt; intros X; apply Qle_bool_iff in X; congruence).
      assert (IQ : (/ q <= 100 # 11)%Q). { apply (Qmult_le_l _ _ q); [lra|]. rewrite Qmult_inv_r by lra. lra. }
      assert (F : (Qfloor (/ q) <= 9)%Z) by (replace 9%Z with (Qfloor (100 # 11)) by reflexivity; now apply Qfloor_resp_le).
      assert (D : length (digits (Z.to_N (Qfloor (/ q)))) <= 1) by (apply digits_len; [lia|]; cbn; lia).
      assert (D1 := digits_pos (Z.to_N (Qfloor (/ q)))).
      replace (- (Z.of_nat (length (digits (Z.to_N (Qfloor (/ q))))) - 1))%Z with 0%Z by lia. split; [lia|]. change (10 ^ (0 + 1))%Z with 10%Z. unfold inject_Z. lra.
Qed.
(** a reader of decimal integers *)
Fixpoint skip_blanks (l : list nat) : list nat := match l with 32 :: t => skip_blanks t | _ => l end.
Definition znum (l : list nat) : res Z :=
  match skip_blanks l with
  | [] => Err ValueError
  | 45 :: ds => Ok (- Z.of_N (read_digits ds))%Z
  | ds => Ok (Z.of_N (read_digits ds))
  end.
Example C47_reader : reads_ints znum.
Proof.
  split; [discriminate|]. intros k z _. unfold znum. assert (SB : skip_blanks (repeat blank k ++ int_text z) = int_text z).
  { induction k as [|k IH]; [|exact IH]. cbn [repeat app]. unfold int_text. destruct (Z.ltb_spec z 0); [reflexivity|]. cbn [app].
    destruct (digits_read (Z.abs_N z)) as [_ F]. destruct (digits (Z.abs_N z)) as [|a l]; [reflexivity|]. inversion F; subst.
    cbn [skip_blanks]. do 33 (destruct a as [|a]; [try reflexivity; lia|]). reflexivity. }
  rewrite SB. unfold int_text. destruct (digits_read (Z.abs_N z)) as [R F]. assert (LP := digits_pos (Z.abs_N z)). destruct (Z.ltb_spec z 0).
  - cbn [app minus]. rewrite R, N2Z.inj_abs_N. f_equal. lia.
  - cbn [app]. destruct (digits (Z.abs_N z)) as [|a l] eqn:ED; [cbn in LP; lia|]. inversion F as [|? ? Fa _]; subst.
    do 46 (destruct a as [|a]; [try lia; cbn [length] in LP|]). all: try (rewrite R, N2Z.inj_abs_N; f_equal; lia).
Qed.

Definition comma := 44.
(** the 2 x 3 table -1 0 1 / 99 100 101, columns on two processes, one of which holds one column *)
Definition ex_G (idx : list Z) : Z := (nth 0 idx 0 * 100 + nth 1 idx 0 - 1)%Z.
Definition ex_x : dnd Z := mk_dnd [mk_arr [2; 2]%Z ex_G; mk_arr [2; 0]%Z ex_G; mk_arr [2; 1]%Z (fun idx => ex_G (move_axis_idx 1 2 idx))] [2; 3]%Z (Some 1).
Example C47_instance : rep ex_x [2; 0; 1]%Z ex_G /\ csv_shape (d_gshape ex_x) /\ separates comma /\
  (do ws <- save_csv lg10 (fun l => l) ints ex_x (as_list (Some [b "h"])) [comma]; Ok (fold_left write (concat ws) [])) =
  Ok (b "h" ++ [10] ++ b "  -1,   0,   1" ++ [10] ++ b "  99, 100, 101" ++ [10]).
Proof.
  split; [|split; [|split]].
  - split; [reflexivity|]. split; [repeat constructor; lia|]. cbn [d_split ex_x d_gshape]. split; [cbn; lia|]. split; [repeat constructor; lia|]. split; [reflexivity|].
    intros r t Hr. destruct r as [|[|[|r]]]; cbn in Hr; try (injection Hr as <-); try (destruct r; discriminate); (split; [reflexivity|]); intros idx Hi; cbn [nth firstn zsum fold_right adat]; auto.
    + f_equal. unfold move_axis_idx. apply in_bounds_length in Hi. destruct idx as [|i [|j l]]; try discriminate. cbn [upd nth]. do 2 f_equal. lia.
    + f_equal. unfold move_axis_idx. apply in_bounds_nth in Hi as [_ Hi]. specialize (Hi 1 ltac:(cbn; lia)). cbn in Hi. lia.
  - split; [now right|]. repeat constructor.
  - split; [cbn; intuition discriminate|unfold comma; lia].
  - vm_compute. reflexivity.
Qed.

(** C47 in full is refuted.  One process, floating point numbers: *)
Definition column (l : list fnum) : dnd fnum :=
  mk_dnd [mk_arr [Z.of_nat (length l)] (fun idx => nth (Z.to_nat (nth 0 idx 0%Z)) l {| neg := false; mag := 0 |})] [Z.of_nat (length l)] None.
Definition pos (q : Q) : fnum := {| neg := false; mag := q |}.
Definition saved (decimals : nat) (l : list fnum) : res (list nat) :=
  do ws <- save_csv lg10 (fun l => l) (floats decimals) (column l) None [comma]; Ok (fold_left write (concat ws) []).
Definition full_text (decimals w : nat) (l : list fnum) : list nat :=
  csv_text (fun l => l) [] comma w (fixed_text decimals) (map (fun v => [v]) l).
(** all magnitudes below 0.1: the columns are too narrow and every row overwrites the line break
    of the one before *)
Theorem C47_small_numbers_refuted :
  saved 2 [pos (5 # 100); pos (7 # 100)] = Ok (b "0.050.07" ++ [10]) /\
  forall w, saved 2 [pos (5 # 100); pos (7 # 100)] <> Ok (full_text 2 w [pos (5 # 100); pos (7 # 100)]).
Proof.
  assert (E : saved 2 [pos (5 # 100); pos (7 # 100)] = Ok (b "0.050.07" ++ [10])) by (vm_compute; reflexivity).
  split; [exact E|]. intros w. rewrite E. intros X. injection X as X. assert (L := f_equal (@length nat) X). unfold full_text, csv_text in L.
  rewrite file_of_true in L. cbn [map concat app join] in L. rewrite !app_length in L. unfold justify in L. rewrite !app_length, !repeat_length in L.
  vm_compute (length (fixed_text 2 (pos (5 # 100)))) in L. vm_compute (length (fixed_text 2 (pos (7 # 100)))) in L. vm_compute (length (b _)) in L. cbn [length] in L. lia.
Qed.
Print Assumptions C47_small_numbers_refuted.
(** rounding up to one digit more (9.999 to two decimals): the next row begins too early *)
Theorem C47_rounding_refuted : saved 2 [pos (9999 # 1000); pos 1] = Ok (b "10.001.00" ++ [10]).
Proof. vm_compute. reflexivity. Qed.
(** a negative zero without a negative number: no column for the sign *)
Theorem C47_negative_zero_refuted : saved 1 [{| neg := true; mag := 0 |}; pos 1] = Ok (b "-0.01.0" ++ [10]).
Proof. vm_compute. reflexivity. Qed.
(** header and separator, one process holding the integers 1 2 *)
Definition two : dnd Z := mk_dnd [mk_arr [1; 2]%Z (fun idx => nth 1 idx 0 + 1)%Z] [1; 2]%Z None.
Definition written enc head sep : res (list nat) := do ws <- save_csv lg10 enc ints two head sep; Ok (fold_left write (concat ws) []).
(** a character of several bytes in the header (here e acute in UTF-8): its end is overwritten *)
Definition utf8 (l : list nat) : list nat := flat_map (fun x => if x <? 128 then [x] else [192 + x / 64; 128 + x mod 64]) l.
Theorem C47_header_bytes_refuted : written utf8 (as_list (Some [[233]])) [comma] = Ok ([195; 169] ++ b "1,2" ++ [10]) /\
  csv_text utf8 [[233]] comma 1 int_text [[1; 2]%Z] = [195; 169; 10] ++ b "1,2" ++ [10].
Proof. split; vm_compute; reflexivity. Qed.
(** a header given as a generator is used up when its length is added: a hole of zero bytes *)
Theorem C47_header_iterator_refuted : written (fun l => l) (Some ([b "ab"], [])) [comma] = Ok ([0; 0] ++ b "1,2" ++ [10]).
Proof. vm_compute. reflexivity. Qed.
(** a separator of several characters: rows are longer than computed (two rows of two integers) *)
Definition four : dnd Z := mk_dnd [mk_arr [2; 2]%Z (fun idx => nth 0 idx 0 * 2 + nth 1 idx 0 + 1)%Z] [2; 2]%Z None.
Theorem C47_separator_refuted :
  (do ws <- save_csv lg10 (fun l => l) ints four None (b ", "); Ok (fold_left write (concat ws) [])) = Ok (b "1, 23, 4" ++ [10]).
Proof. vm_compute. reflexivity. Qed.
Print Assumptions C47_separator_refuted.
