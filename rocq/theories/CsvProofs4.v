(** Proofs about load_csv, split=0: the loaded table. *)
From Verif Require Import Base BaseLemmas LayoutModel LayoutProofs RedistModel RedistProofs NdSpec OpsModel OpsProofs2 OpsProofs4 ShapeModel BinModel BinProofs2 FactoryModel FactoryProps ShapeProps CsvSpec CsvModel CsvProofs CsvProofs2 CsvProofs3.
Open Scope nat_scope.

Section Table.
Variables (V : Type) (dv : V) (fl : list nat -> res V) (sep c k P : nat).
Variables (heads : list (list nat)) (tbl : list (list (list nat))) (vals : list (list V)) (term : bool).
Hypothesis HP : 0 < P.
Hypothesis HK : k = 1 \/ k = 2.
Hypothesis FE : forall x, fl [] <> Ok x.
Hypothesis FC : k = 2 -> forall f, fl (f ++ [CR]) = fl f.
Hypothesis S1 : sep <> LF.
Hypothesis S2 : sep <> CR.
Hypothesis HH : forall l, In l heads -> one_line l.
Hypothesis HT : is_table (fun f x => fl f = Ok x) sep c (rows_of tbl) vals.
Hypothesis HB : k = 2 -> ~ In [] tbl.
Hypothesis HV : vals <> [].
Let lines := heads ++ map (join [sep]) tbl.
Let tailp : list (list nat) := if term then [[]] else [].
Let pieces := lines ++ tailp.
Let file := join (eol k) pieces.
Let fs := length file.
Let h := length heads.
Hypothesis HW : forall r, r < P -> whole k (sub file (cstart fs r P) (clen fs r P)).

Lemma row_facts row : In row (rows_of tbl) -> exists v, In v vals /\ length row = c /\ Forall2 (fun f x => fl f = Ok x) row v /\ row <> [] /\ (forall f, In f row -> ~ In sep f /\ one_line f).
Proof.
  intros Hr. assert (N : row <> []) by (unfold rows_of in Hr; apply filter_In in Hr as [_ Hr]; now destruct row).
  assert (HT' := HT). unfold is_table in HT'. clear - HT' Hr N. induction HT' as [|x v l l' H1 H2 IH]; [contradiction|]. destruct Hr as [->|Hr].
  - exists v. destruct H1 as (A & B & C). split; [now left|auto].
  - destruct (IH Hr) as (w & Hw & R). exists w. split; [now right|exact R].
Qed.
Lemma c_pos : 1 <= c.
Proof.
  assert (HT' := HT). unfold is_table in HT'. assert (R : exists row, In row (rows_of tbl)) by (revert HT'; generalize (rows_of tbl); intros [|row rs] HT'; [inversion HT'; congruence|exists row; now left]).
  destruct R as [row Hrow].
  destruct (row_facts row Hrow) as (v & _ & A & _ & N & _). destruct row; [congruence|]. cbn in A. lia.
Qed.
Lemma join_ne row : In row (rows_of tbl) -> join [sep] row <> [].
Proof.
  intros Hr. destruct (row_facts row Hr) as (v & _ & _ & F & N & _). destruct row as [|f [|f' row]]; [congruence| |].
  - cbn. intros ->. inversion F; subst. now apply (FE y).
  - rewrite join_cons by discriminate. intros E. apply app_eq_nil in E as [_ E]. discriminate.
Qed.
Lemma join_clean row : In row tbl -> clean (join [sep] row).
Proof.
  intros Hr. destruct row as [|f0 row]; [cbn; split; intros []|]. set (r0 := f0 :: row) in *.
  assert (Hr' : In r0 (rows_of tbl)) by (unfold rows_of; apply filter_In; split; [exact Hr|reflexivity]).
  destruct (row_facts r0 Hr') as (v & _ & _ & _ & _ & A).
  assert (G : forall x l, (forall f, In f l -> ~ In x f) -> sep <> x -> ~ In x (join [sep] l)).
  { clear. intros x l. induction l as [|f l IH]; intros Hl Hs Hin; [exact Hin|]. destruct l as [|f' l]; [apply (Hl f); [now left|exact Hin]|].
    rewrite join_cons in Hin by discriminate. apply in_app_or in Hin as [Hin|Hin]; [apply (Hl f); [now left|exact Hin]|].
    cbn [app] in Hin. destruct Hin as [Hin|Hin]; [congruence|]. apply IH; auto. intros; apply Hl; now right. }
  split; apply G; auto; intros f Hf; apply (A f Hf).
Qed.
Lemma pieces_clean p : In p pieces -> clean p.
Proof.
  unfold pieces, lines. intros H. apply in_app_or in H as [H|H]; [apply in_app_or in H as [H|H]|].
  - exact (HH p H).
  - apply in_map_iff in H as (row & <- & Hr). now apply join_clean.
  - unfold tailp in H. destruct term; [|contradiction]. destruct H as [<-|[]]. split; intros [].
Qed.
Lemma tbl_ne : tbl <> [].
Proof. intros E. assert (HT' := HT). rewrite E in HT'. unfold is_table in HT'. inversion HT'. congruence. Qed.
Lemma pieces_ne : pieces <> [].
Proof. unfold pieces, lines. assert (T := tbl_ne). intros E. apply app_eq_nil in E as [E _]. apply app_eq_nil in E as [_ E]. now apply map_eq_nil in E. Qed.
Lemma skip_heads : skipn h pieces = map (join [sep]) tbl ++ tailp.
Proof. unfold pieces, lines, h. rewrite <- app_assoc. rewrite skipn_app, skipn_all, Nat.sub_diag. reflexivity. Qed.
Lemma data_lines : filter nonempty (skipn h pieces) = map (join [sep]) (rows_of tbl).
Proof.
  rewrite skip_heads, filter_app. replace (filter nonempty tailp) with (@nil (list nat)) by (unfold tailp; now destruct term). rewrite app_nil_r.
  assert (G : forall t, (forall row, In row (rows_of t) -> join [sep] row <> []) -> filter nonempty (map (join [sep]) t) = map (join [sep]) (rows_of t)).
  { induction t as [|row t IH]; intros Ht; [reflexivity|]. destruct row as [|f row]; [cbn; apply IH; exact Ht|].
    cbn [map rows_of filter]. change (filter (fun r => match r with [] => false | _ => true end) t) with (rows_of t).
    assert (N : join [sep] (f :: row) <> []) by (apply Ht; now left). destruct (join [sep] (f :: row)) eqn:E; [congruence|].
    cbn [nonempty]. f_equal. apply IH. intros; apply Ht. now right. }
  apply G. exact join_ne.
Qed.
Lemma parse_row row v tail : Forall2 (fun f x => fl f = Ok x) row v -> row <> [] -> (forall f, In f row -> ~ In sep f /\ one_line f) ->
  ~ In sep tail -> (forall f, fl (f ++ tail) = fl f) -> parse fl sep (join [sep] row ++ tail) = Ok v.
Proof.
  intros F N A B C. unfold parse. rewrite split_on_join; auto; [|intros f Hf; now apply A]. rewrite map_app. cbn [map]. rewrite C.
  assert (E : map fl (removelast row) ++ [fl (last row [])] = map fl row) by (rewrite (app_removelast_last [] N) at 3; now rewrite map_app).
  rewrite E. replace (map fl row) with (map (@Ok V) v); [apply all_ok_Ok|]. clear - F. induction F; cbn; congruence.
Qed.
Lemma parse_near a b : nearly k a b -> In b (skipn h pieces) -> nonempty b = true -> parse fl sep a = parse fl sep b.
Proof.
  intros [->|(K2 & N & ->)] Hb Hn; [reflexivity|].
  assert (I : In b (filter nonempty (skipn h pieces))) by (apply filter_In; auto). rewrite data_lines in I. apply in_map_iff in I as (row & <- & Hr).
  destruct (row_facts row Hr) as (v & _ & _ & F & NN & A).
  rewrite (parse_row row v [CR]); auto; [|intros [E|[]]; congruence].
  rewrite <- (app_nil_r (join [sep] row)). symmetry. apply parse_row; auto. intros f. now rewrite app_nil_r.
Qed.
Lemma near_map (g : list nat -> res (list V)) A B : Forall2 (nearly k) A B ->
  (forall a b, nearly k a b -> In b B -> nonempty b = true -> g a = g b) -> map g (filter nonempty A) = map g (filter nonempty B).
Proof.
  induction 1 as [|a b A B H1 H2 IH]; intros HG; [reflexivity|]. cbn [filter].
  assert (E : nonempty a = nonempty b) by (destruct H1 as [->|(_ & N & ->)]; [reflexivity|]; destruct b; [congruence|reflexivity]).
  rewrite E. destruct (nonempty b) eqn:Nb; [|apply IH; intros; apply HG; auto; now right]. cbn [map]. f_equal; [apply HG; auto; now left|].
  apply IH. intros; apply HG; auto. now right.
Qed.
Lemma assign_all cc : map (fun l => do v <- parse fl sep l; assign_row cc v) (filter nonempty (skipn h pieces)) = map (assign_row cc) vals.
Proof.
  rewrite data_lines, map_map.
  assert (G : forall t w, Forall2 (fun fields v => length fields = c /\ Forall2 (fun f x => fl f = Ok x) fields v /\ forall f, In f fields -> ~ In sep f /\ one_line f) t w ->
     (forall r, In r t -> r <> []) -> map (fun x => do v <- parse fl sep (join [sep] x); assign_row cc v) t = map (assign_row cc) w).
  { induction 1 as [|r v t w (A & B & C) _ IH]; intros N; [reflexivity|]. cbn [map]. rewrite IH by (intros; apply N; now right). f_equal.
    rewrite <- (app_nil_r (join [sep] r)). rewrite (parse_row r v []); auto; [apply N; now left|intros f; now rewrite app_nil_r]. }
  apply G; [exact HT|]. intros r Hr. unfold rows_of in Hr. apply filter_In in Hr as [_ Hr]. now destruct r.
Qed.
Lemma vals_len v : In v vals -> length v = c.
Proof.
  intros Hv. assert (HT' := HT). unfold is_table in HT'. clear - HT' Hv. induction HT' as [|x w l l' (A & B & C) H2 IH]; [contradiction|]. destruct Hv as [->|Hv]; [|auto].
  rewrite <- A. clear - B. induction B; cbn; congruence.
Qed.
Lemma no_blank : k = 2 -> forall i, h <= i -> S i < length pieces -> nth i pieces [] <> [].
Proof.
  intros K2 i H1 H2. replace i with (h + (i - h)) by lia. rewrite <- nth_skipn0, skip_heads.
  assert (LL : length pieces = h + length tbl + length tailp) by (unfold pieces, lines, h; rewrite !app_length, map_length; lia).
  assert (LT : length tailp <= 1) by (unfold tailp; destruct term; cbn; lia).
  rewrite app_nth1 by (rewrite map_length; lia). rewrite (nth_indep _ [] (join [sep] [])) by (rewrite map_length; lia). rewrite map_nth.
  assert (I : In (nth (i - h) tbl []) tbl) by (apply nth_In; lia). apply join_ne. unfold rows_of. apply filter_In. split; [exact I|].
  specialize (HB K2). destruct (nth (i - h) tbl []); [contradiction|reflexivity].
Qed.
Notation CC st := (cols P k pieces sep h st).
Lemma near st : holder P k pieces h = Some st -> enough P k pieces st -> Forall2 (nearly k) (concat (map (LR P k pieces h st) (seq 0 P))) (skipn h pieces).
Proof. intros A B. exact (LR_near P k pieces HP HK pieces_ne pieces_clean HW V fl h st no_blank A B). Qed.

Lemma count_near a b : nearly k a b -> length (filter (Nat.eqb sep) a) = length (filter (Nat.eqb sep) b).
Proof.
  intros [->|(_ & _ & ->)]; [reflexivity|]. rewrite filter_app, app_length. cbn [filter]. destruct (Nat.eqb_spec sep CR); [congruence|]. cbn. lia.
Qed.
Lemma count_piece b : In b (map (join [sep]) tbl) -> length (filter (Nat.eqb sep) b) = if nonempty b then c - 1 else 0.
Proof.
  intros I. apply in_map_iff in I as (row & <- & Hr). destruct row as [|f row]; [reflexivity|].
  assert (Hr' : In (f :: row) (rows_of tbl)) by (unfold rows_of; apply filter_In; split; [exact Hr|reflexivity]).
  destruct (row_facts _ Hr') as (v & _ & A & _ & _ & D). rewrite count_join by (intros g Hg; now apply D). rewrite A.
  assert (N := join_ne _ Hr'). destruct (join [sep] (f :: row)); [congruence|reflexivity].
Qed.
(** the columns counted on a rank with two line starts: those of a line that is not the last *)
Lemma two_starts st r a b t : holder P k pieces h = Some st -> enough P k pieces st -> r < P -> lsh P k pieces h st r = a :: b :: t ->
  exists l, In l (map (join [sep]) tbl) /\ count_columns sep (sub file (cstart fs r P) (clen fs r P)) (lsh P k pieces h st r) = 1 + length (filter (Nat.eqb sep) l).
Proof.
  intros A B Hr E. destruct (count_cols P k pieces HP HK pieces_ne pieces_clean HW V fl sep h st r a b t S1 S2 Hr E) as (l & rest & EL & NR & EC).
  assert (N := near st A B). assert (EP : seq 0 P = seq 0 r ++ r :: seq (S r) (P - S r)).
  { change (r :: seq (S r) (P - S r)) with (seq (0 + r) (S (P - S r))). rewrite seq_glue. f_equal. lia. }
  rewrite EP, map_app, concat_app in N. cbn [map concat] in N. rewrite EL in N. cbn [app] in N.
  apply Forall2_app_inv_l in N as (p1 & p2 & N1 & N2 & EP'). inversion N2 as [|x y ? q2 Hxy N3 Ex Ey]. subst.
  assert (Q : q2 <> []) by (destruct rest; [congruence|]; inversion N3; discriminate).
  exists y. split.
  - rewrite skip_heads in EP'. assert (I : In y (removelast (map (join [sep]) tbl ++ tailp))).
    { rewrite EP'. rewrite removelast_app by discriminate. apply in_or_app. right. destruct q2; [congruence|]. now left. }
    unfold tailp in I. destruct term; [now rewrite removelast_last in I|]. rewrite app_nil_r in I.
    rewrite (app_removelast_last [] (l := map (join [sep]) tbl)) by (intros E'; apply map_eq_nil in E'; now apply tbl_ne). apply in_or_app. now left.
  - change (count_columns sep (sub file (cstart fs r P) (clen fs r P)) (lsh P k pieces h st r) = 1 + length (filter (Nat.eqb sep) l)) in EC.
    rewrite EC. f_equal. now apply count_near.
Qed.
Lemma cols_le st : holder P k pieces h = Some st -> enough P k pieces st -> CC st <= c.
Proof.
  intros A B. unfold cols.
  assert (G : forall l, (forall x, In x l -> x <= c) -> fold_right Nat.max 0 l <= c).
  { induction l as [|x l IH]; intros Hl; cbn; [lia|]. specialize (Hl x ltac:(now left)) as Hx. specialize (IH ltac:(intros; apply Hl; now right)). lia. }
  apply G. intros x Hx. apply in_map_iff in Hx as (r & <- & Hr). apply in_seq in Hr.
  destruct (lsh P k pieces h st r) as [|a [|b t]] eqn:E; [cbn; lia|cbn; lia|].
  destruct (two_starts st r a b t A B ltac:(lia) E) as (l & Il & EC). rewrite <- E. change (count_columns sep (sub file (cstart fs r P) (clen fs r P)) (lsh P k pieces h st r) <= c). rewrite EC, count_piece by auto.
  assert (CP := c_pos). destruct (nonempty l); lia.
Qed.

Lemma rows_sound y : load_rows dv fl sep P h file = Ok y -> (2 <= c \/ nth 1 (d_gshape y) 0%Z <> 0%Z) ->
  d_gshape y = [Z.of_nat (length vals); Z.of_nat c] /\ d_split y = Some 0 /\ rep y (zcounts (Z.of_nat (length vals)) P) (table dv vals).
Proof.
  intros E HG. assert (E0 := E). destruct (load_rows_inv P k pieces HP HK pieces_clean HW V dv fl sep h y E) as (st & A & B). unfold file in E.
  rewrite (load_rows_good P k pieces HP HK pieces_clean HW V dv fl sep h st A B) in E.
  destruct (all_ok (map (fun r => local_rows fl sep (CC st) (LR P k pieces h st r)) (seq 0 P))) as [d|] eqn:ED; [|discriminate]. cbn [bind] in E.
  unfold local_rows in ED. apply all_ok_nested_inv in ED as [ED LD]. rewrite seq_length in LD. rewrite <- filter_concat in ED.
  rewrite (near_map _ _ _ (near st A B)) in ED by (intros a b H1 H2 H3; now rewrite (parse_near a b H1 H2 H3)). rewrite assign_all in ED.
  destruct (finish_rep V dv P (CC st) d HP LD) as (y' & EY & G1 & G2 & G3). rewrite EY in E. injection E as <-.
  assert (CL := cols_le st A B).
  assert (EC : CC st = c).
  { assert (EV : exists v w, In v vals /\ assign_row (CC st) v = Ok w).
    { clear - ED HV. destruct vals as [|v vs]; [congruence|]. exists v. cbn [map all_ok] in ED. destruct (assign_row (CC st) v) as [w|] eqn:EA; [|discriminate].
      exists w. split; [now left|reflexivity]. }
    destruct EV as (v & w & Iv & EA). assert (LV := vals_len v Iv).
    unfold assign_row in EA. rewrite LV in EA. destruct (Nat.eqb_spec c (CC st)) as [<-|N]; [reflexivity|].
    destruct v as [|x [|]]; try discriminate. cbn in LV.
    destruct HG as [HG|HG]; [lia|]. rewrite G1 in HG. cbn [nth] in HG. lia. }
  rewrite EC in *.
  assert (ED' : concat d = vals).
  { assert (W : all_ok (map (assign_row c) vals) = Ok vals).
    { replace (map (assign_row c) vals) with (map (@Ok (list V)) vals); [apply all_ok_Ok|]. apply map_ext_in. intros v Hv. unfold assign_row. now rewrite (vals_len v Hv), Nat.eqb_refl. }
    rewrite W in ED. now injection ED as ->. }
  unfold glob in *. rewrite ED' in *. auto.
Qed.

Lemma rows_complete st : holder P k pieces h = Some st -> enough P k pieces st -> CC st = c -> exists y, load_rows dv fl sep P h file = Ok y /\
  d_gshape y = [Z.of_nat (length vals); Z.of_nat c] /\ d_split y = Some 0 /\ rep y (zcounts (Z.of_nat (length vals)) P) (table dv vals).
Proof.
  intros A B EC. unfold file. rewrite (load_rows_good P k pieces HP HK pieces_clean HW V dv fl sep h st A B). rewrite EC. unfold local_rows.
  destruct (all_ok_nested (fun l => do v <- parse fl sep l; assign_row c v) (fun r => filter nonempty (LR P k pieces h st r)) (seq 0 P) vals) as (d & -> & CD & LD).
  - rewrite <- filter_concat. rewrite (near_map _ _ _ (near st A B)) by (intros a b H1 H2 H3; now rewrite (parse_near a b H1 H2 H3)). rewrite assign_all.
    replace (map (assign_row c) vals) with (map (@Ok (list V)) vals); [apply all_ok_Ok|]. apply map_ext_in. intros v Hv. unfold assign_row. now rewrite (vals_len v Hv), Nat.eqb_refl.
  - rewrite seq_length in LD. cbn [bind]. destruct (finish_rep V dv P c d HP LD) as (y & EY & G). exists y. split; [exact EY|]. unfold glob in G. now rewrite CD in G.
Qed.
End Table.
