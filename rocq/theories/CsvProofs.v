(** Proofs about load_csv: lines, positions and shares. *)
From Verif Require Import Base BaseLemmas LayoutModel LayoutProofs RedistModel NdSpec OpsModel CsvSpec CsvModel.
Open Scope nat_scope.

(** * separators *)
Lemma split_on_nil sep l : split_on sep l <> [].
Proof. destruct l as [|b l]; cbn; [discriminate|]. destruct (split_on sep l); [discriminate|]. destruct (b =? sep); discriminate. Qed.

Lemma split_on_field sep f rest : ~ In sep f ->
  split_on sep (f ++ sep :: rest) = f :: split_on sep rest.
Proof.
  induction f as [|b f IH]; intros H; cbn [app split_on].
  - destruct (split_on sep rest) eqn:E; [now apply split_on_nil in E|]. now rewrite Nat.eqb_refl.
  - rewrite IH by (intros ?; apply H; now right). destruct (Nat.eqb_spec b sep) as [->|]; [exfalso; apply H; now left|reflexivity].
Qed.
Lemma split_on_last sep f : ~ In sep f -> split_on sep f = [f].
Proof.
  induction f as [|b f IH]; intros H; cbn [split_on]; [reflexivity|].
  rewrite IH by (intros ?; apply H; now right). destruct (Nat.eqb_spec b sep) as [->|]; [exfalso; apply H; now left|reflexivity].
Qed.
(** fields, with something appended to the last one *)
Lemma split_on_join sep (fs : list (list nat)) (tail : list nat) : fs <> [] -> (forall f, In f fs -> ~ In sep f) -> ~ In sep tail ->
  split_on sep (join [sep] fs ++ tail) = removelast fs ++ [last fs [] ++ tail].
Proof.
  induction fs as [|f fs IH]; intros HN HF HT; [congruence|]. destruct fs as [|f' fs].
  - cbn [join removelast last app]. apply split_on_last. intros H. apply in_app_or in H as [H|H]; [|auto]. apply (HF f); [now left|auto].
  - change (join [sep] (f :: f' :: fs)) with (f ++ [sep] ++ join [sep] (f' :: fs)). rewrite <- !app_assoc. cbn [app].
    rewrite split_on_field by (apply HF; now left). rewrite IH; [reflexivity|discriminate| |auto]. intros; apply HF; now right.
Qed.
Lemma count_join sep (fs : list (list nat)) : (forall f, In f fs -> ~ In sep f) ->
  length (filter (Nat.eqb sep) (join [sep] fs)) = length fs - 1.
Proof.
  assert (Z : forall f, ~ In sep f -> filter (Nat.eqb sep) f = []).
  { intros f H. apply filter_nil_iff. intros x Hx. apply Nat.eqb_neq. intros ->. auto. }
  induction fs as [|f fs IH]; intros HF; [reflexivity|]. destruct fs as [|f' fs].
  - cbn [join length]. rewrite Z by (apply HF; now left). reflexivity.
  - change (join [sep] (f :: f' :: fs)) with (f ++ [sep] ++ join [sep] (f' :: fs)).
    rewrite !filter_app, !app_length, IH by (intros; apply HF; now right). rewrite Z by (apply HF; now left).
    cbn [filter app length]. rewrite Nat.eqb_refl. cbn [length]. lia.
Qed.

(** * positions of a byte *)
Fixpoint occ (e pos : nat) (l : list nat) : list nat :=
  match l with [] => [] | b :: t => if b =? e then pos :: occ e (S pos) t else occ e (S pos) t end.
Lemma occ_app e l1 l2 : forall pos, occ e pos (l1 ++ l2) = occ e pos l1 ++ occ e (pos + length l1) l2.
Proof.
  induction l1 as [|b l1 IH]; intros pos; cbn [occ app length]; [now rewrite Nat.add_0_r|].
  rewrite IH. replace (S pos + length l1) with (pos + S (length l1)) by lia. destruct (b =? e); reflexivity.
Qed.
Lemma occ_shift e l d : forall pos, occ e (pos + d) l = map (fun q => q + d) (occ e pos l).
Proof.
  induction l as [|b l IH]; intros pos; cbn [occ]; [reflexivity|]. change (S (pos + d)) with (S pos + d). rewrite IH.
  destruct (b =? e); reflexivity.
Qed.
Lemma occ_none e l pos : ~ In e l -> occ e pos l = [].
Proof.
  revert pos. induction l as [|b l IH]; intros pos H; cbn [occ]; [reflexivity|].
  destruct (Nat.eqb_spec b e) as [->|]; [exfalso; apply H; now left|]. apply IH. intros ?; apply H; now right.
Qed.
Lemma occ_in e l pos q : In q (occ e pos l) -> pos <= q < pos + length l /\ nth (q - pos) l 0 = e.
Proof.
  revert pos. induction l as [|b l IH]; intros pos; cbn [occ]; [contradiction|].
  assert (G : In q (occ e (S pos) l) -> pos <= q < pos + length (b :: l) /\ nth (q - pos) (b :: l) 0 = e).
  { intros H. apply IH in H as [H1 H2]. cbn [length]. split; [lia|]. replace (q - pos) with (S (q - S pos)) by lia. exact H2. }
  destruct (Nat.eqb_spec b e) as [->|]; [|exact G]. intros [->|H]; [|auto]. cbn [length]. split; [lia|]. now rewrite Nat.sub_diag.
Qed.
Lemma occ_flat e l : forall pos, occ e pos l = flat_map (fun p => if nth (p - pos) l 0 =? e then [p] else []) (seq pos (length l)).
Proof.
  induction l as [|b l IH]; intros pos; cbn [occ length seq flat_map]; [reflexivity|]. rewrite Nat.sub_diag. change (nth 0 (b :: l) 0) with b. rewrite IH.
  replace (flat_map (fun p => if nth (p - pos) (b :: l) 0 =? e then [p] else []) (seq (S pos) (length l)))
    with (flat_map (fun p => if nth (p - S pos) l 0 =? e then [p] else []) (seq (S pos) (length l))).
  - destruct (b =? e); reflexivity.
  - rewrite !flat_map_concat_map. f_equal. apply map_ext_in. intros p Hp. apply in_seq in Hp. replace (p - pos) with (S (p - S pos)) by lia. reflexivity.
Qed.

(** * line terminators: [k] = 1: \n, [k] = 2: \r\n *)
Definition eol (k : nat) : list nat := if k =? 1 then [LF] else [CR; LF].
Definition e0 (k : nat) : nat := if k =? 1 then LF else CR.
(** a share of bytes in which every terminator is whole *)
Definition whole (k : nat) (r : list nat) : Prop :=
  if k =? 1 then ~ In CR r
  else (forall p, p < length r -> nth p r 0 = CR -> p + 1 < length r /\ nth (p + 1) r 0 = LF) /\
       (forall p, p < length r -> nth p r 0 = LF -> exists q, p = q + 1 /\ nth q r 0 = CR).

Lemma flat_map_ext_in' {A B} (f g : A -> list B) l : (forall x, In x l -> f x = g x) -> flat_map f l = flat_map g l.
Proof. intros H. rewrite !flat_map_concat_map. f_equal. apply map_ext_in. exact H. Qed.
Lemma flat_map_map {A B C} (f : B -> C) (g : A -> list B) l : map f (flat_map g l) = flat_map (fun x => map f (g x)) l.
Proof. induction l; cbn; [reflexivity|]. now rewrite map_app, IHl. Qed.

Lemma line_starts_occ k r : k = 1 \/ k = 2 -> whole k r -> line_starts r = map (fun q => q + k) (occ (e0 k) 0 r).
Proof.
  intros HK HW. unfold line_starts. rewrite occ_flat, flat_map_map. apply flat_map_ext_in'. intros p Hp. apply in_seq in Hp. rewrite Nat.sub_0_r.
  unfold start_at. destruct HK as [-> | ->]; cbn in HW; cbn [e0 Nat.eqb].
  - assert (NC : nth p r 0 <> CR) by (intros E; apply HW; rewrite <- E; apply nth_In; lia).
    destruct (Nat.eqb_spec (nth p r 0) LF) as [E|N].
    + assert (PC : prev_byte r p <> CR).
      { unfold prev_byte. intros E'. apply HW. rewrite <- E'. destruct p; [|apply nth_In; lia].
        destruct r as [|b r]; [cbn in Hp; lia|]. rewrite (app_removelast_last 0 (l := b :: r)) at 2 by discriminate. apply in_or_app. right. now left. }
      apply Nat.eqb_neq in PC. now rewrite PC.
    + apply Nat.eqb_neq in NC. now rewrite NC.
  - destruct HW as [H1 H2]. destruct (Nat.eqb_spec (nth p r 0) LF) as [E|N].
    + destruct (H2 p ltac:(lia) E) as (q & -> & Q). replace (q + 1) with (S q) in * by lia. cbn [prev_byte]. rewrite Q, Nat.eqb_refl.
      rewrite E. reflexivity.
    + destruct (Nat.eqb_spec (nth p r 0) CR) as [E|]; [|reflexivity]. destruct (H1 p ltac:(lia) E) as [A B].
      unfold crlf_at. rewrite E, B, !Nat.eqb_refl. apply Nat.ltb_lt in A. rewrite A. reflexivity.
Qed.

Lemma lineter_k k r : k = 1 \/ k = 2 -> whole k r -> occ (e0 k) 0 r <> [] -> lineter_len r = k.
Proof.
  intros HK HW HN. unfold lineter_len. destruct HK as [-> | ->]; cbn in HW.
  - replace (existsb (crlf_at r) (seq 0 (length r))) with false; [reflexivity|]. symmetry. rewrite existsb_false_forall. intros p Hp. apply in_seq in Hp.
    unfold crlf_at. destruct (Nat.eqb_spec (nth p r 0) CR) as [E|]; [|reflexivity]. exfalso. apply HW. rewrite <- E. apply nth_In. lia.
  - destruct (occ (e0 2) 0 r) as [|q t] eqn:E; [congruence|]. assert (Q : In q (occ (e0 2) 0 r)) by (rewrite E; now left).
    apply occ_in in Q as [Q1 Q2]. rewrite Nat.sub_0_r in Q2. cbn in Q2. destruct HW as [H1 _]. destruct (H1 q ltac:(lia) Q2) as [A B].
    replace (existsb (crlf_at r) (seq 0 (length r))) with true; [reflexivity|]. symmetry. apply existsb_exists. exists q. split; [apply in_seq; lia|].
    unfold crlf_at. rewrite Q2, B. apply Nat.ltb_lt in A. now rewrite A.
Qed.
Lemma lineter_ge1 r : 1 <= lineter_len r.
Proof. unfold lineter_len. destruct existsb; lia. Qed.

(** * the pieces of a file *)
Definition clean (l : list nat) : Prop := ~ In LF l /\ ~ In CR l.
Lemma e0_clean k l : clean l -> ~ In (e0 k) l.
Proof. intros [A B]. unfold e0. now destruct (k =? 1). Qed.
Lemma eol_length k : k = 1 \/ k = 2 -> length (eol k) = k.
Proof. intros [-> | ->]; reflexivity. Qed.
Lemma eol_occ k pos : k = 1 \/ k = 2 -> occ (e0 k) pos (eol k) = [pos].
Proof. intros [-> | ->]; reflexivity. Qed.

Lemma join_cons {A} (glue p : list A) ps : ps <> [] -> join glue (p :: ps) = p ++ glue ++ join glue ps.
Proof. destruct ps; [congruence|reflexivity]. Qed.

Lemma begins_occ k pieces : k = 1 \/ k = 2 -> (forall p, In p pieces -> clean p) -> forall pos, pieces <> [] ->
  begins k pos (map (@length _) pieces) = pos :: map (fun q => q + k) (occ (e0 k) pos (join (eol k) pieces)).
Proof.
  intros HK. induction pieces as [|p ps IH]; intros HC pos HN; [congruence|]. destruct ps as [|p' ps].
  - cbn [map begins join]. rewrite occ_none by (apply e0_clean, HC; now left). reflexivity.
  - rewrite join_cons by discriminate. rewrite !occ_app, occ_none by (apply e0_clean, HC; now left). rewrite eol_occ by auto.
    change (begins k pos (map (@length _) (p :: p' :: ps))) with (pos :: begins k (pos + length p + k) (map (@length _) (p' :: ps))).
    rewrite IH; [|intros; apply HC; now right|discriminate]. rewrite eol_length by auto. reflexivity.
Qed.

(** cut the file at the given line starts; the last line ends at [e] *)
Fixpoint lu (file : list nat) (k e : nat) (l : list nat) : list (list nat) :=
  match l with
  | [] => []
  | g :: t => match t with [] => [sub file g (e - g)] | g' :: _ => sub file g (g' - k - g) :: lu file k e t end
  end.
Lemma lu_cons file k e g g' t : lu file k e (g :: g' :: t) = sub file g (g' - k - g) :: lu file k e (g' :: t).
Proof. reflexivity. Qed.
Lemma sub_mid {A} (a b c : list A) : sub (a ++ b ++ c) (length a) (length b) = b.
Proof. unfold sub. rewrite skipn_app, skipn_all, Nat.sub_diag. cbn [app skipn]. rewrite firstn_app, firstn_all, Nat.sub_diag. cbn. apply app_nil_r. Qed.

Lemma lu_pieces k pieces : k = 1 \/ k = 2 -> forall pre, pieces <> [] ->
  lu (pre ++ join (eol k) pieces) k (length (pre ++ join (eol k) pieces)) (begins k (length pre) (map (@length _) pieces)) = pieces.
Proof.
  intros HK. induction pieces as [|p ps IH]; intros pre HN; [congruence|]. destruct ps as [|p' ps].
  - cbn [map begins join lu]. f_equal. rewrite app_length. replace (length pre + length p - length pre) with (length p) by lia.
    rewrite <- (app_nil_r p) at 1. rewrite (sub_mid pre p []). reflexivity.
  - change (begins k (length pre) (map (@length _) (p :: p' :: ps))) with (length pre :: begins k (length pre + length p + k) (map (@length _) (p' :: ps))).
    assert (E : exists t, begins k (length pre + length p + k) (map (@length _) (p' :: ps)) = (length pre + length p + k) :: t) by (eexists; reflexivity).
    destruct E as [t E]. rewrite E, lu_cons, <- E.
    rewrite join_cons by discriminate. f_equal.
    + replace (length pre + length p + k - k - length pre) with (length p) by lia. apply sub_mid.
    + rewrite !app_assoc. replace (length pre + length p + k) with (length ((pre ++ p) ++ eol k)) by (rewrite !app_length, eol_length by auto; lia).
      apply IH. discriminate.
Qed.

(** consecutive line starts lie a terminator apart *)
Lemma begins_sorted k lens : forall pos i, S i < length (begins k pos lens) -> nth i (begins k pos lens) 0 + k <= nth (S i) (begins k pos lens) 0.
Proof.
  induction lens as [|n t IH]; intros pos i Hi; cbn [begins length] in Hi; [lia|]. cbn [begins].
  destruct i as [|i].
  - cbn [nth]. destruct t as [|n' t]; [cbn in Hi; lia|]. cbn [begins nth]. lia.
  - change (nth (S i) (pos :: begins k (pos + n + k) t) 0) with (nth i (begins k (pos + n + k) t) 0).
    change (nth (S (S i)) (pos :: begins k (pos + n + k) t) 0) with (nth (S i) (begins k (pos + n + k) t) 0). apply IH. lia.
Qed.
Lemma begins_step k lens : forall pos i, S i < length (begins k pos lens) -> nth (S i) (begins k pos lens) 0 = nth i (begins k pos lens) 0 + nth i lens 0 + k.
Proof.
  induction lens as [|n t IH]; intros pos i Hi; cbn [begins length] in Hi; [lia|]. cbn [begins].
  destruct i as [|i].
  - cbn [nth]. destruct t as [|n' t]; [cbn in Hi; lia|]. cbn [begins nth]. lia.
  - change (nth (S i) (pos :: begins k (pos + n + k) t) 0) with (nth i (begins k (pos + n + k) t) 0).
    change (nth (S (S i)) (pos :: begins k (pos + n + k) t) 0) with (nth (S i) (begins k (pos + n + k) t) 0). cbn [nth]. apply IH. lia.
Qed.
Lemma begins_length k lens : forall pos, length (begins k pos lens) = length lens.
Proof. induction lens; intros; cbn; [reflexivity|]. now rewrite IHlens. Qed.

Lemma lu_app file k e a : forall b, b <> [] -> lu file k e (a ++ b) = lu file k (hd 0 b - k) a ++ lu file k e b.
Proof.
  induction a as [|g a IH]; intros b HB; [reflexivity|]. destruct a as [|g' a].
  - destruct b as [|g' b]; [congruence|]. reflexivity.
  - change ((g :: g' :: a) ++ b) with (g :: g' :: (a ++ b)). rewrite !lu_cons. cbn [app]. f_equal. now apply (IH b).
Qed.

(** what a process reads for its lines: the last one may carry the \r of its terminator *)
Definition nearly (k : nat) (a b : list nat) : Prop := a = b \/ (k = 2 /\ b <> [] /\ a = b ++ [CR]).
Lemma lu_near file k g x : k = 1 \/ k = 2 -> (forall y, In y g -> y + k <= x /\ (k = 2 -> y + k < x)) -> x <= length file -> nth (x - k) file 0 = e0 k ->
  Forall2 (nearly k) (lu file k (x - 1) g) (lu file k (x - k) g).
Proof.
  intros HK HS HX HC. induction g as [|g0 g IH]; [constructor|]. destruct g as [|g1 g].
  - cbn [lu]. constructor; [|constructor]. specialize (HS g0 ltac:(now left)). unfold nearly. destruct HK as [-> | ->]; [now left|]. right. split; [reflexivity|]. destruct HS as [_ HS]. specialize (HS eq_refl).
    split; [intros E; apply (f_equal (@length _)) in E; rewrite sub_length in E by lia; cbn in E; lia|].
    replace (x - 1 - g0) with ((x - 2 - g0) + 1) by lia. rewrite <- sub_app_sub. f_equal. replace (g0 + (x - 2 - g0)) with (x - 2) by lia.
    apply (@nth_ext2 _ _ _ 0); [rewrite sub_length by lia; reflexivity|]. intros i Hi. rewrite sub_length in Hi by lia. assert (i = 0) by lia. subst i.
    rewrite sub_nth by lia. rewrite Nat.add_0_r, HC. reflexivity.
  - rewrite !lu_cons. constructor; [now left|]. apply IH. intros y Hy. apply HS. now right.
Qed.

(** lines read by consecutive processes with starts [gs]; [ends]: where each stops *)
Fixpoint chain (fs : nat) (gs : list (list nat)) : list nat :=
  match gs with
  | [] => []
  | _ :: t => match t with [] => [fs] | g' :: _ => (hd 0 g' - 1) :: chain fs t end
  end.
Lemma Forall2_refl_near k l : Forall2 (nearly k) l l.
Proof. induction l; constructor; [now left|auto]. Qed.

Lemma hd_concat (gs : list (list nat)) : (forall g, In g gs -> g <> []) -> gs <> [] -> hd 0 (concat gs) = hd 0 (hd [] gs) /\ concat gs <> [].
Proof. intros H HN. destruct gs as [|g gs]; [congruence|]. specialize (H g ltac:(now left)). destruct g; [congruence|]. cbn. split; [reflexivity|discriminate]. Qed.

Lemma chain_lines file k gs : k = 1 \/ k = 2 -> (forall g, In g gs -> g <> []) ->
  (forall i, S i < length (concat gs) -> nth i (concat gs) 0 + k <= nth (S i) (concat gs) 0 /\ (k = 2 -> nth i (concat gs) 0 + k < nth (S i) (concat gs) 0)) ->
  (forall i, S i < length (concat gs) -> let x := nth (S i) (concat gs) 0 in x <= length file /\ nth (x - k) file 0 = e0 k) ->
  Forall2 (nearly k) (concat (map (fun p => lu file k (snd p) (fst p)) (combine gs (chain (length file) gs)))) (lu file k (length file) (concat gs)).
Proof.
  intros HK. induction gs as [|g gs IH]; intros HN HS HC; [constructor|]. destruct gs as [|g' gs].
  - cbn [chain combine map concat fst snd]. rewrite app_nil_r. cbn [app]. rewrite app_nil_r. apply Forall2_refl_near.
  - change (chain (length file) (g :: g' :: gs)) with ((hd 0 g' - 1) :: chain (length file) (g' :: gs)).
    cbn [combine map]. cbn [fst snd]. change (concat (g :: g' :: gs)) with (g ++ concat (g' :: gs)) in *.
    destruct (hd_concat (g' :: gs)) as [HH HNN]; [intros; apply HN; now right|discriminate|]. cbn [hd] in HH.
    set (rest := concat (g' :: gs)) in *. rewrite lu_app by exact HNN. cbn [concat]. apply Forall2_app.
    + rewrite <- HH. assert (GN : g <> []) by (apply HN; now left). assert (LG : 0 < length g) by (destruct g; [congruence|cbn; lia]).
      assert (LR : 0 < length rest) by (destruct rest; [congruence|cbn; lia]).
      assert (E : nth (length g) (g ++ rest) 0 = hd 0 rest) by (rewrite app_nth2, Nat.sub_diag by lia; destruct rest; reflexivity).
      assert (LL : length (g ++ rest) = length g + length rest) by apply app_length.
      destruct (HC (length g - 1)) as [C1 C2]; [lia|]. replace (S (length g - 1)) with (length g) in * by lia. rewrite E in *.
      apply lu_near; auto.
      (* all members of g precede the next start *)
      intros y Hy. apply (In_nth _ _ 0) in Hy as (i & Hi & <-).
      assert (M : forall j, i + j < length g -> nth i g 0 <= nth (i + j) g 0).
      { induction j as [|j IHj]; intros Hj; [rewrite Nat.add_0_r; lia|]. specialize (HS (i + j)). rewrite !app_nth1 in HS by lia.
        replace (S (i + j)) with (i + S j) in HS by lia. specialize (IHj ltac:(lia)). rewrite LL in HS. destruct (HS ltac:(lia)) as [HS' _]. lia. }
      specialize (M (length g - 1 - i) ltac:(lia)). replace (i + (length g - 1 - i)) with (length g - 1) in M by lia.
      specialize (HS (length g - 1) ltac:(lia)). rewrite app_nth1 in HS by lia. replace (S (length g - 1)) with (length g) in HS by lia. rewrite E in HS. destruct HS as [HS1 HS2]. split; [lia|]. intros K2. specialize (HS2 K2). lia.
    + apply IH; [intros; apply HN; now right| |].
      * intros i Hi. specialize (HS (length g + i)). rewrite app_length in HS. rewrite !app_nth2 in HS by lia.
        replace (length g + i - length g) with i in HS by lia. replace (S (length g + i) - length g) with (S i) in HS by lia. apply HS. lia.
      * intros i Hi. specialize (HC (length g + i)). rewrite app_length in HC. rewrite !app_nth2 in HC by lia.
        replace (S (length g + i) - length g) with (S i) in HC by lia. apply HC. lia.
Qed.
