(** Proofs for C47, part 1: writes that agree with a text, and rows as blocks of equal width. *)
From Coq Require Import Permutation.
From Verif Require Import Base BaseLemmas CsvSpec SaveSpec.
Open Scope nat_scope.

Lemma nth_repeat0 n p : nth p (repeat 0 n) 0 = 0.
Proof. revert p; induction n as [|n IH]; intros [|p]; cbn; auto. Qed.
Lemma write_length f w : snd w <> [] -> length (write f w) = Nat.max (length f) (fst w + length (snd w)).
Proof.
  destruct w as [o bs]. cbn [fst snd]. intros H. unfold write. cbn [fst snd]. destruct bs as [|b bs]; [congruence|].
  rewrite !app_length, firstn_length, app_length, repeat_length, skipn_length. lia.
Qed.
Lemma nth_firstn_lt {A} (l : list A) n p d : p < n -> nth p (firstn n l) d = nth p l d.
Proof. revert n p; induction l as [|x l IH]; intros [|n] [|p] H; cbn; auto; try lia. apply IH. lia. Qed.
Lemma nth_skipn_at {A} (l : list A) n p d : nth p (skipn n l) d = nth (n + p) l d.
Proof. revert n; induction l as [|x l IH]; intros [|n]; cbn; auto. destruct p; auto. Qed.
Lemma write_nth f w p : nth p (write f w) 0 =
  if (fst w <=? p) && (p <? fst w + length (snd w)) then nth (p - fst w) (snd w) 0 else nth p f 0.
Proof.
  destruct w as [o bs]. cbn [fst snd]. unfold write. cbn [fst snd].
  destruct bs as [|b bs]; [cbn [length]; destruct (Nat.leb_spec o p), (Nat.ltb_spec p (o + 0)); cbn; auto; lia|].
  set (B := b :: bs). assert (LB : length B = S (length bs)) by reflexivity. clearbody B.
  assert (LF : length (firstn o (f ++ repeat 0 (o - length f))) = o) by (rewrite firstn_length, app_length, repeat_length; lia).
  destruct (Nat.leb_spec o p) as [H1|H1]; cbn [andb].
  - rewrite app_nth2 by (rewrite LF; lia). rewrite LF. destruct (Nat.ltb_spec p (o + length B)) as [H2|H2].
    + now rewrite app_nth1 by lia.
    + rewrite app_nth2 by lia. rewrite nth_skipn_at. f_equal. lia.
  - rewrite app_nth1 by (rewrite LF; lia). rewrite nth_firstn_lt by lia.
    destruct (Nat.ltb_spec p (length f)) as [H2|H2]; [now rewrite app_nth1|].
    rewrite app_nth2 by lia. rewrite nth_repeat0. now rewrite nth_overflow by lia.
Qed.

Section Agree.
Variable E : list nat.
(** the write puts a piece of [E] where it belongs *)
Definition piece (w : nat * list nat) : Prop :=
  fst w + length (snd w) <= length E /\ forall k, k < length (snd w) -> nth (fst w + k) E 0 = nth k (snd w) 0.
Definition covers (w : nat * list nat) (p : nat) : Prop := fst w <= p < fst w + length (snd w).

Lemma piece_app pre bs post : E = pre ++ bs ++ post -> piece (length pre, bs).
Proof.
  intros HE. split; cbn [fst snd]; rewrite HE; [rewrite !app_length; lia|]. intros k Hk. rewrite app_nth2 by lia.
  replace (length pre + k - length pre) with k by lia. now rewrite app_nth1.
Qed.
Lemma writes_nth order : (forall w, In w order -> piece w) -> forall old p,
  ((exists w, In w order /\ covers w p) -> nth p (fold_left write order old) 0 = nth p E 0) /\
  ((forall w, In w order -> ~ covers w p) -> nth p (fold_left write order old) 0 = nth p old 0).
Proof.
  induction order as [|w order IH]; intros H old p; cbn [fold_left].
  - split; [intros (w & [] & _)|auto].
  - destruct (IH (fun x Hx => H x (or_intror Hx)) (write old w) p) as [I1 I2]. split.
    + intros (x & [<-|Hx] & C); [|apply I1; eauto].
      destruct (Exists_dec (fun x => covers x p) order) as [Y|N].
      { intros x. unfold covers. destruct (le_dec (fst x) p), (lt_dec p (fst x + length (snd x))); [left|right|right|right]; lia. }
      * apply I1. apply Exists_exists in Y as (x & ? & ?). eauto.
      * rewrite I2. { rewrite write_nth. unfold covers in C.
          destruct (Nat.leb_spec (fst w) p), (Nat.ltb_spec p (fst w + length (snd w))); try lia. cbn [andb].
          destruct (H w (or_introl eq_refl)) as [_ HP]. rewrite <- HP by lia. f_equal. lia. }
        intros x Hx Hc. apply N, Exists_exists. eauto.
    + intros N. rewrite I2 by (intros x Hx; apply N; now right). rewrite write_nth.
      specialize (N w (or_introl eq_refl)). unfold covers in N.
      destruct (Nat.leb_spec (fst w) p), (Nat.ltb_spec p (fst w + length (snd w))); cbn [andb]; auto; lia.
Qed.
Lemma writes_length order : (forall w, In w order -> piece w) -> forall old,
  length old <= length (fold_left write order old) <= Nat.max (length old) (length E) /\
  forall w, In w order -> snd w <> [] -> fst w + length (snd w) <= length (fold_left write order old).
Proof.
  induction order as [|w order IH]; intros H old; cbn [fold_left]; [split; [lia|intros w []]|].
  destruct (IH (fun x Hx => H x (or_intror Hx)) (write old w)) as [I1 I2].
  assert (L : snd w = [] /\ write old w = old \/ snd w <> [] /\ length (write old w) = Nat.max (length old) (fst w + length (snd w))).
  { destruct (snd w) eqn:Ew; [left; split; auto; unfold write; now rewrite Ew|right]. split; [discriminate|]. rewrite write_length by (rewrite Ew; discriminate). now rewrite Ew. }
  destruct (H w (or_introl eq_refl)) as [HW _]. split.
  - destruct L as [[_ L]|[_ L]]; [rewrite L in *|]; lia.
  - intros x [<-|Hx] NE; [|now apply I2]. destruct L as [[L _]|[_ L]]; [congruence|lia].
Qed.
Lemma writes_all order old : (forall w, In w order -> piece w) ->
  (forall p, p < length E -> exists w, In w order /\ covers w p) ->
  fold_left write order old = E ++ skipn (length E) old.
Proof.
  intros HP HC. destruct (writes_length order HP old) as [L1 L2].
  assert (L : length (fold_left write order old) = Nat.max (length old) (length E)).
  { destruct (length E) eqn:LE; [lia|]. destruct (HC n ltac:(lia)) as (w & Hw & C). unfold covers in C.
    specialize (L2 w Hw). assert (snd w <> []) by (intros X; rewrite X in C; cbn in C; lia). specialize (L2 H). lia. }
  apply (nth_ext _ _ 0 0); [rewrite app_length, skipn_length; lia|]. intros p Hp. destruct (writes_nth order HP old p) as [N1 N2].
  destruct (lt_dec p (length E)) as [Y|N].
  - rewrite N1 by auto. now rewrite app_nth1.
  - rewrite app_nth2 by lia. rewrite nth_skipn_at. replace (length E + (p - length E)) with p by lia. apply N2.
    intros w Hw C. destruct (HP w Hw) as [X _]. unfold covers in C. lia.
Qed.
Lemma outcome_all ws old f : (forall w, In w (concat ws) -> piece w) ->
  (forall p, p < length E -> exists w, In w (concat ws) /\ covers w p) ->
  outcome old ws f -> f = E ++ skipn (length E) old.
Proof.
  intros HP HC (order & PM & ->). apply writes_all.
  - intros w Hw. apply HP. eapply Permutation_in; [symmetry; exact PM|exact Hw].
  - intros p Hp. destruct (HC p Hp) as (w & Hw & C). exists w. split; auto. eapply Permutation_in; eauto.
Qed.
End Agree.

(** * blocks *)
Lemma file_of_true {A} (eol : list A) ls : file_of eol true ls = concat (map (fun l => l ++ eol) ls).
Proof.
  unfold file_of. induction ls as [|l ls IH]; [reflexivity|]. cbn [map concat]. rewrite <- IH. cbn [app join].
  destruct (ls ++ [[]]) eqn:X; [destruct ls; discriminate|]. now rewrite <- app_assoc.
Qed.
Lemma concat_len {A} (k : nat) (bs : list (list A)) : (forall b, In b bs -> length b = k) -> length (concat bs) = length bs * k.
Proof. induction bs as [|b bs IH]; intros H; [reflexivity|]. cbn [concat length]. rewrite app_length, IH by (intros; apply H; now right). rewrite (H b) by now left. lia. Qed.
(** [n] blocks from the [i]-th on *)
Lemma concat_blocks {A} (k : nat) (bs : list (list A)) i n : (forall b, In b bs -> length b = k) -> i + n <= length bs ->
  exists pre post, concat bs = pre ++ concat (sub bs i n) ++ post /\ length pre = i * k.
Proof.
  intros H L. exists (concat (firstn i bs)), (concat (skipn n (skipn i bs))). split.
  - unfold sub. rewrite <- !concat_app. f_equal. now rewrite firstn_skipn, firstn_skipn.
  - rewrite (concat_len k) by (intros b Hb; apply H; rewrite <- (firstn_skipn i bs); apply in_or_app; now left). rewrite firstn_length. f_equal. lia.
Qed.
(** a row is a sequence of cells: every item with its separator or line break *)
Lemma join_cells (sep e : nat) (items : list (list nat)) : items <> [] ->
  join [sep] items ++ [e] = concat (map (fun j => nth j items [] ++ [if j =? length items - 1 then e else sep]) (seq 0 (length items))).
Proof.
  induction items as [|x items IH]; [congruence|]. intros _. destruct items as [|y items]; [cbn; now rewrite app_nil_r|].
  change (join [sep] (x :: y :: items)) with (x ++ [sep] ++ join [sep] (y :: items)). rewrite <- !app_assoc. rewrite IH by discriminate.
  change (seq 0 (length (x :: y :: items))) with (0 :: seq 1 (length (y :: items))). rewrite <- seq_shift, map_cons, map_map. cbn [concat].
  replace (length (x :: y :: items) - 1) with (S (length items)) by (cbn [length]; lia). replace (length (y :: items) - 1) with (length items) by (cbn [length]; lia).
  cbn [Nat.eqb nth]. rewrite <- app_assoc. reflexivity.
Qed.
