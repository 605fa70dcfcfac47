From Verif Require Import Base BaseLemmas LayoutModel LayoutProofs RedistModel RedistProofs ConcatModel.
Open Scope nat_scope.

(** greedy filling of the capacities [c] from the front with [T] slabs *)
Definition fill (c : list nat) (T j : nat) : nat := Nat.min (nth j c 0) (T - psum c j).

Section Front.
Variables (c l0 : list nat).
Let P := length c.
Hypothesis L0 : length l0 = P.
Hypothesis LE : forall j, j < P -> nth j l0 0 <= nth j c 0.

Lemma psum_l0_c k : psum l0 k <= psum c k.
Proof. apply (psum_ext_le c); [auto|]. intros j Hj. destruct (Nat.lt_ge_cases j P) as [H|H]; [auto|]. rewrite !nth_overflow by lia. lia. Qed.

(** T: slabs already placed on ranks below spr *)
Definition inner_inv (spr pr : nat) (b : list nat * list xfer) (T : nat) : Prop :=
  let '(l, tr) := b in
  length l = P /\ trace_ok l0 tr l /\
  psum l0 spr <= T <= psum c spr /\
  (forall j, j < spr -> nth j l 0 = fill c T j) /\
  nth spr l 0 + T = psum l0 (S spr) /\
  (forall j, spr < j -> nth j l 0 = nth j l0 0) /\
  (psum c pr <= T \/ nth spr l 0 = 0).

Lemma inner_step_ok spr pr b T : pr < spr < P -> inner_inv spr pr b T -> exists T', inner_inv spr (S pr) (pair_step c spr b pr) T'.
Proof.
  intros Hp. destruct b as [l tr]. intros (HL & HT & HB & HF & HS & HO & HC). unfold pair_step.
  assert (Hpr : nth pr l 0 = fill c T pr) by (apply HF; lia).
  assert (PS := psum_S c (k:=pr) ltac:(fold P; lia)).
  assert (PM : psum c (S pr) <= psum c spr) by (apply psum_mono; lia).
  set (want := absdiff (nth pr c 0) (nth pr l 0)).
  assert (EW : want = nth pr c 0 - nth pr l 0) by (unfold want, absdiff; rewrite Hpr; unfold fill; lia).
  set (snt := if want <? nth spr l 0 then want else nth spr l 0).
  assert (ES : snt = Nat.min want (nth spr l 0)) by (unfold snt; destruct (Nat.ltb_spec want (nth spr l 0)); lia).
  clearbody snt want.
  destruct (Nat.eqb_spec snt 0) as [E0|E0].
  - rewrite E0. exists T. cbn [inner_inv].
    assert (EL : upd (upd l pr (nth pr l 0 + 0)) spr (nth spr (upd l pr (nth pr l 0 + 0)) 0 - 0) = l).
    { rewrite Nat.add_0_r, Nat.sub_0_r. apply (@nth_ext2 _ _ _ 0); [now rewrite !upd_length|]. intros i _. rewrite !upd_nth, upd_length.
      destruct (Nat.eqb_spec i spr) as [->|]; cbn [andb].
      - destruct (Nat.ltb_spec spr (length l)); destruct (Nat.eqb_spec spr pr); cbn [andb]; lia.
      - destruct (Nat.eqb_spec i pr) as [->|]; cbn [andb]; auto. destruct (pr <? length l); auto. }
    rewrite EL. split; [auto|]. split; [auto|]. split; [auto|]. split; [auto|]. split; [auto|]. split; [auto|]. destruct HC as [HC|HC]; [|auto]. destruct (Nat.eq_dec (nth spr l 0) 0) as [|N]; [auto|]. left.
    assert (want = 0) by lia. rewrite Hpr in EW. unfold fill in EW. lia.
  - destruct HC as [HC|HC]; [|lia]. exists (T + snt). cbn [inner_inv].
    assert (EL : upd (upd l pr (nth pr l 0 + snt)) spr (nth spr (upd l pr (nth pr l 0 + snt)) 0 - snt) = xfer_map l (Xfer spr pr snt)).
    { unfold xfer_map. cbn. rewrite (upd_other l) by lia. reflexivity. }
    rewrite EL. assert (XN : forall j, nth j (xfer_map l (Xfer spr pr snt)) 0 = if Nat.eqb j spr then nth spr l 0 - snt else if Nat.eqb j pr then nth pr l 0 + snt else nth j l 0).
    { intros j. unfold xfer_map. cbn [x_snd x_rcv x_amt]. rewrite !upd_nth, upd_length. destruct (Nat.eqb_spec j spr) as [->|]; cbn [andb].
      - destruct (Nat.ltb_spec spr (length l)); [auto|lia].
      - destruct (Nat.eqb_spec j pr) as [->|]; cbn [andb]; auto. destruct (Nat.ltb_spec pr (length l)); [auto|lia]. }
    assert (Hpr' : nth pr l 0 = T - psum c pr /\ T < psum c (S pr)) by (rewrite Hpr in *; unfold fill in *; lia).
    split; [now rewrite xfer_map_length|]. split.
    { constructor; [auto|]. unfold xfer_ok. cbn [x_snd x_rcv x_amt]. repeat split; try lia. intros j Hj. rewrite HF by lia. unfold fill.
      assert (psum c (S pr) <= psum c j) by (apply psum_mono; lia). lia. }
    split; [lia|]. split; [|split; [|split]].
    + intros j Hj. rewrite XN. destruct (Nat.eqb_spec j spr); [lia|]. unfold fill. destruct (Nat.eqb_spec j pr) as [->|N].
      * lia.
      * rewrite HF by lia. unfold fill. destruct (Nat.lt_ge_cases j pr).
        -- assert (psum c (S j) <= psum c pr) by (apply psum_mono; lia). rewrite psum_S in * by (fold P; lia). lia.
        -- assert (psum c (S pr) <= psum c j) by (apply psum_mono; lia). lia.
    + rewrite XN, Nat.eqb_refl. lia.
    + intros j Hj. rewrite XN. destruct (Nat.eqb_spec j spr); [lia|]. destruct (Nat.eqb_spec j pr); [lia|]. auto.
    + rewrite XN, Nat.eqb_refl. lia.
Qed.
Lemma inner_loop_ok spr n : forall pr b T, pr + n <= spr -> spr < P -> inner_inv spr pr b T ->
  exists T', inner_inv spr (pr + n) (fold_left (pair_step c spr) (seq pr n) b) T'.
Proof.
  induction n as [|n IH]; intros pr b T H1 H2 H; cbn [seq fold_left].
  - exists T. now rewrite Nat.add_0_r.
  - destruct (inner_step_ok spr pr b T ltac:(lia) H) as (T1 & H'). destruct (IH (S pr) _ T1 ltac:(lia) H2 H') as (T' & E). exists T'. now replace (pr + S n) with (S pr + n) by lia.
Qed.
(** ranks below [spr] have been filled with everything they held *)
Definition outer_inv (spr : nat) (b : list nat * list xfer) : Prop :=
  let '(l, tr) := b in
  length l = P /\ trace_ok l0 tr l /\
  (forall j, j < spr -> nth j l 0 = fill c (psum l0 spr) j) /\
  (forall j, spr <= j -> nth j l 0 = nth j l0 0).
Lemma outer_step_ok spr b : spr < P -> outer_inv spr b -> outer_inv (S spr) (fold_left (pair_step c spr) (seq 0 spr) b).
Proof.
  intros Hs. destruct b as [l tr]. intros (HL & HT & HF & HO).
  assert (HB := psum_l0_c spr). assert (HS := psum_S l0 (k:=spr) ltac:(lia)). assert (HC := psum_S c (k:=spr) ltac:(fold P; lia)). assert (HB1 := LE spr Hs).
  destruct (inner_loop_ok spr spr 0 (l, tr) (psum l0 spr) ltac:(lia) Hs) as (T & H).
  { cbn [inner_inv]. split; [auto|]. split; [auto|]. split; [auto|]. split; [auto|]. split; [rewrite HO by lia; lia|]. split; [intros j Hj; apply HO; lia|]. left. rewrite psum_0. lia. }
  cbn [Nat.add] in H. destruct (fold_left _ _ _) as [l' tr']. destruct H as (HL' & HT' & HB'' & HF' & HS' & HO' & HC'). unfold outer_inv.
  split; [auto|]. split; [auto|]. split; [|intros j Hj; apply HO'; lia].
  intros j Hj. destruct (Nat.eq_dec j spr) as [->|N].
  - unfold fill. destruct HC' as [HC'|HC']; lia.
  - rewrite HF' by lia. destruct HC' as [HC'|HC']; [|f_equal; lia]. unfold fill.
    assert (psum c (S j) <= psum c spr) by (apply psum_mono; lia). rewrite psum_S in * by (fold P; lia). lia.
Qed.
Lemma front_load_ok : let '(l, tr) := front_load c l0 in
  trace_ok l0 tr l /\ length l = P /\ forall j, j < P -> nth j l 0 = fill c (list_sum l0) j.
Proof.
  destruct (Nat.eq_dec P 0) as [Z|NZ].
  { unfold front_load. replace (length c - 1) with 0 by (fold P; lia). cbn. split; [constructor|]. split; [auto|lia]. }
  assert (H : forall n spr b, spr + n <= P -> outer_inv spr b -> outer_inv (spr + n) (fold_left (fun b spr => fold_left (pair_step c spr) (seq 0 spr) b) (seq spr n) b)).
  { induction n as [|n IH]; intros spr b H1 H2; cbn [seq fold_left]; [now rewrite Nat.add_0_r|]. replace (spr + S n) with (S spr + n) by lia. apply IH; [lia|]. apply outer_step_ok; auto; lia. }
  specialize (H (P - 1) 1 (l0, []) ltac:(lia)). unfold front_load. fold P.
  destruct (fold_left _ _ _) as [l tr]. replace (1 + (P - 1)) with P in H by lia.
  destruct H as (H1 & H2 & H3 & H4).
  - cbn. split; [auto|]. split; [constructor|]. split; [|auto]. intros j Hj. assert (j = 0) by lia. subst j. unfold fill. rewrite psum_0.
    rewrite psum_S by lia. rewrite psum_0. specialize (LE 0 ltac:(lia)). lia.
  - split; [auto|]. split; [auto|]. intros j Hj. rewrite H3 by auto. now rewrite psum_all by lia.
Qed.
End Front.

(** * back loading is front loading seen from the other end *)
Definition mirror (P : nat) (x : xfer) : xfer := Xfer (P - 1 - x_snd x) (P - 1 - x_rcv x) (x_amt x).
Definition mir (P : nat) (b : list nat * list xfer) : list nat * list xfer := (rev (fst b), map (mirror P) (snd b)).

Lemma rev_upd {A} (l : list A) k v : k < length l -> rev (upd l k v) = upd (rev l) (length l - 1 - k) v.
Proof.
  intros H. destruct l as [|a0 l0]; [cbn in H; lia|]. set (l := a0 :: l0) in *.
  apply (@nth_ext2 _ _ _ a0); [now rewrite rev_length, !upd_length, rev_length|]. intros i Hi. rewrite rev_length, upd_length in Hi.
  rewrite rev_nth by (rewrite upd_length; auto). rewrite upd_length. rewrite !upd_nth, rev_length.
  destruct (Nat.eqb_spec (length l - S i) k), (Nat.eqb_spec i (length l - 1 - k)); try lia; cbn [andb].
  - destruct (Nat.ltb_spec k (length l)), (Nat.ltb_spec (length l - 1 - k) (length l)); auto; lia.
  - now rewrite rev_nth.
Qed.
Lemma pair_mirror c spr pr b P : P = length c -> length (fst b) = P -> spr < P -> pr < P ->
  pair_step c (P - 1 - spr) (mir P b) (P - 1 - pr) = mir P (pair_step (rev c) spr b pr).
Proof.
  intros -> HL Hs Hp. destruct b as [l tr]. cbn [fst] in HL. unfold pair_step, mir. cbn [fst snd].
  assert (N : forall (m : list nat) k, length m = length c -> k < length c -> nth (length c - 1 - k) (rev m) 0 = nth k m 0).
  { intros m k Hm Hk. rewrite rev_nth by lia. f_equal. lia. }
  assert (NC : forall k, k < length c -> nth k (rev c) 0 = nth (length c - 1 - k) c 0).
  { intros k Hk. rewrite rev_nth by lia. f_equal. lia. }
  rewrite !N, NC by auto. set (want := absdiff _ _). set (snt := if want <? nth spr l 0 then want else nth spr l 0).
  f_equal.
  - rewrite rev_upd by (rewrite upd_length; lia). rewrite upd_length, rev_upd by lia. rewrite HL. f_equal. f_equal.
    rewrite !upd_nth, rev_length, HL. rewrite N by auto.
    destruct (Nat.eqb_spec spr pr), (Nat.eqb_spec (length c - 1 - spr) (length c - 1 - pr)); try lia; cbn [andb]; auto.
    destruct (Nat.ltb_spec pr (length c)), (Nat.ltb_spec (length c - 1 - pr) (length c)); auto; lia.
  - destruct (snt =? 0); [auto|]. rewrite map_app. reflexivity.
Qed.
Lemma pair_step_length c spr b pr : length (fst (pair_step c spr b pr)) = length (fst b).
Proof. destruct b as [l tr]. cbn. now rewrite !upd_length. Qed.
Lemma rev_seq n : forall a, rev (seq a n) = map (fun k => a + (n - 1 - k)) (seq 0 n).
Proof.
  induction n as [|n IH]; intros a; [reflexivity|]. rewrite seq_S, rev_app_distr. cbn [rev app seq map]. f_equal; [lia|].
  rewrite IH, <- seq_shift, map_map. apply map_ext_in. intros k Hk. apply in_seq in Hk. lia.
Qed.
Lemma back_front c l : length l = length c -> back_load c l = mir (length c) (front_load (rev c) (rev l)).
Proof.
  intros HL. set (P := length c). destruct (Nat.eq_dec P 0) as [Z|NZ].
  { unfold P in Z. destruct c; [|discriminate]. destruct l; [|discriminate]. reflexivity. }
  unfold back_load. fold P.
  assert (IN : forall spr b, spr < P -> length (fst b) = P ->
    fold_left (pair_step c (P - 1 - spr)) (rev (seq (S (P - 1 - spr)) (P - S (P - 1 - spr)))) (mir P b) = mir P (fold_left (pair_step (rev c) spr) (seq 0 spr) b)
    /\ length (fst (fold_left (pair_step (rev c) spr) (seq 0 spr) b)) = P).
  { intros spr b Hs Hb. rewrite rev_seq. replace (P - S (P - 1 - spr)) with spr by lia.
    assert (G : forall n pr b, pr + n <= spr -> length (fst b) = P ->
      fold_left (pair_step c (P - 1 - spr)) (map (fun k => S (P - 1 - spr) + (spr - 1 - k)) (seq pr n)) (mir P b) = mir P (fold_left (pair_step (rev c) spr) (seq pr n) b)
      /\ length (fst (fold_left (pair_step (rev c) spr) (seq pr n) b)) = P).
    { induction n as [|n IH]; intros pr b' Hn Hb'; cbn [seq map fold_left]; [auto|].
      replace (S (P - 1 - spr) + (spr - 1 - pr)) with (P - 1 - pr) by lia. rewrite pair_mirror by (auto; unfold P; lia). apply IH; [lia|]. now rewrite pair_step_length. }
    apply G; auto. }
  rewrite rev_seq. cbn [Nat.add].
  assert (G : forall n spr b, spr + n <= P -> length (fst b) = P ->
    fold_left (fun b spr => fold_left (pair_step c spr) (rev (seq (S spr) (P - S spr))) b) (map (fun k => P - 1 - k) (seq spr n)) (mir P b) =
    mir P (fold_left (fun b spr => fold_left (pair_step (rev c) spr) (seq 0 spr) b) (seq spr n) b)).
  { induction n as [|n IH]; intros spr b Hn Hb; cbn [seq map fold_left]; [auto|]. destruct (IN spr b ltac:(lia) Hb) as [E1 E2]. rewrite E1. apply IH; [lia|auto]. }
  specialize (G P 0 (rev l, []) ltac:(lia)). cbn [fst] in G. rewrite rev_length in G. specialize (G HL).
  unfold mir at 1 in G. cbn [fst snd map] in G. rewrite rev_involutive in G. rewrite G.
  unfold front_load. rewrite rev_length. fold P. destruct P as [|P']; [lia|]. cbn [seq fold_left]. now rewrite Nat.sub_succ, Nat.sub_0_r.
Qed.

Lemma xfer_ok_mirror l x : xfer_ok l x -> xfer_ok (rev l) (mirror (length l) x) /\ xfer_map (rev l) (mirror (length l) x) = rev (xfer_map l x).
Proof.
  intros (H1 & H2 & H3 & H4 & H5).
  assert (N : forall k, k < length l -> nth (length l - 1 - k) (rev l) 0 = nth k l 0) by (intros k Hk; rewrite rev_nth by lia; f_equal; lia).
  split.
  - unfold xfer_ok, mirror. cbn [x_snd x_rcv x_amt]. rewrite rev_length. repeat split; try lia; [rewrite N by auto; lia|].
    intros j Hj. rewrite rev_nth by lia. apply H5. lia.
  - unfold xfer_map, mirror. cbn [x_snd x_rcv x_amt]. rewrite !N by auto. rewrite rev_upd by (rewrite upd_length; auto). rewrite upd_length, rev_upd by auto. reflexivity.
Qed.
Lemma trace_ok_mirror l tr l' : trace_ok l tr l' -> trace_ok (rev l) (map (mirror (length l)) tr) (rev l').
Proof.
  induction 1 as [|l tr l' x HT IH HX]; [constructor|]. rewrite map_app. cbn [map]. rewrite <- (trace_ok_length HT) in *.
  destruct (xfer_ok_mirror _ _ HX) as [A1 A2]. rewrite <- A2. constructor; auto.
Qed.

Lemma list_sum_rev m : list_sum (rev m) = list_sum m.
Proof. induction m as [|a m IHm]; [auto|cbn [rev]; rewrite list_sum_app, !list_sum_cons, list_sum_nil, IHm; lia]. Qed.
Lemma psum_rev c k : k <= length c -> psum (rev c) k = list_sum c - psum c (length c - k).
Proof.
  intros H. unfold psum. rewrite firstn_rev, list_sum_rev.
  assert (E : list_sum c = list_sum (firstn (length c - k) c) + list_sum (skipn (length c - k) c)) by (rewrite <- list_sum_app; now rewrite firstn_skipn). lia.
Qed.
Lemma back_load_ok c l0 : length l0 = length c -> (forall j, j < length c -> nth j l0 0 <= nth j c 0) ->
  let '(l, tr) := back_load c l0 in
  trace_ok l0 tr l /\ length l = length c /\ forall j, j < length c -> nth j l 0 = Nat.min (nth j c 0) (list_sum l0 - (list_sum c - psum c (S j))).
Proof.
  intros HL LE. rewrite back_front by auto.
  pose proof (front_load_ok (rev c) (rev l0)) as F. rewrite !rev_length in F. specialize (F HL).
  destruct (front_load (rev c) (rev l0)) as [l tr]. destruct F as (F1 & F2 & F3).
  { intros j Hj. rewrite !rev_nth by lia. rewrite HL. apply LE. lia. }
  unfold mir. cbn [fst snd]. split; [|split].
  - apply trace_ok_mirror in F1. rewrite rev_involutive, rev_length, HL in F1. exact F1.
  - now rewrite rev_length.
  - intros j Hj. rewrite rev_nth by lia. rewrite F2, F3 by lia. unfold fill. rewrite rev_nth by lia. rewrite list_sum_rev, psum_rev by lia.
    f_equal; [f_equal; lia|]. do 3 f_equal. lia.
Qed.

(** * the slabs of the two arrays, glued rank by rank *)
Lemma glue_glob {A} (f g : dist A) k : length f = length g ->
  (forall j, k < j -> nth j f [] = []) -> (forall j, j < k -> nth j g [] = []) ->
  glob (map (fun p => fst p ++ snd p) (combine f g)) = glob f ++ glob g.
Proof.
  unfold glob. revert g k. induction f as [|a f IH]; intros [|b g] k HL Hf Hg; try discriminate; [reflexivity|].
  cbn [combine map concat fst snd]. destruct k as [|k].
  - assert (Ef : concat f = []) by (apply concat_nils; intros j _; apply (Hf (S j)); lia).
    assert (E : map (fun p => fst p ++ snd p) (combine f g) = g).
    { assert (Z : forall j, nth j f [] = []) by (intros j; apply (Hf (S j)); lia). cbn in HL. injection HL as HL. clear -Z HL. revert g HL. induction f as [|x f IH]; intros [|y g] HL; try discriminate; [reflexivity|].
      cbn. assert (x = []) by apply (Z 0). subst x. cbn. f_equal. apply IH; [intros j; apply (Z (S j))|cbn in HL; lia]. }
    rewrite E, Ef, app_nil_r, app_assoc. reflexivity.
  - assert (b = []) by (apply (Hg 0); lia). subst b. rewrite app_nil_r, <- app_assoc. cbn [app]. f_equal. apply IH with k; [cbn in HL; lia| |]; intros j Hj; [apply (Hf (S j))|apply (Hg (S j))]; lia.
Qed.
Lemma nth_glue {A} (f g : dist A) j : length f = length g -> nth j (map (fun p => fst p ++ snd p) (combine f g)) [] = nth j f [] ++ nth j g [].
Proof.
  revert g j. induction f as [|a f IH]; intros [|b g] j HL; try discriminate; [destruct j; reflexivity|]. destruct j as [|j]; [reflexivity|]. cbn. apply IH. cbn in HL. lia.
Qed.

(** the rank on which the two arrays meet *)
Lemma straddle c T : T <= list_sum c -> exists k, (forall j, k < j -> T <= psum c j) /\ (forall j, j < k -> psum c (S j) <= T).
Proof.
  induction c as [|a c IH] using rev_ind; intros H.
  - exists 0. split; [intros; unfold psum; rewrite firstn_nil; unfold list_sum in *; cbn in *; lia|lia].
  - rewrite list_sum_app, list_sum_cons, list_sum_nil in H. destruct (Nat.le_gt_cases T (list_sum c)) as [L|L].
    + destruct (IH L) as (k & K1 & K2). exists (Nat.min k (length c)). split.
      * intros j Hj. destruct (Nat.le_gt_cases j (length c)) as [J|J].
        -- rewrite psum_app by auto. apply K1. lia.
        -- rewrite psum_all by (rewrite app_length; cbn; lia). rewrite list_sum_app. lia.
      * intros j Hj. rewrite psum_app by lia. apply K2. lia.
    + exists (length c). split.
      * intros j Hj. rewrite psum_all by (rewrite app_length; cbn; lia). rewrite list_sum_app, list_sum_cons, list_sum_nil. lia.
      * intros j Hj. rewrite psum_app by lia. pose proof (psum_le_sum c (S j)). lia.
Qed.

Lemma clen_add n m r P : 0 < P -> clen n r P <= clen (n + m) r P.
Proof.
  intros HP.  rewrite !clen_val. destruct P as [|P]; [lia|].
  pose proof (Nat.div_mod_eq n (S P)). pose proof (Nat.div_mod_eq (n + m) (S P)).
  assert (Q : n / S P <= (n + m) / S P) by (apply Nat.div_le_mono; lia).
  destruct (Nat.eq_dec (n / S P) ((n + m) / S P)) as [E|E].
  - assert (n mod S P <= (n + m) mod S P) by nia. destruct (Nat.ltb_spec r (n mod S P)), (Nat.ltb_spec r ((n + m) mod S P)); lia.
  - destruct (Nat.ltb_spec r (n mod S P)), (Nat.ltb_spec r ((n + m) mod S P)); lia.
Qed.

Lemma concat_slabs_parts {A} (d0 d1 : dist A) :
  length d0 = length d1 -> 0 < length d0 ->
  let c := counts_of (length (glob d0) + length (glob d1)) (length d0) in
  (forall j, j < length d0 -> length (nth j d0 []) <= nth j c 0) ->
  (forall j, j < length d0 -> length (nth j d1 []) <= nth j c 0) ->
  let f := run_trace d0 (snd (front_load c (lens d0))) in
  let g := run_trace d1 (snd (back_load c (lens d1))) in
  length f = length d0 /\ length g = length d0 /\ glob f = glob d0 /\ glob g = glob d1 /\
  lens f = fst (front_load c (lens d0)) /\ lens g = fst (back_load c (lens d1)) /\
  (forall j, j < length d0 -> length (nth j f []) + length (nth j g []) = nth j c 0) /\
  glob (map (fun p => fst p ++ snd p) (combine f g)) = glob d0 ++ glob d1.
Proof.
  intros HL HP c H0 H1 f g. set (P := length d0) in *.
  assert (LC : length c = P) by apply counts_of_length. assert (SC : list_sum c = length (glob d0) + length (glob d1)) by (apply counts_of_sum; auto).
  pose proof (front_load_ok c (lens d0)) as F. rewrite lens_length in F. specialize (F ltac:(fold P; lia)).
  pose proof (back_load_ok c (lens d1)) as B. rewrite lens_length in B. specialize (B ltac:(lia)).
  unfold f, g. clear f g. destruct (front_load c (lens d0)) as [lf tf]. destruct (back_load c (lens d1)) as [lg tg]. cbn [snd fst].
  destruct F as (F1 & F2 & F3). { intros j Hj. rewrite lens_nth. apply H0. lia. }
  destruct B as (B1 & B2 & B3). { intros j Hj. rewrite lens_nth. apply H1. lia. }
  destruct (trace_ok_run d0 F1 eq_refl) as [G1 G2]. destruct (trace_ok_run d1 B1 eq_refl) as [G3 G4].
  set (f := run_trace d0 tf) in *. set (g := run_trace d1 tg) in *.
  assert (Lf : length f = P) by (rewrite <- lens_length, G1; lia). assert (Lg : length g = P) by (rewrite <- lens_length, G3; lia).
  rewrite <- !glob_length in *.
  assert (Nf : forall j, j < P -> length (nth j f []) = fill c (length (glob d0)) j) by (intros j Hj; rewrite <- lens_nth, G1; apply F3; lia).
  assert (Ng : forall j, j < P -> length (nth j g []) = Nat.min (nth j c 0) (length (glob d1) - (list_sum c - psum c (S j)))) by (intros j Hj; rewrite <- lens_nth, G3; apply B3; lia).
  split; [auto|]. split; [auto|]. split; [auto|]. split; [auto|]. split; [auto|]. split; [auto|]. split.
  - intros j Hj. rewrite Nf, Ng by auto. unfold fill. pose proof (psum_S c (k:=j) ltac:(lia)). pose proof (psum_le_sum c (S j)). lia.
  - rewrite <- G2, <- G4. destruct (straddle c (length (glob d0)) ltac:(lia)) as (k & K1 & K2).
    assert (nil_of : forall (l : list A), length l = 0 -> l = []) by (intros [|]; [auto|discriminate]).
    apply glue_glob with k; [lia| |].
    + intros j Hj. destruct (Nat.lt_ge_cases j P) as [J|J]; [|apply nth_overflow; lia]. apply nil_of. rewrite Nf by auto. unfold fill. specialize (K1 j Hj). lia.
    + intros j Hj. destruct (Nat.lt_ge_cases j P) as [J|J]; [|apply nth_overflow; lia]. apply nil_of. rewrite Ng by auto. specialize (K2 j Hj). lia.
Qed.
